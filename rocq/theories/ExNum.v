(** Rational tensors for the concrete examples. *)
From Coq Require Import ZArith QArith Qcanon.
From Verif Require Import Py Field Tensor ModelGrad SpecGrad.
Local Open Scope nat_scope.

Definition qz (z : Z) : Qc := Q2Qc (inject_Z z).
Definition zt (sh : list nat) (l : list Z) : tensor Qc := T sh (map qz l).
(** printable form of a rational tensor: numerators and denominators *)
Definition show (t : tensor Qc) : list nat * list Q := (shape t, map this (data t)).
Definition rshow (r : res (tensor Qc)) : res (list nat * list Q) := match r with Ok t => Ok (show t) | Err e => Err e end.
Definition ints (l : list Z) : list Q := map inject_Z l.

(** two samples, two positions, activations of size 2, errors of size 1 *)
Definition ex_fwd : tensor Qc := zt [2; 2; 2] [1; 2; 3; 4; 5; 6; 7; 8]%Z.
Definition ex_bwd : tensor Qc := zt [2; 2; 1] [1; -1; 2; 3]%Z.
(** a 2x2 image with two channels, 2x1 kernel, padding, stride and dilation *)
Definition ex_conv : conv := Conv 2 2 2 1 2 1 1 0 2 1 1.
Definition ex_img : tensor Qc := zt [1; 2; 3; 2] [1; 2; 3; 4; 5; 6; 7; 8; 9; 10; 11; 12]%Z.
Definition ex_cerr : tensor Qc := zt [1; 2; 2; 2] [1; 0; 2; -1; 0; 3; 1; 1]%Z.
Definition ex_gconv : conv := Conv 2 2 2 1 2 1 1 0 2 1 2.
