(** Vocabulary for influence runs with corrected eigenvalues: which optimizer step a test sample belongs to. *)
From Verif Require Import Py Field Tensor ModelGrad ModelState ModelInfluence SpecGrad SpecState SpecInfluence.
Local Open Scope nat_scope.

(** [ns]: number of micro-batches of every step; [ks]: number of samples of every micro-batch *)
Fixpoint step_sizes (ns ks : list nat) : list nat :=
  match ns with [] => [] | n :: r => fold_right Nat.add 0 (firstn n ks) :: step_sizes r (skipn n ks) end.
(** the step of sample number [i], counted from 0 *)
Fixpoint step_of (zs : list nat) (i : nat) : nat :=
  match zs with [] => 0 | z :: r => if i <? z then 0 else S (step_of r (i - z)) end.
(** In the eigenbasis, sample [p] times (eigenvalue + d) is [g]. *)
Definition eig_row {F} `{OField F} (d : F) (vb vf e p g : tensor F) (a b : nat) : Prop :=
  forall i j, i < a -> j < b -> fmul (project vb vf i j p) (fadd (mget e i j) d) = project vb vf i j g.
