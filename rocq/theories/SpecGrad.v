(** Specification vocabulary for per-sample gradients: the textbook linear layer and convolution. *)
From Coq Require Import ZArith.
From Verif Require Import Py Field Tensor ModelGrad.
Local Open Scope nat_scope.

(** Broadcasting. Sizes are counted from the right, missing ones are 1. *)
Definition size_at (k : nat) (sh : list nat) : nat := nth k (rev sh) 1.
Definition incompatible (a b : list nat) : Prop :=
  exists k, size_at k a <> size_at k b /\ size_at k a <> 1 /\ size_at k b <> 1.
Definition broadcast (a b l : list nat) : Prop :=
  length l = max (length a) (length b) /\
  forall k, (size_at k a = size_at k l \/ size_at k a = 1) /\ (size_at k b = size_at k l \/ size_at k b = 1) /\
            (size_at k l = size_at k a \/ size_at k l = size_at k b).

Section Spec.
  Context {F : Type} `{OField F}.
  Notation tensor := (tensor F).

  (** Inner product of two tensors with the same number of entries. *)
  Definition dot (a b : tensor) : F := sum (length (data a)) (fun k => fmul (nth k (data a) f0) (nth k (data b) f0)).

  (** [G] is the gradient of the (affine) function [phi] of weights of shape [wsh]. *)
  Definition is_gradient (phi : tensor -> F) (wsh : list nat) (G : tensor) : Prop :=
    length (data G) = prod wsh /\
    forall W W' : tensor, shape W = wsh -> shape W' = wsh -> twf W -> twf W' ->
      fsub (phi W') (phi W) = fsub (dot G W') (dot G W).

  (** nn.Linear: y[..., i] = sum_j W[i, j] x[..., j] + b[i], [x] of shape lead ++ [J]. *)
  Definition linear (W : tensor) (b : nat -> F) (lead : list nat) (I J : nat) (x : tensor) : tensor :=
    T (lead ++ [I]) (data (mgen (prod lead) I (fun q i =>
      fadd (sum J (fun j => fmul (mget W i j) (mget (T [prod lead; J] (data x)) q j))) (b i)))).

  (** [t'] is [t], of leading sizes [lead], expanded to leading sizes [l]. *)
  Definition expanded (lead l : list nat) (n : nat) (t t' : tensor) : Prop :=
    shape t' = l ++ [n] /\ twf t' /\ forall i j, valid l i -> j < n -> exists i0, valid lead i0 /\
      (forall k, k < length lead -> nth k (rev i0) 0 = if size_at k lead =? 1 then 0 else nth k (rev i) 0) /\
      tget t' (i ++ [j]) = tget t (i0 ++ [j]).

  (** Zero-padded reading of an image at integer coordinates. *)
  Definition pixel (x : tensor) (H W n c : nat) (r q : Z) : F :=
    if ((0 <=? r) && (r <? Z.of_nat H) && (0 <=? q) && (q <? Z.of_nat W))%Z%bool
    then tget x [n; c; Z.to_nat r; Z.to_nat q] else f0.
  (** nn.Conv2d: input channel [ci] of the group of output channel [co] is [ci + co / (Cout/g) * (Cin/g)]. *)
  Definition conv2d (g : conv) (K : tensor) (b : nat -> F) (B H W OH OW : nat) (x : tensor) : tensor :=
    let cig := c_in g / c_groups g in
    let cog := c_out g / c_groups g in
    tgen [B; c_out g; OH; OW] (fun i =>
      let n := ix 0 i in let co := ix 1 i in let oh := ix 2 i in let ow := ix 3 i in
      fadd (sum cig (fun ci => sum (c_kh g) (fun kh => sum (c_kw g) (fun kw =>
              fmul (tget K [co; ci; kh; kw])
                   (pixel x H W n (ci + co / cog * cig)
                      (Z.of_nat (oh * c_sh g + kh * c_dh g) - Z.of_nat (c_ph g))
                      (Z.of_nat (ow * c_sw g + kw * c_dw g) - Z.of_nat (c_pw g))))))) (b co)).
  (** Output size of the convolution. *)
  Definition conv_out (n p d k s o : nat) : Prop :=
    0 < s /\ 0 < k /\ d * (k - 1) + 1 <= n + 2 * p /\ o = (n + 2 * p - d * (k - 1) - 1) / s + 1.
End Spec.
