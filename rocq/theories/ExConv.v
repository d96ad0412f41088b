(** A circular convolution and inputs without batch dimension. *)
From Coq Require Import ZArith QArith Qcanon.
From Verif Require Import Py Field Tensor ModelGrad SpecGrad SpecConv GradProofs3 GradProofs4 ExNum.
Local Open Scope nat_scope.

(** one channel, kernel 1x3, one column of padding on each side *)
Definition ring_conv : conv := Conv 1 1 1 3 1 1 0 1 1 1 1.
Definition ring_img : tensor Qc := zt [1; 1; 1; 2] [1; 2]%Z.
(** the image as padding_mode="circular" extends it *)
Definition ring_padded : tensor Qc := zt [1; 1; 1; 4] [2; 1; 2; 1]%Z.
Definition ring_err : tensor Qc := zt [1; 1; 1; 2] [1; 1]%Z.
Lemma ring_pads : pads ring_conv 1 1 2 ring_img ring_padded.
Proof.
  split; [reflexivity|]. split; [reflexivity|]. intros n c r q Ln Lc Lr Lq.
  destruct n; [|lia]. destruct c; [|cbn in Lc; lia]. destruct r; [|lia]. destruct q as [|[|q]]; [reflexivity|reflexivity|lia].
Qed.
Lemma ring_wrong b : exists G, psg_padded PadMode ring_conv ring_img ring_err = Ok G /\
  ~ is_gradient (fun K => dot (slice ring_err 0) (slice (conv2d (unpadded ring_conv) K b 1 1 4 1 2 ring_padded) 0)) [1; 1; 1; 3] (slice G 0).
Proof.
  assert (E1 : conv_out 1 0 1 1 1 1) by (repeat split; lia). assert (E2 : conv_out 2 1 1 3 1 2) by (repeat split; cbn; lia).
  destruct (psg_pad_mode ring_conv 1 1 2 1 2 ring_img ring_padded ring_err ring_pads eq_refl eq_refl E1 E2) as (G & E & _ & _ & X); try (cbn; lia).
  exists G. split; [exact E|]. intros Y. specialize (X b 0 (le_n 1)). pose proof (gradient_unique _ _ _ _ Y X) as Q.
  assert (EG : Ok G = psg_padded PadMode ring_conv ring_img ring_err) by (symmetry; exact E). clear E X Y.
  injection EG as ->. vm_compute in Q. discriminate Q.
Qed.

(** one channel, 1x1 kernel, two output positions: one "sample" with four entries for a kernel of one *)
Definition dot_conv1 : conv := Conv 1 1 1 1 1 1 0 0 1 1 1.
(** two channels, 2x1 kernel, four output positions *)
Definition pair_conv : conv := Conv 2 1 2 1 1 1 0 0 1 1 1.
