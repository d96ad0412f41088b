(** C90: convolutions with other paddings or without batch dimension, and tensors of unexpected rank. *)
From Coq Require Import ZArith QArith Qcanon.
From Verif Require Import Py Field Tensor ModelGrad Monad ModelState SpecGrad SpecState SpecConv GradProofs4 ExNum ExConv.
Local Open Scope nat_scope.

(** padding_mode other than "zeros": the gradient of the module is the logged one plus what its kernel reads in the padding. *)
Theorem C90_padding_mode {F} `{OField F} g B Hh Ww OH OW (x xp e : tensor F) :
  pads g B Hh Ww x xp -> shape e = [B; c_out g; OH; OW] -> twf e ->
  conv_out Hh (c_ph g) (c_dh g) (c_kh g) (c_sh g) OH -> conv_out Ww (c_pw g) (c_dw g) (c_kw g) (c_sw g) OW ->
  0 < B -> 0 < c_in g -> 0 < c_out g -> c_groups g = 1 ->
  exists G, psg_padded PadMode g x e = Ok G /\ shape G = [B; c_out g; c_in g * (c_kh g * c_kw g)] /\ twf G /\
    forall b a, a < B -> is_gradient (fun K => dot (slice e a) (slice (conv2d (unpadded g) K b B (Hh + 2 * c_ph g) (Ww + 2 * c_pw g) OH OW xp) a))
      [c_out g; c_in g; c_kh g; c_kw g]
      (tgen [c_out g; c_in g; c_kh g; c_kw g] (fun i =>
         fadd (tget G [a; ix 0 i; (ix 1 i * c_kh g + ix 2 i) * c_kw g + ix 3 i])
              (margin_part g Hh Ww OH OW xp e a (ix 0 i) (ix 1 i) (ix 2 i) (ix 3 i)))).
Proof. exact (psg_pad_mode g B Hh Ww OH OW x xp e). Qed.
Print Assumptions C90_padding_mode.
(** ... so it is not the gradient of a circular convolution. *)
Theorem C90_padding_mode_refuted : pads ring_conv 1 1 2 ring_img ring_padded /\ shape ring_err = [1; 1; 1; 2] /\ twf ring_err /\
  forall b, exists G, psg_padded PadMode ring_conv ring_img ring_err = Ok G /\
    ~ is_gradient (fun K => dot (slice ring_err 0) (slice (conv2d (unpadded ring_conv) K b 1 1 4 1 2 ring_padded) 0)) [1; 1; 1; 3] (slice G 0).
Proof. exact (conj ring_pads (conj eq_refl (conj eq_refl ring_wrong))). Qed.
Print Assumptions C90_padding_mode_refuted.
(** The statistics see zero padding as well. *)
Theorem C90_padding_rows {F} `{OField F} g (t d2 : tensor F) : twf t -> prod (shape t) <> 0 -> forward_padded PadMode t g = Ok d2 ->
  exists r k, shape d2 = [r; k] /\ vectors r k (mget d2) = concat (map (sample_rows (Some (KConv2d g)) "forward") (samples t)).
Proof. exact (pad_mode_rows g t d2). Qed.
Print Assumptions C90_padding_rows.
Theorem C90_padding_string {F} `{OField F} g (x e : tensor F) : (shape x <> [] -> psg_padded PadString g x e = Err TypeError) /\
  (shape x = [] -> psg_padded PadString g x e = Err IndexError) /\ forall t : tensor F, forward_padded PadString t g = Err TypeError.
Proof. exact (psg_pad_string g x e). Qed.
Print Assumptions C90_padding_string.
Example C90_padding_example : conv_out 1 0 1 1 1 1 /\ conv_out 2 1 1 3 1 2 /\
  rshow (psg_padded PadMode ring_conv ring_img ring_err) = Ok ([1; 1; 3], ints [1; 3; 2]%Z) /\
  map (margin_part ring_conv 1 2 1 2 ring_padded ring_err 0 0 0 0) [0; 1; 2] = map qz [2; 0; 1]%Z /\
  rshow (forward_padded PadMode ring_img ring_conv) = Ok ([2; 3], ints [0; 1; 2; 1; 2; 0]%Z).
Proof. repeat split; try (cbn; lia). Qed.

(** A single image without batch dimension: its channels are taken for samples. *)
Theorem C90_unbatched {F} `{OField F} g Hh Ww OH OW (x e : tensor F) :
  shape x = [c_in g; Hh; Ww] -> shape e = [c_out g; OH; OW] ->
  conv_out Hh (c_ph g) (c_dh g) (c_kh g) (c_sh g) OH -> conv_out Ww (c_pw g) (c_dw g) (c_kw g) (c_sw g) OW ->
  0 < c_in g -> 0 < c_out g ->
  let k := c_kh g * c_kw g in let J := c_out g * (OH * OW) / (c_in g * k) in
  (Nat.divide (c_in g * k) (c_out g * (OH * OW)) -> Nat.divide (c_in g * k) ((OH * OW) * (OH * OW)) ->
   exists G, compute_per_sample_gradient x e (KConv2d g) = Ok G /\ shape G = [c_in g; c_out g; (OH * OW) * (OH * OW) / (c_in g * k)] /\ twf G /\
     forall c j l, c < c_in g -> j < J -> l < OH * OW -> nth ((c * J + j) * (OH * OW) + l) (data G) f0 =
       sum k (fun i => fmul (nth ((c * J + j) * k + i) (data e) f0) (patch g Hh Ww OH OW x ((c * (OH * OW) + l) * k + i)))) /\
  (~ Nat.divide (c_in g * k) (c_out g * (OH * OW)) \/ ~ Nat.divide (c_in g * k) ((OH * OW) * (OH * OW)) ->
   compute_per_sample_gradient x e (KConv2d g) = Err RuntimeError).
Proof. exact (psg_unbatched g Hh Ww OH OW x e). Qed.
Print Assumptions C90_unbatched.
Theorem C90_unbatched_rows {F} `{OField F} (t : tensor F) g C Hh Ww : shape t = [C; Hh; Ww] -> 0 < c_sh g -> 0 < c_sw g -> 0 < c_kh g -> 0 < c_kw g ->
  make_2d t (Some (KConv2d g)) "backward" = Err RuntimeError /\
  make_2d t (Some (KConv2d g)) "forward" = Err (if (Ww + 2 * c_pw g <? c_kh g) || (c_kh g <? c_kw g) then RuntimeError else IndexError).
Proof. exact (make_2d_unbatched t g C Hh Ww). Qed.
Print Assumptions C90_unbatched_rows.
Example C90_unbatched_example :
  conv_out 1 0 1 1 1 1 /\ conv_out 2 0 1 1 1 2 /\ conv_out 3 0 1 2 1 2 /\ Nat.divide 4 4 /\ Nat.divide 4 16 /\
  rshow (compute_per_sample_gradient (zt [1; 1; 2] [1; 2]%Z) (zt [1; 1; 2] [3; 5]%Z) (KConv2d dot_conv1)) = Ok ([1; 1; 4], ints [3; 6; 5; 10]%Z) /\
  rshow (compute_per_sample_gradient (zt [2; 3; 2] [1; 2; 3; 4; 5; 6; 7; 8; 9; 10; 11; 12]%Z) (zt [1; 2; 2] [1; 0; 2; -1]%Z) (KConv2d pair_conv)) =
    Ok ([2; 1; 4], ints [1; 3; 3; 5; 6; 8; 8; 10]%Z) /\
  rshow (compute_per_sample_gradient (zt [2; 2; 1] [1; 2; 3; 4]%Z) (zt [1; 1; 1] [1]%Z) (KConv2d pair_conv)) = Err RuntimeError.
Proof. repeat split; try (cbn; lia); [exists 1; reflexivity|exists 4; reflexivity]. Qed.

(** Other ranks and log types. *)
Theorem C90_linear_scalar {F} `{OField F} k1 k2 (x e : tensor F) : shape x = [] \/ shape e = [] ->
  compute_per_sample_gradient x e (KLinear k1 k2) = Err RuntimeError.
Proof. exact (psg_linear_scalar k1 k2 x e). Qed.
Print Assumptions C90_linear_scalar.
Theorem C90_conv_rank {F} `{OField F} g (x e : tensor F) :
  (shape x = [] -> compute_per_sample_gradient x e (KConv2d g) = Err IndexError) /\
  (shape x <> [] -> length (shape x) <> 3 -> length (shape x) <> 4 -> compute_per_sample_gradient x e (KConv2d g) = Err RuntimeError).
Proof. exact (psg_conv_rank g x e). Qed.
Print Assumptions C90_conv_rank.
Theorem C90_rows_scalar {F} `{OField F} (t : tensor F) k1 k2 lt : shape t = [] -> make_2d t None lt = Err IndexError /\
  (lt = "forward"%string \/ lt = "backward"%string -> make_2d t (Some (KLinear k1 k2)) lt = Err IndexError).
Proof. exact (fun E => conj (make_2d_bare t lt E) (make_2d_scalar t k1 k2 lt E)). Qed.
Print Assumptions C90_rows_scalar.
Theorem C90_rows_type {F} `{OField F} (t : tensor F) k lt : lt <> "forward"%string -> lt <> "backward"%string -> make_2d t (Some k) lt = Err ValueError.
Proof. exact (make_2d_type t k lt). Qed.
Print Assumptions C90_rows_type.
Theorem C90_rows_module {F} `{OField F} (t : tensor F) k lt : lt = "forward"%string \/ lt = "backward"%string ->
  (forall i o, k <> KLinear i o) -> (forall g, k <> KConv2d g) -> make_2d t (Some k) lt = Err InvalidModuleError.
Proof. exact (make_2d_module t k lt). Qed.
Print Assumptions C90_rows_module.
Example C90_rank_example : rshow (compute_per_sample_gradient (zt [] [1]%Z) (zt [2; 1] [1; 2]%Z) (KLinear 1 1)) = Err RuntimeError /\
  rshow (compute_per_sample_gradient (zt [2; 1] [1; 2]%Z) (zt [2; 1] [1; 2]%Z) (KConv2d dot_conv1)) = Err RuntimeError /\
  rshow (make_2d (zt [] [1]%Z) None "grad") = Err IndexError /\ rshow (make_2d (zt [2] [1; 2]%Z) (Some (KLinear 1 1)) "grad") = Err ValueError /\
  rshow (make_2d (zt [2] [1; 2]%Z) (Some KEmbedding) "forward") = Err InvalidModuleError.
Proof. repeat split. Qed.
