(** C17-C18: per-sample gradients (logix/logging/utils.py). *)
From Coq Require Import ZArith QArith Qcanon.
From Verif Require Import Py Field Tensor ModelGrad SpecGrad GradProofs3 ExNum.
Local Open Scope nat_scope.

(** C17. The logged gradient of every sample is the gradient of <error, linear(W, activation)> in W, and the
    batch gradient is the sum over samples. *)
Theorem C17_linear {F} `{OField F} n mid NI NJ k1 k2 (x e : tensor F) : twf e ->
  shape x = n :: mid ++ [NJ] -> shape e = n :: mid ++ [NI] ->
  exists G, compute_per_sample_gradient x e (KLinear k1 k2) = Ok G /\ shape G = [n; NI; NJ] /\ twf G /\
    (forall b a, a < n -> is_gradient (fun W => dot (slice e a) (slice (linear W b (n :: mid) NI NJ x) a)) [NI; NJ] (slice G a)) /\
    (forall b W W', shape W = [NI; NJ] -> shape W' = [NI; NJ] ->
       fsub (dot e (linear W' b (n :: mid) NI NJ x)) (dot e (linear W b (n :: mid) NI NJ x)) =
       sum n (fun a => fsub (dot (slice G a) W') (dot (slice G a) W))).
Proof. exact (psg_linear_correct n mid NI NJ k1 k2 x e). Qed.
Print Assumptions C17_linear.
(** a function has at most one gradient *)
Theorem C17_unique {F} `{OField F} (phi : tensor F -> F) wsh (G G' : tensor F) :
  is_gradient phi wsh G -> is_gradient phi wsh G' -> data G = data G'.
Proof. exact (gradient_unique phi wsh G G'). Qed.
Print Assumptions C17_unique.
Theorem C17_mismatch {F} `{OField F} lx le NI NJ k1 k2 (x e : tensor F) : shape x = lx ++ [NJ] -> shape e = le ++ [NI] ->
  incompatible lx le -> compute_per_sample_gradient x e (KLinear k1 k2) = Err RuntimeError.
Proof. exact (psg_linear_mismatch lx le NI NJ k1 k2 x e). Qed.
Print Assumptions C17_mismatch.
(** Leading sizes of 1, and missing ones, are broadcast. *)
Theorem C17_broadcast {F} `{OField F} lx le NI NJ k1 k2 (x e : tensor F) : shape x = lx ++ [NJ] -> shape e = le ++ [NI] -> twf x -> twf e ->
  ~ incompatible lx le ->
  exists l x' e', broadcast lx le l /\ expanded lx l NJ x x' /\ expanded le l NI e e' /\
    compute_per_sample_gradient x e (KLinear k1 k2) = compute_per_sample_gradient x' e' (KLinear k1 k2).
Proof. exact (psg_linear_broadcast lx le NI NJ k1 k2 x e). Qed.
Print Assumptions C17_broadcast.
Theorem C17_unbatched {F} `{OField F} NI NJ k1 k2 (x e : tensor F) : shape x = [NJ] -> shape e = [NI] ->
  compute_per_sample_gradient x e (KLinear k1 k2) = Err RuntimeError.
Proof. exact (psg_linear_unbatched NI NJ k1 k2 x e). Qed.
Print Assumptions C17_unbatched.
Theorem C17_unsupported {F} `{OField F} (x e : tensor F) :
  compute_per_sample_gradient x e KConv1d = Err NotImplementedError /\
  compute_per_sample_gradient x e KEmbedding = Err ValueError /\
  compute_per_sample_gradient x e KOther = Err ValueError.
Proof. exact (psg_other x e). Qed.
Print Assumptions C17_unsupported.
Example C17_example : twf ex_bwd /\ shape ex_fwd = 2 :: [2] ++ [2] /\ shape ex_bwd = 2 :: [2] ++ [1] /\
  rshow (compute_per_sample_gradient ex_fwd ex_bwd (KLinear 2 1)) = Ok ([2; 1; 2], ints [-2; -2; 31; 36]%Z).
Proof. repeat split. Qed.

(** An input without batch dimension is broadcast over the samples of the gradient; sizes 2 and 3 are incompatible. *)
Example C17_broadcast_example : ~ incompatible [] [2] /\ incompatible [2] [3] /\
  rshow (compute_per_sample_gradient (zt [2] [1; 2]%Z) (zt [2; 1] [3; -1]%Z) (KLinear 2 1)) = Ok ([2; 1; 2], ints [3; 6; -1; -2]%Z).
Proof.
  split; [intros (k & _ & N & _); unfold size_at in N; destruct k; apply N; reflexivity|].
  split; [exists 0; cbn; lia|reflexivity].
Qed.

(** C18. Convolutions of any kernel size, stride, zero padding and dilation. *)
Theorem C18_conv2d {F} `{OField F} g B Hh Ww OH OW (x e : tensor F) :
  shape x = [B; c_in g; Hh; Ww] -> shape e = [B; c_out g; OH; OW] -> twf e ->
  conv_out Hh (c_ph g) (c_dh g) (c_kh g) (c_sh g) OH -> conv_out Ww (c_pw g) (c_dw g) (c_kw g) (c_sw g) OW ->
  0 < B -> 0 < c_in g -> 0 < c_out g -> c_groups g = 1 ->
  exists G, compute_per_sample_gradient x e (KConv2d g) = Ok G /\
    shape G = [B; c_out g; c_in g * (c_kh g * c_kw g)] /\ twf G /\
    forall b a, a < B -> is_gradient (fun K => dot (slice e a) (slice (conv2d g K b B Hh Ww OH OW x) a))
                           [c_out g; c_in g; c_kh g; c_kw g] (slice G a).
Proof. exact (psg_conv_correct g B Hh Ww OH OW x e). Qed.
Print Assumptions C18_conv2d.
(** Grouped convolutions: [groups] times as many entries as the weight; the true gradient is the
    sub-array of each output channel against the input channels of its group. *)
Theorem C18_grouped {F} `{OField F} g B Hh Ww OH OW (x e : tensor F) :
  shape x = [B; c_in g; Hh; Ww] -> shape e = [B; c_out g; OH; OW] -> twf e ->
  conv_out Hh (c_ph g) (c_dh g) (c_kh g) (c_sh g) OH -> conv_out Ww (c_pw g) (c_dw g) (c_kw g) (c_sw g) OW ->
  0 < B -> 0 < c_in g -> 0 < c_out g -> 0 < c_groups g -> c_in g mod c_groups g = 0 -> c_out g mod c_groups g = 0 ->
  exists G, compute_per_sample_gradient x e (KConv2d g) = Ok G /\
    shape G = [B; c_out g; c_in g * (c_kh g * c_kw g)] /\ twf G /\
    (forall a, a < B -> length (data (slice G a)) = c_groups g * prod [c_out g; c_in g / c_groups g; c_kh g; c_kw g]) /\
    forall b a, a < B -> is_gradient (fun K => dot (slice e a) (slice (conv2d g K b B Hh Ww OH OW x) a))
      [c_out g; c_in g / c_groups g; c_kh g; c_kw g]
      (tgen [c_out g; c_in g / c_groups g; c_kh g; c_kw g] (fun i =>
         tget G [a; ix 0 i; ((ix 1 i + ix 0 i / (c_out g / c_groups g) * (c_in g / c_groups g)) * c_kh g + ix 2 i) * c_kw g + ix 3 i])).
Proof. exact (psg_conv_grouped g B Hh Ww OH OW x e). Qed.
Print Assumptions C18_grouped.
Theorem C18_too_small {F} `{OField F} g B C Hh Ww (x e : tensor F) : shape x = [B; C; Hh; Ww] ->
  Hh + 2 * c_ph g < c_dh g * (c_kh g - 1) + 1 -> compute_per_sample_gradient x e (KConv2d g) = Err RuntimeError.
Proof. exact (psg_conv_small g B C Hh Ww x e). Qed.
Print Assumptions C18_too_small.
Example C18_example :
  shape ex_img = [1; c_in ex_conv; 3; 2] /\ shape ex_cerr = [1; c_out ex_conv; 2; 2] /\ twf ex_cerr /\
  conv_out 3 (c_ph ex_conv) (c_dh ex_conv) (c_kh ex_conv) (c_sh ex_conv) 2 /\
  conv_out 2 (c_pw ex_conv) (c_dw ex_conv) (c_kw ex_conv) (c_sw ex_conv) 2 /\
  rshow (compute_per_sample_gradient ex_img ex_cerr (KConv2d ex_conv)) = Ok ([1; 2; 4], ints [2; 3; 8; 9; 7; 12; 19; 30]%Z).
Proof. repeat split; try (cbn; lia). Qed.
Example C18_grouped_example :
  c_in ex_gconv mod c_groups ex_gconv = 0 /\ c_out ex_gconv mod c_groups ex_gconv = 0 /\
  rshow (compute_per_sample_gradient ex_img ex_cerr (KConv2d ex_gconv)) = Ok ([1; 2; 4], ints [2; 3; 8; 9; 7; 12; 19; 30]%Z).
Proof. repeat split. Qed.
