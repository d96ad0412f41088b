(** Specification vocabulary for the unusual convolutions: inputs without batch dimension and other paddings. *)
From Coq Require Import ZArith.
From Verif Require Import Py Field Tensor ModelGrad SpecGrad.
Local Open Scope nat_scope.

(** The convolution that reads an image which has been padded already. *)
Definition unpadded (g : conv) : conv :=
  Conv (c_in g) (c_out g) (c_kh g) (c_kw g) (c_sh g) (c_sw g) 0 0 (c_dh g) (c_dw g) (c_groups g).
(** Row [r], column [q] of an image padded by [ph] rows and [pw] columns on each side lies in the padding. *)
Definition margin (H W ph pw r q : nat) : bool :=
  negb ((ph <=? r) && (r <? ph + H) && (pw <=? q) && (q <? pw + W)).

Section Spec.
  Context {F : Type} `{OField F}.
  Notation tensor := (tensor F).

  (** [xp] is [x] with a margin of any content. *)
  Definition pads (g : conv) (B H W : nat) (x xp : tensor) : Prop :=
    shape x = [B; c_in g; H; W] /\ shape xp = [B; c_in g; H + 2 * c_ph g; W + 2 * c_pw g] /\
    forall n c r q, n < B -> c < c_in g -> r < H -> q < W -> tget xp [n; c; r + c_ph g; q + c_pw g] = tget x [n; c; r; q].
  (** What the margin contributes to the gradient of kernel entry [o, c, kh, kw] of sample [n]. *)
  Definition margin_part (g : conv) (H W OH OW : nat) (xp e : tensor) (n o c kh kw : nat) : F :=
    sum OH (fun oh => sum OW (fun ow =>
      let r := oh * c_sh g + kh * c_dh g in let q := ow * c_sw g + kw * c_dw g in
      if margin H W (c_ph g) (c_pw g) r q then fmul (tget e [n; o; oh; ow]) (tget xp [n; c; r; q]) else f0)).

  (** Entry [p], counted row by row, of the matrix of patches of one image: one row per (channel, kernel row,
      kernel column), one column per output position. *)
  Definition patch (g : conv) (H W OH OW : nat) (x : tensor) (p : nat) : F :=
    let row := p / (OH * OW) in let col := p mod (OH * OW) in
    let k := c_kh g * c_kw g in
    pixel (T [1; c_in g; H; W] (data x)) H W 0 (row / k)
      (Z.of_nat (col / OW * c_sh g + row mod k / c_kw g * c_dh g) - Z.of_nat (c_ph g))
      (Z.of_nat (col mod OW * c_sw g + (row mod k) mod c_kw g * c_dw g) - Z.of_nat (c_pw g)).
End Spec.
