(** Proofs for convolution gradients and the flattening to rows. *)
From Coq Require Import ZArith.
From Verif Require Import Py Field Tensor ModelGrad SpecGrad GradProofs1.
Local Open Scope nat_scope.

Section Proofs.
  Context {F : Type} `{OField F}.
  Add Field FfG2 : f_theory.
  Notation tensor := (tensor F).

  Lemma reshape_infer_ok (t : tensor) pre post k : prod pre * prod post <> 0 ->
    prod (shape t) = prod pre * k * prod post -> reshape_infer t pre post = Ok (T (pre ++ k :: post) (data t)).
  Proof.
    intros N E. unfold reshape_infer. rewrite E. destruct (Nat.eqb_spec (prod pre * prod post) 0); [contradiction|].
    replace (prod pre * k * prod post) with (k * (prod pre * prod post)) by ring.
    rewrite Nat.mod_mul, Nat.div_mul by assumption. reflexivity.
  Qed.
  Lemma padded_pixel (x : tensor) B C H' W n c ph pw r q : shape x = [B; C; H'; W] ->
    padded x n c ph pw r q = pixel x H' W n c (Z.of_nat r - Z.of_nat ph) (Z.of_nat q - Z.of_nat pw).
  Proof.
    intros S. unfold padded, pixel. rewrite S.
    destruct (Nat.leb_spec ph r); cbn [andb].
    - destruct (Z.leb_spec 0 (Z.of_nat r - Z.of_nat ph)); [|lia]. cbn [andb].
      destruct (Nat.ltb_spec (r - ph) H'), (Z.ltb_spec (Z.of_nat r - Z.of_nat ph) (Z.of_nat H')); try lia; cbn [andb]; [|reflexivity].
      destruct (Nat.leb_spec pw q), (Z.leb_spec 0 (Z.of_nat q - Z.of_nat pw)); try lia; cbn [andb]; [|reflexivity].
      destruct (Nat.ltb_spec (q - pw) W), (Z.ltb_spec (Z.of_nat q - Z.of_nat pw) (Z.of_nat W)); try lia; [|reflexivity].
      f_equal. f_equal. f_equal. f_equal; [lia|]. f_equal. lia.
    - destruct (Z.leb_spec 0 (Z.of_nat r - Z.of_nat ph)); [lia|]. reflexivity.
  Qed.
  Lemma conv_out_size n p d k s o : conv_out n p d k s o -> out_size n p d k s = Ok o.
  Proof.
    intros (S & K & L & ->). unfold out_size.
    destruct (Nat.eqb_spec s 0); [lia|]. destruct (Nat.ltb_spec (n + 2 * p) (d * (k - 1) + 1)); [lia|]. cbn [orb].
    f_equal. f_equal. f_equal. lia.
  Qed.
  Lemma valid4 a b c d i j k l : i < a -> j < b -> k < c -> l < d -> valid [a; b; c; d] [i; j; k; l].
  Proof. repeat constructor; assumption. Qed.
  Lemma valid6 a b c d e f i j k l m n : i < a -> j < b -> k < c -> l < d -> m < e -> n < f ->
    valid [a; b; c; d; e; f] [i; j; k; l; m; n].
  Proof. repeat constructor; assumption. Qed.

  Section Conv.
    Variables (g : conv) (B Hh Ww OH OW : nat) (x e : tensor).
    Let C := c_in g. Let O := c_out g. Let KH := c_kh g. Let KW := c_kw g.
    Hypothesis (Sx : shape x = [B; C; Hh; Ww]) (Se : shape e = [B; O; OH; OW]).
    Hypothesis (EH : conv_out Hh (c_ph g) (c_dh g) KH (c_sh g) OH) (EW : conv_out Ww (c_pw g) (c_dw g) KW (c_sw g) OW).
    Hypothesis (PB : 0 < B) (PC : 0 < C) (PO : 0 < O).
    Let R := C * (KH * KW). Let L := OH * OW.
    Let pos : 0 < KH /\ 0 < KW /\ 0 < OH /\ 0 < OW.
    Proof. destruct EH as (?&?&?&->), EW as (?&?&?&->). repeat split; try assumption; rewrite Nat.add_1_r; apply Nat.lt_0_succ. Qed.

    Definition pix n c kh kw oh ow : F := pixel x Hh Ww n c
      (Z.of_nat (oh * c_sh g + kh * c_dh g) - Z.of_nat (c_ph g)) (Z.of_nat (ow * c_sw g + kw * c_dw g) - Z.of_nat (c_pw g)).
    Definition err n o l : F := tget (T [B; O; L] (data e)) [n; o; l].
    (** kernel-gradient entry of output channel [o] against input channel [c] *)
    Definition ge n o c kh kw : F := sum OH (fun oh => sum OW (fun ow => fmul (tget e [n; o; oh; ow]) (pix n c kh kw oh ow))).

    Lemma psg_conv_ok : exists G, psg_conv2d g x e = Ok G /\ twf G /\ shape G = [B; O; R] /\
      forall n o c kh kw, n < B -> o < O -> c < C -> kh < KH -> kw < KW ->
        tget G [n; o; (c * KH + kh) * KW + kw] = ge n o c kh kw.
    Proof.
      destruct pos as (P1 & P2 & P3 & P4).
      assert (PR : R <> 0) by (unfold R; apply Nat.neq_mul_0; split; [lia|apply Nat.neq_mul_0; lia]).
      assert (PL : L <> 0) by (unfold L; apply Nat.neq_mul_0; lia).
      unfold psg_conv2d. rewrite Sx. unfold f_unfold, unfold_rows. rewrite Sx.
      pose proof (conv_out_size _ _ _ _ _ _ EH) as QH. pose proof (conv_out_size _ _ _ _ _ _ EW) as QW.
      unfold KH in QH. unfold KW in QW. rewrite QH, QW.
      cbn [bind shape nth fst snd]. fold KH KW. fold R. fold L.
      match goal with |- context [tgen ?s ?f] => set (U := data (tgen s f)) end.
      rewrite (reshape_infer_ok (T [B; R; L] U) [B; R] [] L).
      2:{ change (prod [B; R]) with (B * (R * 1)). change (prod []) with 1. rewrite !Nat.mul_1_r. apply Nat.neq_mul_0. lia. }
      2:{ cbn [shape]. change (prod [B; R; L]) with (B * (R * (L * 1))). change (prod [B; R]) with (B * (R * 1)). change (prod []) with 1. ring. }
      cbn [bind shape nth app data].
      rewrite (reshape_infer_ok e [B] [L] O).
      2:{ change (prod [B]) with (B * 1). change (prod [L]) with (L * 1). rewrite !Nat.mul_1_r. apply Nat.neq_mul_0. lia. }
      2:{ rewrite Se. change (prod [B; O; OH; OW]) with (B * (O * (OH * (OW * 1)))). change (prod [B]) with (B * 1). change (prod [L]) with (L * 1). unfold L. ring. }
      cbn [bind app]. unfold einsum_ijk_ilk. cbn [shape]. rewrite !Nat.eqb_refl. cbn [andb bind].
      match goal with |- context [tgen ?s ?f] => set (V := tgen s f) end.
      rewrite (reshape_infer_ok V [B; c_out g] [] R).
      2:{ change (prod [B; c_out g]) with (B * (O * 1)). change (prod []) with 1. rewrite !Nat.mul_1_r. apply Nat.neq_mul_0. lia. }
      2:{ change (prod (shape V)) with (B * (O * (R * 1))). change (prod [B; c_out g]) with (B * (O * 1)). change (prod []) with 1. ring. }
      eexists. split; [reflexivity|]. cbn [app]. change (c_out g) with O. split; [apply (tgen_wf [B; O; R])|]. split; [reflexivity|].
      intros n o c kh kw Ln Lo Lc Lkh Lkw. unfold V.
      assert (Lr : (c * KH + kh) * KW + kw < R).
      { unfold R. assert (c * KH + kh < C * KH) by nia. replace (C * (KH * KW)) with ((C * KH) * KW) by ring. nia. }
      rewrite (tget_regen [B; O; R] _ [B; O; R] [n; o; (c * KH + kh) * KW + kw] [n; o; (c * KH + kh) * KW + kw]);
        [|apply valid3; assumption|reflexivity].
      cbn [ix nth]. unfold L at 1. rewrite sum_mul. unfold ge. apply sum_ext. intros oh Loh. apply sum_ext. intros ow Low. f_equal.
      - apply tget_reshape. rewrite Se. cbn [ravel]. change (prod [O; L]) with (O * (L * 1)). change (prod [L]) with (L * 1).
        change (prod [O; OH; OW]) with (O * (OH * (OW * 1))). change (prod [OH; OW]) with (OH * (OW * 1)). change (prod [OW]) with (OW * 1).
        change (prod []) with 1. unfold L. ring.
      - unfold U. rewrite (tget_regen _ _ _ _ [n; c; kh; kw; oh; ow]).
        + cbn [ix nth]. rewrite (padded_pixel x B C Hh Ww) by exact Sx. reflexivity.
        + apply valid6; assumption.
        + cbn [ravel]. change (prod [R; L]) with (R * (L * 1)). change (prod [L]) with (L * 1). change (prod [C; KH; KW; OH; OW]) with (C * (KH * (KW * (OH * (OW * 1))))).
          change (prod [KH; KW; OH; OW]) with (KH * (KW * (OH * (OW * 1)))). change (prod [KW; OH; OW]) with (KW * (OH * (OW * 1))).
          change (prod [OH; OW]) with (OH * (OW * 1)). change (prod [OW]) with (OW * 1). change (prod []) with 1. unfold R, L. ring.
    Qed.

    (** dot with the outputs *)
    Hypothesis We : twf e.
    Variable b : nat -> F.
    Let cig := C / c_groups g. Let cog := O / c_groups g.
    Definition out_val (K : tensor) n o oh ow : F :=
      fadd (sum cig (fun c => sum KH (fun kh => sum KW (fun kw => fmul (tget K [o; c; kh; kw]) (pix n (c + o / cog * cig) kh kw oh ow))))) (b o).
    Lemma dot_conv K n : n < B -> dot (slice e n) (slice (conv2d g K b B Hh Ww OH OW x) n) =
      sum O (fun o => sum OH (fun oh => sum OW (fun ow => fmul (tget e [n; o; oh; ow]) (out_val K n o oh ow)))).
    Proof.
      intros Ln. unfold dot. rewrite (slice_length_t B [O; OH; OW]) by assumption.
      change (prod [O; OH; OW]) with (O * (OH * (OW * 1))). rewrite Nat.mul_1_r, sum_mul. apply sum_ext. intros o Lo.
      rewrite sum_mul. apply sum_ext. intros oh Loh. apply sum_ext. intros ow Low.
      assert (Lj : o * (OH * OW) + (oh * OW + ow) < prod [O; OH; OW]).
      { change (prod [O; OH; OW]) with (O * (OH * (OW * 1))). assert (oh * OW + ow < OH * OW) by nia. nia. }
      rewrite (nth_slice_t B [O; OH; OW] e) by assumption.
      rewrite (nth_slice_t B [O; OH; OW] (conv2d g K b B Hh Ww OH OW x)) by (auto; reflexivity).
      assert (RV : n * prod [O; OH; OW] + (o * (OH * OW) + (oh * OW + ow)) = ravel [B; O; OH; OW] [n; o; oh; ow]).
      { cbn [ravel]. change (prod [O; OH; OW]) with (O * (OH * (OW * 1))). change (prod [OH; OW]) with (OH * (OW * 1)).
        change (prod [OW]) with (OW * 1). change (prod []) with 1. ring. }
      rewrite RV. f_equal; [unfold tget; rewrite Se; reflexivity|].
      unfold conv2d. rewrite nth_tgen by (apply ravel_lt; apply valid4; assumption).
      rewrite unravel_ravel by (apply valid4; assumption). reflexivity.
    Qed.
    (** the part of the output pairing that depends on the kernel *)
    Lemma dot_conv_lin K n : n < B -> dot (slice e n) (slice (conv2d g K b B Hh Ww OH OW x) n) =
      fadd (sum O (fun o => sum cig (fun c => sum KH (fun kh => sum KW (fun kw =>
             fmul (ge n o (c + o / cog * cig) kh kw) (tget K [o; c; kh; kw]))))))
           (sum O (fun o => sum OH (fun oh => sum OW (fun ow => fmul (tget e [n; o; oh; ow]) (b o))))).
    Proof.
      intros Ln. rewrite dot_conv by exact Ln. rewrite <- sum_add. apply sum_ext. intros o Lo.
      transitivity (fadd (sum OH (fun oh => sum OW (fun ow => sum cig (fun c => sum KH (fun kh => sum KW (fun kw =>
         fmul (fmul (tget e [n; o; oh; ow]) (pix n (c + o / cog * cig) kh kw oh ow)) (tget K [o; c; kh; kw])))))))
         (sum OH (fun oh => sum OW (fun ow => fmul (tget e [n; o; oh; ow]) (b o))))).
      - rewrite <- sum_add. apply sum_ext. intros oh _. rewrite <- sum_add. apply sum_ext. intros ow _. unfold out_val.
        set (u := tget e [n; o; oh; ow]).
        transitivity (fadd (fmul u (sum cig (fun c => sum KH (fun kh => sum KW (fun kw => fmul (tget K [o; c; kh; kw]) (pix n (c + o / cog * cig) kh kw oh ow)))))) (fmul u (b o))); [ring|].
        f_equal. rewrite <- sum_mul_l. apply sum_ext. intros c _. rewrite <- sum_mul_l. apply sum_ext. intros kh _.
        rewrite <- sum_mul_l. apply sum_ext. intros kw _. ring.
      - f_equal. 
        transitivity (sum OH (fun oh => sum cig (fun c => sum OW (fun ow => sum KH (fun kh => sum KW (fun kw =>
          fmul (fmul (tget e [n; o; oh; ow]) (pix n (c + o / cog * cig) kh kw oh ow)) (tget K [o; c; kh; kw]))))))).
        { apply sum_ext. intros oh _. apply sum_swap. }
        rewrite sum_swap. apply sum_ext. intros c _.
        transitivity (sum OH (fun oh => sum KH (fun kh => sum OW (fun ow => sum KW (fun kw =>
          fmul (fmul (tget e [n; o; oh; ow]) (pix n (c + o / cog * cig) kh kw oh ow)) (tget K [o; c; kh; kw])))))).
        { apply sum_ext. intros oh _. apply sum_swap. }
        rewrite sum_swap. apply sum_ext. intros kh _.
        transitivity (sum OH (fun oh => sum KW (fun kw => sum OW (fun ow =>
          fmul (fmul (tget e [n; o; oh; ow]) (pix n (c + o / cog * cig) kh kw oh ow)) (tget K [o; c; kh; kw]))))).
        { apply sum_ext. intros oh _. apply sum_swap. }
        rewrite sum_swap. apply sum_ext. intros kw _. unfold ge. rewrite <- sum_mul_r. apply sum_ext. intros oh _.
        apply sum_mul_r.
    Qed.
    (** ungrouped: the whole logged gradient is the gradient *)
    Lemma dot_G K G n : c_groups g = 1 -> n < B -> twf G -> shape G = [B; O; R] -> shape K = [O; C; KH; KW] ->
      (forall n o c kh kw, n < B -> o < O -> c < C -> kh < KH -> kw < KW ->
        tget G [n; o; (c * KH + kh) * KW + kw] = ge n o c kh kw) ->
      dot (slice G n) K = sum O (fun o => sum cig (fun c => sum KH (fun kh => sum KW (fun kw =>
             fmul (ge n o (c + o / cog * cig) kh kw) (tget K [o; c; kh; kw]))))).
    Proof.
      intros Eg Ln WG SG SK EG. unfold cig, cog. rewrite Eg, !Nat.div_1_r.
      unfold dot. rewrite (slice_length_t B [O; R]) by assumption. change (prod [O; R]) with (O * (R * 1)).
      rewrite Nat.mul_1_r, sum_mul. apply sum_ext. intros o Lo. unfold R at 1. rewrite sum_mul. apply sum_ext. intros c Lc.
      rewrite sum_mul. apply sum_ext. intros kh Lkh. apply sum_ext. intros kw Lkw.
      assert (Lr : c * (KH * KW) + (kh * KW + kw) < R).
      { unfold R. assert (kh * KW + kw < KH * KW) by nia. nia. }
      rewrite (nth_slice_t B [O; R]); [|assumption|change (prod [O; R]) with (O * (R * 1)); nia].
      rewrite (Nat.div_small o O) by assumption. rewrite Nat.mul_0_l, Nat.add_0_r.
      rewrite <- EG by assumption. f_equal.
      - unfold tget. f_equal. rewrite SG. cbn [ravel]. change (prod [O; R]) with (O * (R * 1)). change (prod [R]) with (R * 1). change (prod []) with 1. ring.
      - unfold tget. f_equal. rewrite SK. cbn [ravel]. change (prod [C; KH; KW]) with (C * (KH * (KW * 1))). change (prod [KH; KW]) with (KH * (KW * 1)).
        change (prod [KW]) with (KW * 1). change (prod []) with 1. unfold R. ring.
    Qed.
  End Conv.
End Proofs.
