(** The gradient logged at the bottleneck of a wrapped convolution (C55). *)
From Coq Require Import ZArith Field.
From Verif Require Import Py PyStr Field Tensor ModelGrad Monad ModelState ModelMmap ModelSaver ModelLogger ModelModules ModelLora SpecGrad SpecLora GradProofs1 GradProofs2 GradProofs3 LoraProofs1 LoraProofs12.
Local Open Scope nat_scope.

Section P.
  Context {F : Type} `{OField F}.
  Notation tensor := (tensor F).
  Add Field fld13 : f_theory.

  Lemma nth4 (t : tensor) a b c d i j k l : shape t = [a; b; c; d] -> nth (i * (b * (c * d)) + (j * (c * d) + (k * d + l))) (data t) f0 = tget t [i; j; k; l].
  Proof. intros E. unfold tget. rewrite E. f_equal. cbn [ravel]. unfold prod. cbn [fold_right]. lia. Qed.
  Lemma dot4 (t u : tensor) a b c d : shape t = [a; b; c; d] -> shape u = [a; b; c; d] -> twf t ->
    dot t u = sum a (fun i => sum b (fun j => sum c (fun k => sum d (fun l => fmul (tget t [i; j; k; l]) (tget u [i; j; k; l]))))).
  Proof.
    intros Et Eu W. unfold dot. rewrite W, Et. replace (prod [a; b; c; d]) with (a * (b * (c * d))) by (unfold prod; cbn; lia).
    rewrite sum_mul. apply sum_ext. intros i _. rewrite sum_mul. apply sum_ext. intros j _. rewrite sum_mul. apply sum_ext. intros k _. apply sum_ext. intros l _.
    rewrite !(nth4 _ a b c d) by assumption. reflexivity.
  Qed.
  Lemma dot_slice4 (t u : tensor) a b c d i : shape t = [a; b; c; d] -> shape u = [a; b; c; d] -> twf t -> i < a ->
    dot (slice t i) (slice u i) = sum b (fun j => sum c (fun k => sum d (fun l => fmul (tget t [i; j; k; l]) (tget u [i; j; k; l])))).
  Proof.
    intros Et Eu W Hi. unfold dot. rewrite (slice_length_t a [b; c; d]) by assumption. assert (PE : prod [b; c; d] = b * (c * d)) by (unfold prod; cbn; lia). rewrite PE.
    rewrite sum_mul. apply sum_ext. intros j Hj. rewrite sum_mul. apply sum_ext. intros k Hk. apply sum_ext. intros l Hl.
    assert (Lt : j * (c * d) + (k * d + l) < prod [b; c; d]) by (rewrite PE; assert (k * d + l < c * d) by nia; nia).
    rewrite !(nth_slice_t a [b; c; d]) by assumption. rewrite PE, !(nth4 _ a b c d) by assumption. reflexivity.
  Qed.

  (** a convolution with kernel size 1 *)
  Lemma conv1x1_get r K (w : tensor) b B P Q (u : tensor) n k p q : n < B -> k < K -> p < P -> q < Q ->
    tget (conv2d (conv1x1 r K) w b B P Q P Q u) [n; k; p; q] = fadd (sum r (fun i => fmul (tget w [k; i; 0; 0]) (tget u [n; i; p; q]))) (b k).
  Proof.
    intros Hn Hk Hp Hq. unfold conv2d. cbn [conv1x1 c_in c_out c_groups c_kh c_kw c_sh c_sw c_dh c_dw c_ph c_pw]. rewrite tget_tgen by (apply valid4; assumption).
    cbn [ix nth]. rewrite !Nat.div_1_r. rewrite (Nat.div_small k K) by assumption. f_equal. apply sum_ext. intros i _. cbn [sum].
    replace (i + 0 * r) with i by lia. replace (p * 1 + 0 * 1) with p by lia. replace (q * 1 + 0 * 1) with q by lia.
    assert (X : pixel u P Q n i (Z.of_nat p - Z.of_nat 0) (Z.of_nat q - Z.of_nat 0) = tget u [n; i; p; q]).
    { unfold pixel. change (Z.of_nat 0) with 0%Z. rewrite !Z.sub_0_r.
      destruct (Z.leb_spec 0 (Z.of_nat p)); [|lia]. destruct (Z.ltb_spec (Z.of_nat p) (Z.of_nat P)); [|lia].
      destruct (Z.leb_spec 0 (Z.of_nat q)); [|lia]. destruct (Z.ltb_spec (Z.of_nat q) (Z.of_nat Q)); [|lia]. cbn [andb]. rewrite !Nat2Z.id. reflexivity. }
    rewrite X. ring.
  Qed.

  Section Back.
    Variables (B K r P Q : nat) (e wc : tensor).
    Hypothesis (Se : shape e = [B; K; P; Q]) (We : twf e).
    Definition back_conv : tensor := tgen [B; r; P; Q] (fun x => sum K (fun k => fmul (tget e [ix 0 x; k; ix 2 x; ix 3 x]) (tget wc [k; ix 1 x; 0; 0]))).
    Lemma back_conv_get n i p q : n < B -> i < r -> p < P -> q < Q -> tget back_conv [n; i; p; q] = sum K (fun k => fmul (tget e [n; k; p; q]) (tget wc [k; i; 0; 0])).
    Proof. intros. unfold back_conv. rewrite tget_tgen by (apply valid4; assumption). reflexivity. Qed.
    Lemma swap4 n (u : tensor) b : n < B ->
      sum K (fun k => sum P (fun p => sum Q (fun q => fmul (tget e [n; k; p; q]) (fadd (sum r (fun i => fmul (tget wc [k; i; 0; 0]) (tget u [n; i; p; q]))) (b k))))) =
      fadd (sum r (fun i => sum P (fun p => sum Q (fun q => fmul (tget back_conv [n; i; p; q]) (tget u [n; i; p; q])))))
           (sum K (fun k => sum P (fun p => sum Q (fun q => fmul (tget e [n; k; p; q]) (b k))))).
    Proof.
      intros Hn.
      transitivity (fadd (sum K (fun k => sum P (fun p => sum Q (fun q => sum r (fun i => fmul (fmul (tget e [n; k; p; q]) (tget wc [k; i; 0; 0])) (tget u [n; i; p; q]))))))
                         (sum K (fun k => sum P (fun p => sum Q (fun q => fmul (tget e [n; k; p; q]) (b k)))))).
      { rewrite <- sum_add. apply sum_ext. intros k _. rewrite <- sum_add. apply sum_ext. intros p _. rewrite <- sum_add. apply sum_ext. intros q _.
        replace (sum r (fun i => fmul (fmul (tget e [n; k; p; q]) (tget wc [k; i; 0; 0])) (tget u [n; i; p; q]))) with (fmul (tget e [n; k; p; q]) (sum r (fun i => fmul (tget wc [k; i; 0; 0]) (tget u [n; i; p; q])))); [ring|].
        rewrite <- sum_mul_l. apply sum_ext. intros i _. ring. }
      f_equal.
      transitivity (sum P (fun p => sum Q (fun q => sum r (fun i => sum K (fun k => fmul (fmul (tget e [n; k; p; q]) (tget wc [k; i; 0; 0])) (tget u [n; i; p; q])))))).
      { rewrite sum_swap. apply sum_ext. intros p _. rewrite sum_swap. apply sum_ext. intros q _. rewrite sum_swap. reflexivity. }
      transitivity (sum P (fun p => sum Q (fun q => sum r (fun i => fmul (tget back_conv [n; i; p; q]) (tget u [n; i; p; q]))))).
      { apply sum_ext. intros p Hp. apply sum_ext. intros q Hq. apply sum_ext. intros i Hi. rewrite back_conv_get by assumption. rewrite <- sum_mul_r. reflexivity. }
      transitivity (sum P (fun p => sum r (fun i => sum Q (fun q => fmul (tget back_conv [n; i; p; q]) (tget u [n; i; p; q]))))).
      { apply sum_ext. intros p _. rewrite sum_swap. reflexivity. }
      rewrite sum_swap. reflexivity.
    Qed.
    Lemma back_slice (b : nat -> F) (u : tensor) n : n < B -> shape u = [B; r; P; Q] ->
      dot (slice e n) (slice (conv2d (conv1x1 r K) wc b B P Q P Q u) n) =
      fadd (dot (slice back_conv n) (slice u n)) (sum K (fun k => sum P (fun p => sum Q (fun q => fmul (tget e [n; k; p; q]) (b k))))).
    Proof.
      intros Hn Su. rewrite (dot_slice4 e _ B K P Q n Se) by (reflexivity || assumption). rewrite (dot_slice4 back_conv u B r P Q n) by (reflexivity || assumption || apply tgen_wf).
      rewrite <- swap4 by exact Hn. apply sum_ext. intros k Hk. apply sum_ext. intros p Hp. apply sum_ext. intros q Hq. rewrite conv1x1_get by assumption. reflexivity.
    Qed.
    Lemma back_conv_gradient (b : nat -> F) : is_gradient (fun u => dot e (conv2d (conv1x1 r K) wc b B P Q P Q u)) [B; r; P; Q] back_conv.
    Proof.
      split; [apply (tgen_wf [B; r; P; Q])|]. intros U U' S1 S2 _ _.
      assert (X : forall u : tensor, shape u = [B; r; P; Q] -> dot e (conv2d (conv1x1 r K) wc b B P Q P Q u) =
        fadd (dot back_conv u) (sum B (fun n => sum K (fun k => sum P (fun p => sum Q (fun q => fmul (tget e [n; k; p; q]) (b k))))))).
      { intros u Su. rewrite (dot4 e _ B K P Q Se) by (reflexivity || assumption). rewrite (dot4 back_conv u B r P Q) by (reflexivity || assumption || apply tgen_wf).
        rewrite <- sum_add. apply sum_ext. intros n Hn. rewrite <- swap4 by exact Hn. apply sum_ext. intros k Hk. apply sum_ext. intros p Hp. apply sum_ext. intros q Hq. rewrite conv1x1_get by assumption. reflexivity. }
      rewrite !X by assumption. ring.
    Qed.
  End Back.

  Lemma conv_out_1 n : 0 < n -> conv_out n 0 1 1 1 n.
  Proof. intros P. unfold conv_out. rewrite Nat.div_1_r. repeat split; lia. Qed.

  Lemma lora_conv_projection g r B Hh Ww OH OW (x e wa wc gB : tensor) (b : nat -> F) :
    c_dh g = 1 -> c_dw g = 1 -> 0 < r -> 0 < B -> 0 < c_in g -> 0 < c_out g ->
    shape x = [B; c_in g; Hh; Ww] -> shape e = [B; c_out g; OH; OW] -> twf e ->
    conv_out Hh (c_ph g) (c_dh g) (c_kh g) (c_sh g) OH -> conv_out Ww (c_pw g) (c_dw g) (c_kw g) (c_sw g) OW ->
    shape gB = [B; r; OH; OW] -> is_gradient (fun u => dot e (conv2d (conv1x1 r (c_out g)) wc b B OH OW OH OW u)) [B; r; OH; OW] gB ->
    exists xa G GB, f_conv2d (enc_geom g r) wa None x = Ok xa /\ compute_per_sample_gradient x e (KConv2d g) = Ok G /\
      compute_per_sample_gradient xa gB (KConv2d (conv1x1 r r)) = Ok GB /\ shape GB = [B; r; r] /\ twf GB /\
      (forall a i j, a < B -> i < r -> j < r ->
         tget GB [a; i; j] = sum (c_out g) (fun k => sum (c_in g) (fun c => sum (c_kh g) (fun kh => sum (c_kw g) (fun kw =>
           fmul (fmul (tget wc [k; i; 0; 0]) (tget G [a; k; (c * c_kh g + kh) * c_kw g + kw])) (tget wa [j; c; kh; kw])))))) /\
      (forall bb a, a < B -> is_gradient (fun W => dot (slice e a) (slice (conv2d (conv1x1 r (c_out g)) wc b B OH OW OH OW (conv2d (conv1x1 r r) W bb B OH OW OH OW xa)) a))
         [r; r; 1; 1] (slice GB a)).
  Proof.
    intros D1 D2 Pr PB PI PO Sx Se We EH EW Sg Gg.
    set (xa := conv2d (enc_geom g r) wa (bias_at None) B Hh Ww OH OW x).
    assert (Sxa : shape xa = [B; c_in (conv1x1 r r); OH; OW]) by reflexivity.
    assert (Pos : 0 < OH /\ 0 < OW) by (destruct EH as (_ & _ & _ & ->), EW as (_ & _ & _ & ->); split; lia).
    assert (Wg : twf gB) by (destruct Gg as [L _]; unfold twf; rewrite Sg; exact L).
    assert (Dg : gB = back_conv B (c_out g) r OH OW e wc).
    { pose proof (gradient_unique _ _ _ _ Gg (back_conv_gradient B (c_out g) r OH OW e wc Se We b)) as E. destruct gB as [sg dg]. cbn in Sg, E. subst sg dg. unfold back_conv, tgen. reflexivity. }
    destruct (psg_conv_ok g B Hh Ww OH OW x e Sx Se EH EW PB PI PO) as (G & EG & WG & SG & GG).
    destruct (psg_conv_ok (conv1x1 r r) B OH OW OH OW xa gB Sxa Sg (conv_out_1 OH (proj1 Pos)) (conv_out_1 OW (proj2 Pos)) PB Pr Pr) as (GB & EGB & WGB & SGB & GGB).
    exists xa, G, GB. split.
    { apply f_conv2d_spec; [exact Sx| |]; cbn [enc_geom c_in c_ph c_pw c_dh c_dw c_kh c_kw c_sh c_sw]; [rewrite <- D1 at 1|rewrite <- D2 at 1]; assumption. }
    split; [exact EG|]. split; [exact EGB|].
    assert (SGB' : shape GB = [B; r; r]) by (rewrite SGB; cbn [conv1x1 c_in c_out c_kh c_kw]; f_equal; f_equal; f_equal; lia).
    split; [exact SGB'|]. split; [exact WGB|]. split.
    - intros a i j Ha Hi Hj. pose proof (GGB a i j 0 0 Ha Hi Hj (Nat.lt_0_1) (Nat.lt_0_1)) as E. cbn [conv1x1 c_kh c_kw] in E. replace ((j * 1 + 0) * 1 + 0) with j in E by lia. rewrite E. clear E.
      unfold ge.
      transitivity (sum OH (fun p => sum OW (fun q => fmul (sum (c_out g) (fun k => fmul (tget e [a; k; p; q]) (tget wc [k; i; 0; 0])))
        (sum (c_in g) (fun c => sum (c_kh g) (fun kh => sum (c_kw g) (fun kw => fmul (tget wa [j; c; kh; kw]) (pix g Hh Ww x a c kh kw p q)))))))).
      { apply sum_ext. intros p Hp. apply sum_ext. intros q Hq. rewrite Dg, back_conv_get by assumption. f_equal.
        unfold pix at 1. cbn [conv1x1 c_sh c_sw c_dh c_dw c_ph c_pw]. replace (p * 1 + 0 * 1) with p by lia. replace (q * 1 + 0 * 1) with q by lia.
        assert (X : pixel xa OH OW a j (Z.of_nat p - Z.of_nat 0) (Z.of_nat q - Z.of_nat 0) = tget xa [a; j; p; q]).
        { unfold pixel. change (Z.of_nat 0) with 0%Z. rewrite !Z.sub_0_r.
          destruct (Z.leb_spec 0 (Z.of_nat p)); [|lia]. destruct (Z.ltb_spec (Z.of_nat p) (Z.of_nat OH)); [|lia].
          destruct (Z.leb_spec 0 (Z.of_nat q)); [|lia]. destruct (Z.ltb_spec (Z.of_nat q) (Z.of_nat OW)); [|lia]. cbn [andb]. rewrite !Nat2Z.id. reflexivity. }
        rewrite X. unfold xa, conv2d. cbn [enc_geom c_in c_out c_groups c_kh c_kw c_sh c_sw c_dh c_dw c_ph c_pw]. rewrite tget_tgen by (apply valid4; assumption). cbn [ix nth bias_at].
        rewrite !Nat.div_1_r. rewrite (Nat.div_small j r) by assumption.
        match goal with |- fadd ?s f0 = _ => transitivity s; [ring|] end.
        apply sum_ext. intros c _. apply sum_ext. intros kh _. apply sum_ext. intros kw _. unfold pix. rewrite D1, D2. replace (c + 0 * c_in g) with c by lia. reflexivity. }
      transitivity (sum OH (fun p => sum OW (fun q => sum (c_out g) (fun k => sum (c_in g) (fun c => sum (c_kh g) (fun kh => sum (c_kw g) (fun kw =>
        fmul (fmul (tget wc [k; i; 0; 0]) (fmul (tget e [a; k; p; q]) (pix g Hh Ww x a c kh kw p q))) (tget wa [j; c; kh; kw])))))))).
      { apply sum_ext. intros p _. apply sum_ext. intros q _. rewrite <- sum_mul_r. apply sum_ext. intros k _. rewrite <- sum_mul_l. apply sum_ext. intros c _.
        rewrite <- sum_mul_l. apply sum_ext. intros kh _. rewrite <- sum_mul_l. apply sum_ext. intros kw _. ring. }
      transitivity (sum (c_out g) (fun k => sum (c_in g) (fun c => sum (c_kh g) (fun kh => sum (c_kw g) (fun kw => sum OH (fun p => sum OW (fun q =>
        fmul (fmul (tget wc [k; i; 0; 0]) (fmul (tget e [a; k; p; q]) (pix g Hh Ww x a c kh kw p q))) (tget wa [j; c; kh; kw])))))))).
      { transitivity (sum OH (fun p => sum (c_out g) (fun k => sum (c_in g) (fun c => sum (c_kh g) (fun kh => sum (c_kw g) (fun kw => sum OW (fun q =>
          fmul (fmul (tget wc [k; i; 0; 0]) (fmul (tget e [a; k; p; q]) (pix g Hh Ww x a c kh kw p q))) (tget wa [j; c; kh; kw])))))))).
        { apply sum_ext. intros p _. rewrite sum_swap. apply sum_ext. intros k _. rewrite sum_swap. apply sum_ext. intros c _. rewrite sum_swap. apply sum_ext. intros kh _. rewrite sum_swap. reflexivity. }
        rewrite sum_swap. apply sum_ext. intros k _. rewrite sum_swap. apply sum_ext. intros c _. rewrite sum_swap. apply sum_ext. intros kh _. rewrite sum_swap. reflexivity. }
      apply sum_ext. intros k Hk. apply sum_ext. intros c Hc. apply sum_ext. intros kh Hkh. apply sum_ext. intros kw Hkw. rewrite (GG a k c kh kw) by assumption. unfold ge.
      rewrite <- sum_mul_l, <- sum_mul_r. apply sum_ext. intros p _. rewrite <- sum_mul_l, <- sum_mul_r. reflexivity.
    - intros bb a Ha. destruct (psg_conv_correct (conv1x1 r r) B OH OW OH OW xa gB Sxa Sg Wg (conv_out_1 OH (proj1 Pos)) (conv_out_1 OW (proj2 Pos)) PB Pr Pr eq_refl) as (G' & EG' & _ & _ & C1).
      assert (G' = GB) by (cbn [compute_per_sample_gradient] in EG'; congruence). subst G'. destruct (C1 bb a Ha) as [L1 Df]. split; [exact L1|]. intros W W' S1 S2 W1 W2.
      cbn [conv1x1 c_in c_out c_kh c_kw c_groups] in Df. rewrite <- (Df W W' S1 S2 W1 W2). rewrite !(back_slice B (c_out g) r OH OW e wc Se We) by (reflexivity || assumption). rewrite Dg. ring.
  Qed.
End P.
