(** LoRA layers with a zero bottleneck compute the function of the wrapped layer. *)
From Verif Require Import Py PyStr Field Tensor ModelGrad Monad ModelState ModelMmap ModelSaver ModelLogger ModelModules ModelLora SpecLora GradProofs1.
Local Open Scope nat_scope.

Section P.
  Context {F : Type} `{OField F}.
  Add Field FF : f_theory.
  Notation tensor := (tensor F).
  Notation weights := (dict mid (tensor * option tensor)).
  Context (usr : mid -> list (string * (tensor -> res tensor)) -> tensor -> res tensor).

  Lemma split_last_inv (sh : list nat) l k : split_last sh = Some (l, k) -> sh = l ++ [k].
  Proof.
    unfold split_last. destruct (rev sh) as [|x r] eqn:E; [discriminate|]. intros [= <- <-].
    rewrite <- (rev_involutive sh), E. reflexivity.
  Qed.
  Lemma tgen_zero sh (f : list nat -> F) : (forall i, valid sh i -> f i = f0) -> tgen sh f = tzeros sh.
  Proof.
    intros E. apply tensor_ext; [apply tgen_wf|apply tzeros_wf|reflexivity|]. intros i V.
    rewrite tget_tgen, tget_tzeros by exact V. apply E, V.
  Qed.
  Lemma tadd_zeros (t : tensor) : twf t -> tadd t (tzeros (shape t)) = Ok t.
  Proof.
    intros W. unfold tadd. rewrite tzip_ok by reflexivity. f_equal. destruct t as [sh d]. unfold twf, tzeros in *. cbn [shape data] in *. f_equal.
    revert W. generalize (prod sh). clear. induction d as [|x d IH]; intros n E; [destruct n; [reflexivity|discriminate]|].
    destruct n as [|n]; [discriminate|]. cbn. rewrite IH by (cbn in E; lia). f_equal. ring.
  Qed.
  Lemma expand_to_same (t : tensor) sh : shape t = sh -> expand_to t sh = Ok t.
  Proof. intros <-. unfold expand_to. rewrite same_shape_refl. reflexivity. Qed.

  Lemma data_mgen_zero n m (f : nat -> nat -> F) : (forall i j, i < n -> j < m -> f i j = f0) -> data (mgen n m f) = repeat f0 (n * m).
  Proof.
    intros E. assert (E' : mgen n m f = tzeros [n; m]).
    { apply (mat_ext n m); try reflexivity; [apply tgen_wf|apply tzeros_wf|]. intros i j Hi Hj. rewrite mget_mgen by assumption.
      unfold mget. rewrite tget_tzeros. apply E; assumption. }
    rewrite E'. cbn [tzeros data]. f_equal. unfold prod. cbn. lia.
  Qed.

  Lemma mgen_len n m (f : nat -> nat -> F) : length (data (mgen n m f)) = n * m.
  Proof. pose proof (tgen_wf [n; m] (fun i => f (nth 0 i 0) (nth 1 i 0))) as W. unfold twf in W. unfold mgen. etransitivity; [|etransitivity; [exact W|]]; [reflexivity|]. unfold prod; cbn. lia. Qed.
  (** ---- linear ---- *)
  Lemma f_linear_shape (w : tensor) b x y : f_linear w b x = Ok y ->
    exists lead NO J, shape w = [NO; J] /\ shape x = lead ++ [J] /\ shape y = lead ++ [NO] /\ twf y.
  Proof.
    unfold f_linear. destruct (shape w) as [|NO [|J [|]]] eqn:Ew; try discriminate. destruct (split_last (shape x)) as [[lead J']|] eqn:Es; [|discriminate].
    destruct (J =? J') eqn:EJ; [|discriminate]. intros [= <-]. apply Nat.eqb_eq in EJ. subst J'. apply split_last_inv in Es.
    exists lead, NO, J. split; [reflexivity|]. split; [exact Es|]. split; [reflexivity|].
    unfold twf. cbn [shape data]. rewrite map_length, seq_length, prod_app. unfold prod; cbn [fold_right]. lia.
  Qed.
  Lemma f_linear_zero NO J lead (x : tensor) : shape x = lead ++ [J] -> f_linear (tzeros [NO; J]) None x = Ok (tzeros (lead ++ [NO])).
  Proof.
    intros E. unfold f_linear. cbn [tzeros shape]. rewrite E, split_last_app, Nat.eqb_refl. f_equal. unfold tzeros at 2. f_equal.
    rewrite data_mgen_zero.
    - f_equal. rewrite prod_app. unfold prod at 3. cbn. lia.
    - intros q o Hq Ho. rewrite sum_zero; [cbn; ring|]. intros j Hj. unfold mget. fold (@tzeros F _ [NO; J]). rewrite tget_tzeros. ring.
  Qed.
  Lemma f_linear_of_zero (w : tensor) NO J lead : shape w = [NO; J] -> f_linear w None (tzeros (lead ++ [J])) = Ok (tzeros (lead ++ [NO])).
  Proof.
    intros E. unfold f_linear. rewrite E. cbn [tzeros shape]. rewrite split_last_app, Nat.eqb_refl. f_equal. unfold tzeros at 2. f_equal.
    rewrite data_mgen_zero.
    - f_equal. rewrite prod_app. unfold prod at 3. cbn. lia.
    - intros q o Hq Ho. rewrite sum_zero; [cbn; ring|]. intros j Hj. cbn [tzeros data]. replace (mget _ q j) with (@f0 F _); [ring|].
      unfold mget. replace (prod (lead ++ [J])) with (prod [prod lead; J]) by (rewrite prod_app; cbn; unfold prod; cbn; lia).
      fold (@tzeros F _ [prod lead; J]). rewrite tget_tzeros. reflexivity.
  Qed.

  Lemma lora_linear_same (w : weights) n cls ps kt a b c t ca pa cb pb cc pc i o r wa wc x :
    dget a w = Some (wa, None) -> shape wa = [r; i] ->
    dget b w = Some (tzeros [r; r], None) ->
    dget c w = Some (wc, None) -> shape wc = [o; r] ->
    t_kind t = KLinear i o -> t_kids t = [] ->
    (forall v bb, dget (t_id t) w = Some (v, bb) -> shape v = [o; i]) ->
    call usr w (MT n KOther cls ps [("logix_lora_A"%string, MT a (KLinear i r) ca pa []); ("logix_lora_B"%string, MT b (KLinear r r) cb pb []); ("logix_lora_C"%string, MT c (KLinear r o) cc pc []); (kt, t)]) x
    = call usr w t x.
  Proof.
    intros Ea Sa Eb Ec Sc Kt Kk St. cbn [call String.eqb Ascii.eqb Bool.eqb andb]. destruct t as [tid tk tcls tps tkids]. cbn in Kt, Kk, St. subst tk tkids.
    cbn [call String.eqb Ascii.eqb Bool.eqb andb]. rewrite Ea, Eb, Ec. destruct (dget tid w) as [[v bb]|]; [|reflexivity].
    destruct (f_linear v bb x) as [y|e] eqn:Ey; [|reflexivity]. cbn [bind].
    apply f_linear_shape in Ey as (lead & NO & J & Ev & Ex & Es & Wy). rewrite (St v bb eq_refl) in Ev. injection Ev as <- <-.
    destruct (f_linear wa None x) as [xa|e] eqn:Exa.
    2:{ exfalso. revert Exa. unfold f_linear. rewrite Sa, Ex, split_last_app, Nat.eqb_refl. discriminate. }
    cbn [bind]. apply f_linear_shape in Exa as (lead' & NO' & J' & Ewa & Ex' & Exas & _). rewrite Sa in Ewa. injection Ewa as <- <-.
    assert (lead' = lead) by (rewrite Ex in Ex'; apply app_inj_tail in Ex' as [-> _]; reflexivity). subst lead'.
    rewrite (f_linear_zero r r lead xa Exas). cbn [bind]. rewrite (f_linear_of_zero wc o r lead Sc). cbn [bind].
    rewrite expand_to_same by (cbn [tzeros shape]; symmetry; exact Es). cbn [bind]. rewrite <- Es. apply tadd_zeros, Wy.
  Qed.

  (** ---- convolution ---- *)
  Lemma f_conv2d_shape g (w : tensor) b x y : f_conv2d g w b x = Ok y ->
    exists B Hh Ww OH OW, shape x = [B; c_in g; Hh; Ww] /\ out_size Hh (c_ph g) (c_dh g) (c_kh g) (c_sh g) = Ok OH /\
      out_size Ww (c_pw g) (c_dw g) (c_kw g) (c_sw g) = Ok OW /\ shape y = [B; c_out g; OH; OW] /\ twf y.
  Proof.
    unfold f_conv2d. destruct (shape x) as [|B [|C [|Hh [|Ww [|]]]]] eqn:Ex; try discriminate.
    destruct (C =? c_in g) eqn:EC; [|discriminate]. apply Nat.eqb_eq in EC. subst C.
    destruct (out_size Hh _ _ _ _) as [OH|] eqn:E1; [|discriminate]. destruct (out_size Ww _ _ _ _) as [OW|] eqn:E2; [|discriminate].
    cbn [bind]. intros [= <-]. exists B, Hh, Ww, OH, OW. repeat split; try assumption. apply tgen_wf.
  Qed.
  Lemma f_conv2d_run g (w : tensor) b x B Hh Ww OH OW : shape x = [B; c_in g; Hh; Ww] ->
    out_size Hh (c_ph g) (c_dh g) (c_kh g) (c_sh g) = Ok OH -> out_size Ww (c_pw g) (c_dw g) (c_kw g) (c_sw g) = Ok OW ->
    exists y, f_conv2d g w b x = Ok y /\ shape y = [B; c_out g; OH; OW] /\ twf y.
  Proof.
    intros Ex E1 E2. unfold f_conv2d. rewrite Ex, Nat.eqb_refl, E1, E2. cbn [bind]. eexists. split; [reflexivity|]. split; [reflexivity|apply tgen_wf].
  Qed.
  Lemma f_conv2d_zero g wsh (x : tensor) B Hh Ww OH OW : shape x = [B; c_in g; Hh; Ww] ->
    out_size Hh (c_ph g) (c_dh g) (c_kh g) (c_sh g) = Ok OH -> out_size Ww (c_pw g) (c_dw g) (c_kw g) (c_sw g) = Ok OW ->
    f_conv2d g (tzeros wsh) None x = Ok (tzeros [B; c_out g; OH; OW]).
  Proof.
    intros Ex E1 E2. unfold f_conv2d. rewrite Ex, Nat.eqb_refl, E1, E2. cbn [bind]. f_equal. apply tgen_zero. intros i _.
    cbn [bias_at]. rewrite sum_zero; [ring|]. intros. apply sum_zero. intros. apply sum_zero. intros. rewrite tget_tzeros. ring.
  Qed.
  Lemma padded_zeros sh n c ph pw r q : padded (tzeros sh) n c ph pw r q = @f0 F _.
  Proof.
    unfold padded. cbn [shape tzeros]. destruct sh as [|? [|? [|? [|? [|]]]]]; try reflexivity.
    match goal with |- (if ?b then _ else _) = _ => destruct b end; [|reflexivity]. fold (@tzeros F _ [n0; n1; n2; n3]). apply tget_tzeros.
  Qed.
  Lemma f_conv2d_of_zero g (w : tensor) B Hh Ww OH OW :
    out_size Hh (c_ph g) (c_dh g) (c_kh g) (c_sh g) = Ok OH -> out_size Ww (c_pw g) (c_dw g) (c_kw g) (c_sw g) = Ok OW ->
    f_conv2d g w None (tzeros [B; c_in g; Hh; Ww]) = Ok (tzeros [B; c_out g; OH; OW]).
  Proof.
    intros E1 E2. unfold f_conv2d. cbn [tzeros shape]. rewrite Nat.eqb_refl, E1, E2. cbn [bind]. f_equal. apply tgen_zero. intros i _.
    cbn [bias_at]. rewrite sum_zero; [ring|]. intros. apply sum_zero. intros. apply sum_zero. intros.
    fold (@tzeros F _ [B; c_in g; Hh; Ww]). rewrite padded_zeros. ring.
  Qed.
  Lemma out_size_1 n : 0 < n -> out_size n 0 1 1 1 = Ok n.
  Proof.
    intros P. unfold out_size. cbn [Nat.eqb orb Nat.mul Nat.sub Nat.add]. destruct (n + 0 <? 1) eqn:E; [apply Nat.ltb_lt in E; lia|].
    f_equal. rewrite Nat.div_1_r. lia.
  Qed.
  Lemma out_size_pos n p d k s o : out_size n p d k s = Ok o -> 0 < o.
  Proof. unfold out_size. destruct (_ || _); [discriminate|]. intros [= <-]. lia. Qed.

  Lemma lora_conv_same (w : weights) n cls ps kt a b c t ca pa cb pb cc pc g r wa wc bsh x :
    dget a w = Some (wa, None) ->
    dget b w = Some (tzeros bsh, None) ->
    dget c w = Some (wc, None) ->
    t_kind t = KConv2d g -> t_kids t = [] -> c_dh g = 1 -> c_dw g = 1 ->
    call usr w (MT n KOther cls ps [("logix_lora_A"%string, MT a (KConv2d (enc_geom g r)) ca pa []); ("logix_lora_B"%string, MT b (KConv2d (conv1x1 r r)) cb pb []); ("logix_lora_C"%string, MT c (KConv2d (conv1x1 r (c_out g))) cc pc []); (kt, t)]) x
    = call usr w t x.
  Proof.
    intros Ea Eb Ec Kt Kk D1 D2. cbn [call String.eqb Ascii.eqb Bool.eqb andb]. destruct t as [tid tk tcls tps tkids]. cbn in Kt, Kk. subst tk tkids.
    cbn [call String.eqb Ascii.eqb Bool.eqb andb]. rewrite Ea, Eb, Ec. destruct (dget tid w) as [[v bb]|]; [|reflexivity].
    destruct (f_conv2d g v bb x) as [y|e] eqn:Ey; [|reflexivity]. cbn [bind].
    apply f_conv2d_shape in Ey as (B & Hh & Ww & OH & OW & Ex & E1 & E2 & Es & Wy).
    rewrite D1 in E1. rewrite D2 in E2.
    destruct (f_conv2d_run (enc_geom g r) wa None x B Hh Ww OH OW) as (xa & Exa & Sxa & _); [exact Ex|exact E1|exact E2|].
    rewrite Exa. cbn [bind]. pose proof (out_size_pos _ _ _ _ _ _ E1) as P1. pose proof (out_size_pos _ _ _ _ _ _ E2) as P2.
    rewrite (f_conv2d_zero (conv1x1 r r) bsh xa B OH OW OH OW Sxa); [|apply out_size_1, P1|apply out_size_1, P2]. cbn [bind].
    change (tzeros [B; c_out (conv1x1 r r); OH; OW]) with (@tzeros F _ [B; c_in (conv1x1 r (c_out g)); OH; OW]).
    rewrite (f_conv2d_of_zero (conv1x1 r (c_out g)) wc B OH OW OH OW); [|apply out_size_1, P1|apply out_size_1, P2]. cbn [bind].
    change (c_out (conv1x1 r (c_out g))) with (c_out g).
    rewrite expand_to_same by (cbn [tzeros shape]; symmetry; exact Es). cbn [bind]. rewrite <- Es. apply tadd_zeros, Wy.
  Qed.

  (** a dilated convolution whose encoder has another output size: the addition fails *)
  Lemma bshape_same_len a m l : bshape a m = Ok l -> length a = length m.
  Proof.
    revert m l. induction a as [|x a IH]; intros [|y m] l; cbn; try discriminate; [reflexivity|].
    destruct (bshape a m) as [r|] eqn:E; [|discriminate]. intros _. f_equal. eapply IH, E.
  Qed.
  Lemma expand_to_shape (t : tensor) sh t' : expand_to t sh = Ok t' -> shape t' = sh.
  Proof.
    unfold expand_to. destruct (same_shape (shape t) sh) eqn:E.
    - intros [= <-]. apply same_shape_true, E.
    - destruct (bcast (shape t) sh) as [l|]; [|discriminate]. cbn [bind]. destruct (same_shape l sh); [|discriminate]. intros [= <-]. reflexivity.
  Qed.
  Lemma out_size_mono n p d k s o o1 : 0 < k -> 0 < d -> out_size n p d k s = Ok o -> out_size n p 1 k s = Ok o1 -> o <= o1.
  Proof.
    unfold out_size. intros Pk Pd. destruct (s =? 0) eqn:Es; [discriminate|]. apply Nat.eqb_neq in Es. cbn [orb].
    destruct (n + 2 * p <? d * (k - 1) + 1) eqn:E1; [discriminate|]. destruct (n + 2 * p <? 1 * (k - 1) + 1) eqn:E2; [discriminate|].
    intros [= <-] [= <-]. apply Nat.ltb_ge in E1. apply Nat.ltb_ge in E2. apply Nat.add_le_mono_r. apply Nat.div_le_mono; [exact Es|]. assert (k - 1 <= d * (k - 1)) by (generalize (k - 1); intros m; nia). lia.
  Qed.
  Lemma out_size_enc n p d k s o : 0 < k -> 0 < d -> out_size n p d k s = Ok o -> exists o1, out_size n p 1 k s = Ok o1 /\ o <= o1.
  Proof.
    intros Pk Pd E. destruct (out_size n p 1 k s) as [o1|] eqn:E1; [eexists; split; [reflexivity|]; exact (out_size_mono n p d k s o o1 Pk Pd E E1)|].
    exfalso. revert E E1. unfold out_size. destruct (s =? 0); [discriminate|]. cbn [orb].
    destruct (n + 2 * p <? d * (k - 1) + 1) eqn:E2; [discriminate|]. apply Nat.ltb_ge in E2. intros _.
    destruct (n + 2 * p <? 1 * (k - 1) + 1) eqn:E3; [|discriminate]. apply Nat.ltb_lt in E3. assert (k - 1 <= d * (k - 1)) by (generalize (k - 1); intros m; nia). lia.
  Qed.
  Ltac no_same := match goal with |- (if same_shape ?a ?b then _ else _) = _ =>
    let X := fresh in destruct (same_shape a b) eqn:X; [apply same_shape_true in X; injection X; lia|reflexivity] end.
  Lemma expand_to_4 (t : tensor) a b c d c' d' : shape t = [a; b; c; d] -> c' <= c -> d' <= d -> (c', d') <> (c, d) -> 0 < c' -> 0 < d' ->
    expand_to t [a; b; c'; d'] = Err RuntimeError.
  Proof.
    intros E L1 L2 N P1 P2. unfold expand_to. rewrite E. destruct (same_shape [a; b; c; d] [a; b; c'; d']) eqn:S1.
    { apply same_shape_true in S1. injection S1 as <- <-. congruence. }
    unfold bcast, pad_left. cbn [length Nat.sub repeat app bshape bind]. rewrite !Nat.eqb_refl.
    destruct (d =? d') eqn:Ed; cbn [bind].
    - apply Nat.eqb_eq in Ed. subst d'. destruct (c =? c') eqn:Ec; [apply Nat.eqb_eq in Ec; subst; congruence|]. apply Nat.eqb_neq in Ec.
      destruct (c =? 1) eqn:Ec1; [apply Nat.eqb_eq in Ec1; lia|]. destruct (c' =? 1) eqn:Ec2; cbn [bind]; [|reflexivity].
      no_same.
    - apply Nat.eqb_neq in Ed. destruct (d =? 1) eqn:Ed1; [apply Nat.eqb_eq in Ed1; lia|]. destruct (d' =? 1) eqn:Ed2; cbn [bind]; [|reflexivity].
      destruct (c =? c'); cbn [bind].
      + no_same.
      + destruct (c =? 1); cbn [bind]; [no_same|].
        destruct (c' =? 1); cbn [bind]; [no_same|reflexivity].
  Qed.
  Lemma lora_conv_dilated (w : weights) n cls ps kt a b c t ca pa cb pb cc pc g r wa wb wc x y :
    dget a w = Some (wa, None) -> dget b w = Some (wb, None) -> dget c w = Some (wc, None) ->
    t_kind t = KConv2d g -> t_kids t = [] -> 0 < c_kh g -> 0 < c_kw g -> 0 < c_dh g -> 0 < c_dw g ->
    call usr w t x = Ok y ->
    (forall Hh Ww OH OW, nth 2 (shape x) 0 = Hh -> nth 3 (shape x) 0 = Ww -> shape y = [nth 0 (shape x) 0; c_out g; OH; OW] ->
       out_size Hh (c_ph g) 1 (c_kh g) (c_sh g) <> Ok OH \/ out_size Ww (c_pw g) 1 (c_kw g) (c_sw g) <> Ok OW) ->
    call usr w (MT n KOther cls ps [("logix_lora_A"%string, MT a (KConv2d (enc_geom g r)) ca pa []); ("logix_lora_B"%string, MT b (KConv2d (conv1x1 r r)) cb pb []); ("logix_lora_C"%string, MT c (KConv2d (conv1x1 r (c_out g))) cc pc []); (kt, t)]) x
    = Err RuntimeError.
  Proof.
    intros Ea Eb Ec Kt Kk K1 K2 D1 D2 Ey D. cbn [call String.eqb Ascii.eqb Bool.eqb andb]. rewrite Ey. destruct t as [tid tk tcls tps tkids]. cbn in Kt, Kk. subst tk tkids.
    cbn [call String.eqb Ascii.eqb Bool.eqb andb] in *. rewrite Ea, Eb, Ec. destruct (dget tid w) as [[v bb]|]; [|discriminate].
    apply f_conv2d_shape in Ey as (B & Hh & Ww & OH & OW & Ex & E1 & E2 & Es & Wy). cbn [bind].
    destruct (out_size_enc _ _ _ _ _ _ K1 D1 E1) as (OH1 & F1 & L1). destruct (out_size_enc _ _ _ _ _ _ K2 D2 E2) as (OW1 & F2 & L2).
    assert (N : (OH, OW) <> (OH1, OW1)).
    { intros [= <- <-]. destruct (D Hh Ww OH OW) as [D'|D'].
      - rewrite Ex. reflexivity.
      - rewrite Ex. reflexivity.
      - rewrite Ex. exact Es.
      - contradiction.
      - contradiction. }
    destruct (f_conv2d_run (enc_geom g r) wa None x B Hh Ww OH1 OW1) as (xa & Exa & Sxa & _); [exact Ex|exact F1|exact F2|].
    rewrite Exa. cbn [bind]. pose proof (out_size_pos _ _ _ _ _ _ F1) as P1. pose proof (out_size_pos _ _ _ _ _ _ F2) as P2.
    destruct (f_conv2d_run (conv1x1 r r) wb None xa B OH1 OW1 OH1 OW1 Sxa) as (xb & Exb & Sxb & _); [apply out_size_1, P1|apply out_size_1, P2|].
    rewrite Exb. cbn [bind].
    destruct (f_conv2d_run (conv1x1 r (c_out g)) wc None xb B OH1 OW1 OH1 OW1 Sxb) as (xc & Exc & Sxc & _); [apply out_size_1, P1|apply out_size_1, P2|].
    rewrite Exc. cbn [bind]. rewrite Es. cbn [conv1x1 c_out] in Sxc. rewrite (expand_to_4 xc B (c_out g) OH1 OW1 OH OW Sxc L1 L2 N); [reflexivity| |].
    - exact (out_size_pos _ _ _ _ _ _ E1).
    - exact (out_size_pos _ _ _ _ _ _ E2).
  Qed.
End P.
