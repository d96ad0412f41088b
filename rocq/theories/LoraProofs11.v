(** LoRA: repeated use and dilated convolutions (C54), narrow layers with sharing (C57). *)
From Verif Require Import Py PyStr Field Tensor ModelGrad Monad ModelState ModelMmap ModelSaver ModelLogger ModelModules ModelLora SpecLora GradProofs1 LogProofs1 LoraProofs1 LoraProofs2 LoraProofs3 LoraProofs4 LoraProofs5 LoraProofs6 LoraProofs7 LoraProofs8 LoraProofs9 LoraProofs10.
Local Open Scope nat_scope.

Section P.
  Context {F : Type} `{OField F}.
  Notation tensor := (tensor F).
  Notation lm := (@lm F).
  Notation weights := (dict mid (tensor * option tensor)).
  Context (rnd : mid -> list nat -> F) (svd : tensor -> res tensor).
  Context (usr : mid -> list (string * (tensor -> res tensor)) -> tensor -> res tensor).

  Lemma add_lora_handler watch clear tf nf cfg (s s' : lm) root : lm_root s = Some root -> t_kids root <> [] -> tree_ok root (lm_next s) ->
    lm_add_lora rnd svd watch clear tf nf None cfg s = (s', Ok tt) ->
    let h := in_use (lm_handler s) cfg (lm_cfg s) in
    exists h', lm_handler s' = Some h' /\ lc_rank h' = lc_rank h /\ lc_share h' = lc_share h /\ lc_groups h' = lc_groups h.
  Proof.
    intros Er Kr OK E h. destruct (add_lora_done rnd svd _ _ _ _ _ _ _ _ Er Kr OK E) as (cs & fs & sh' & T & s2 & _ & _ & _ & _ & _ & _ & _ & R & _).
    exists (in_force h cs). split; [exact R|]. apply in_force_parts.
  Qed.

  Lemma add_lora_many (l : list lora_call) : forall (s s' : lm) root h, calls_only usr ->
    lm_root s = Some root -> t_kids root <> [] -> tree_ok root (lm_next s) -> layer_weights (lm_w s) root ->
    (forall u, below u root -> undilated u) -> lm_handler s = Some h -> lc_share h = false ->
    seach (run_lora rnd svd) l s = (s', Ok tt) ->
    exists root', lm_root s' = Some root' /\ forall x, call usr (lm_w s') root' x = call usr (lm_w s) root x.
  Proof.
    induction l as [|a l IH]; intros s s' root h U Er Kr OK LW UD Eh Es; cbn [seach].
    - intros [= <-]. exists root. auto.
    - intros E. apply sbind_ok in E as (s1 & [] & E1 & E). destruct a as [[[[w c] tf] nf] cfg]. cbn [run_lora] in E1.
      assert (Eu : in_use (lm_handler s) cfg (lm_cfg s) = h) by (rewrite Eh; reflexivity).
      destruct (add_lora_same rnd svd usr w c tf nf cfg s s1 root U Er Kr OK LW) as (r1 & R1 & K1 & OK1 & LW1 & C1).
      + intros i Hi. apply UD. eapply selected_below; eassumption.
      + rewrite Eu. intros X. congruence.
      + exact E1.
      + destruct (add_lora_handler w c tf nf cfg s s1 root Er Kr OK E1) as (h1 & Eh1 & _ & Es1 & _). rewrite Eu in Es1.
        destruct (add_lora_tree rnd svd w c tf nf cfg s s1 root Er Kr OK E1) as (f & Rf & WR & _). rewrite R1 in Rf. injection Rf as ->.
        destruct (IH s1 s' (replace_kids f root) h1 U R1 K1 OK1 LW1) as (r2 & R2 & C2); [|exact Eh1|congruence|exact E|].
        * eapply wrapped_undilated; eassumption.
        * exists r2. split; [exact R2|]. intros x. rewrite C2. apply C1.
  Qed.
  Lemma add_lora_repeated a (l : list lora_call) (s s' : lm) root : calls_only usr ->
    lm_root s = Some root -> t_kids root <> [] -> tree_ok root (lm_next s) -> layer_weights (lm_w s) root ->
    (forall u, below u root -> undilated u) -> lc_share (in_use (lm_handler s) (snd a) (lm_cfg s)) = false ->
    seach (run_lora rnd svd) (a :: l) s = (s', Ok tt) ->
    exists root', lm_root s' = Some root' /\ forall x, call usr (lm_w s') root' x = call usr (lm_w s) root x.
  Proof.
    intros U Er Kr OK LW UD Es E. cbn [seach] in E. apply sbind_ok in E as (s1 & [] & E1 & E). destruct a as [[[[w c] tf] nf] cfg]. cbn [run_lora snd] in *.
    destruct (add_lora_same rnd svd usr w c tf nf cfg s s1 root U Er Kr OK LW) as (r1 & R1 & K1 & OK1 & LW1 & C1).
    - intros i Hi. apply UD. eapply selected_below; eassumption.
    - intros X. congruence.
    - exact E1.
    - destruct (add_lora_handler w c tf nf cfg s s1 root Er Kr OK E1) as (h1 & Eh1 & _ & Es1 & _). rewrite Es in Es1.
      destruct (add_lora_tree rnd svd w c tf nf cfg s s1 root Er Kr OK E1) as (f & Rf & WR & _). rewrite R1 in Rf. injection Rf as ->.
      destruct (add_lora_many l s1 s' (replace_kids f root) h1 U R1 K1 OK1 LW1) as (r2 & R2 & C2); [|exact Eh1|exact Es1|exact E|].
      + eapply wrapped_undilated; eassumption.
      + exists r2. split; [exact R2|]. intros x. rewrite C2. apply C1.
  Qed.

  (** what is known about one wrapped layer *)
  Lemma add_lora_layer watch clear tf nf cfg (s s' : lm) root i : lm_root s = Some root -> t_kids root <> [] -> tree_ok root (lm_next s) ->
    lm_add_lora rnd svd watch clear tf nf None cfg s = (s', Ok tt) ->
    let h := in_use (lm_handler s) cfg (lm_cfg s) in let tf' := chosen tf (lm_tf s) in let nf' := chosen nf (lm_nf s) in
    selected tf' nf' root i ->
    exists f b n a c wa wc, lm_root s' = Some (replace_kids f root) /\ f (i_parent i) (i_key i) = Some (lora_around (lc_rank h) (i_mod i) b n a c) /\
      wlayer (i_mod i) /\ t_kids (i_mod i) = [] /\
      dget (t_id (i_mod i)) (lm_w s') = dget (t_id (i_mod i)) (lm_w s) /\
      dget a (lm_w s') = Some (wa, None) /\ shape wa = weight_shape (enc_of (lc_rank h) (i_mod i) a) /\
      dget c (lm_w s') = Some (wc, None) /\ shape wc = weight_shape (dec_of (lc_rank h) (i_mod i) c) /\
      dget (t_id b) (lm_w s') = Some (tzeros (weight_shape b), None) /\
      (lc_share h = false -> b = bottleneck (i_mod i) (min (lc_rank h) (width (i_mod i))) (t_id b)) /\
      (lc_share h = true -> exists j, selected tf' nf' root j /\ same_group (lc_groups h) (i_name i) (i_name j) /\ b = bottleneck (i_mod j) (lc_rank h) (t_id b)).
  Proof.
    intros Er Kr OK E h tf' nf' Hs. destruct (add_lora_done rnd svd _ _ _ _ _ _ _ _ Er Kr OK E) as (cs & fs & sh' & T & s2 & _ & LD & R1 & R2 & R3 & _). fold tf' in LD. fold nf' in LD. fold h in LD.
    destruct (in_force_parts h cs) as (P1 & P2 & P3).
    assert (WR : wrapped h tf' nf' root (lm_next s) (lm_next s') (lm_w s') (slots fs)).
    { rewrite R2, R3. eapply wrapped_cfg; [symmetry; exact P1|symmetry; exact P2|symmetry; exact P3|]. exact (done_wrapped rnd svd _ _ _ _ (start cfg s) _ _ _ _ LD). }
    assert (X : In i (map fst fs)) by (rewrite (ld_items _ _ _ _ _ _ _ _ _ _ _ LD); apply filter_In; split; [apply Hs|]; apply module_check_spec; split; [apply Hs|discriminate]).
    apply in_map_iff in X as ((i' & l) & Ei & Hl). cbn [fst] in Ei. subst i'. pose proof (slots_in fs i l (ld_slots _ _ _ _ _ _ _ _ _ _ _ LD) Hl) as El2.
    destruct (ld_added _ _ _ _ _ _ _ _ _ _ _ LD i l Hl) as (b & n & a & c & Ad & Pt). pose proof (ad_layer _ _ _ _ _ _ _ _ _ _ _ _ Ad) as WL.
    pose proof (ad_eq _ _ _ _ _ _ _ _ _ _ _ _ Ad) as El3. rewrite P1 in El3. rewrite El3 in El2.
    destruct (ad_wa _ _ _ _ _ _ _ _ _ _ _ _ Ad) as (wa & Wa & Sa). destruct (ad_wc _ _ _ _ _ _ _ _ _ _ _ _ Ad) as (wc & Wc & Sc). rewrite P1 in Sa, Sc.
    destruct (wp_layer _ _ _ _ _ _ _ _ WR i Hs) as (b' & n' & a' & c' & El' & _ & _ & Wb & B1 & B2). rewrite El2 in El'. injection El' as El'. apply lora_around_inj in El' as (<- & <- & <- & <-); [|exact WL].
    exists (slots fs), b, n, a, c, wa, wc. rewrite R1, R2. rewrite R2 in Wb.
    split; [exact (ld_root _ _ _ _ _ _ _ _ _ _ _ LD)|]. split; [exact El2|]. split; [exact WL|]. split; [apply Hs|].
    split; [apply (ld_w _ _ _ _ _ _ _ _ _ _ _ LD); apply (ok_ids _ _ OK); eapply selected_below; eassumption|].
    repeat (split; [assumption|]). exact B2.
  Qed.

  Lemma out_size_smaller n p d k s o o1 : out_size n p d k s = Ok o -> out_size n p 1 k s = Ok o1 -> s <= (d - 1) * (k - 1) -> 0 < k -> 0 < d -> o < o1.
  Proof.
    unfold out_size. destruct (s =? 0) eqn:Es; [discriminate|]. apply Nat.eqb_neq in Es. cbn [orb].
    destruct (n + 2 * p <? d * (k - 1) + 1) eqn:E1; [discriminate|]. destruct (n + 2 * p <? 1 * (k - 1) + 1) eqn:E2; [discriminate|].
    intros [= <-] [= <-] L Pk Pd. apply Nat.ltb_ge in E1. apply Nat.ltb_ge in E2.
    assert (D : d * (k - 1) = (d - 1) * (k - 1) + (k - 1)) by (destruct d; [lia|]; cbn [Nat.sub]; rewrite Nat.sub_0_r; lia).
    set (m := (d - 1) * (k - 1)) in *. set (q := n + 2 * p - (d * (k - 1) + 1)).
    match goal with |- ?y / s + 1 < ?z / s + 1 => replace z with (q + m) by (unfold q; lia); replace y with q by (unfold q; lia) end.
    assert (X : q / s + 1 <= (q + m) / s). { rewrite <- (Nat.div_add q 1 s Es). apply Nat.div_le_mono; [exact Es|]. lia. }
    lia.
  Qed.

  (** C54: the encoder of a dilated convolution is not dilated *)
  Lemma add_lora_dilated watch clear tf nf cfg (s s' : lm) root i g : lm_root s = Some root -> t_kids root <> [] -> tree_ok root (lm_next s) ->
    lm_add_lora rnd svd watch clear tf nf None cfg s = (s', Ok tt) -> lc_share (in_use (lm_handler s) cfg (lm_cfg s)) = false ->
    selected (chosen tf (lm_tf s)) (chosen nf (lm_nf s)) root i ->
    t_kind (i_mod i) = KConv2d g -> 0 < c_kh g -> 0 < c_kw g -> 0 < c_dh g -> 0 < c_dw g ->
    c_sh g <= (c_dh g - 1) * (c_kh g - 1) \/ c_sw g <= (c_dw g - 1) * (c_kw g - 1) ->
    exists f l, lm_root s' = Some (replace_kids f root) /\ f (i_parent i) (i_key i) = Some l /\
      forall x y, call usr (lm_w s) (i_mod i) x = Ok y -> call usr (lm_w s') l x = Err RuntimeError.
  Proof.
    intros Er Kr OK E Es Hs Kg K1 K2 D1 D2 D.
    destruct (add_lora_layer watch clear tf nf cfg s s' root i Er Kr OK E Hs) as (f & b & n & a & c & wa & wc & R & El & WL & Kt & Wt & Wa & Sa & Wc & Sc & Wb & B1 & _).
    exists f. eexists. split; [exact R|]. split; [exact El|]. intros x y Ey. specialize (B1 Es). clear El.
    rewrite B1, bottleneck_id in Wb. rewrite B1. set (bid := t_id b) in *. clearbody bid.
    rewrite <- (call_weights usr (lm_w s) (lm_w s') (i_mod i) x Kt Wt) in Ey.
    unfold lora_around, bottleneck, width. rewrite Kg. 
    apply (lora_conv_dilated usr (lm_w s') n [] [] "_conv"%string a bid c (i_mod i) [] [a] [] [bid] [] [c] g (min (lc_rank (in_use (lm_handler s) cfg (lm_cfg s))) (min (c_in g) (c_out g))) wa _ wc x y Wa Wb Wc Kg Kt K1 K2 D1 D2 Ey).
    intros Hh Ww OH OW Eh Ew Sy. destruct (i_mod i) as [tid tk tcls tps tkids]. cbn in Kg, Kt. subst tk tkids. cbn [call] in Ey.
    destruct (dget tid (lm_w s')) as [[v bb]|]; [|discriminate]. apply f_conv2d_shape in Ey as (B & H1 & W1 & OH1 & OW1 & Ex & O1 & O2 & Sy' & _).
    rewrite Ex in Eh, Ew. cbn [nth] in Eh, Ew. subst Hh Ww. rewrite Sy' in Sy. injection Sy as _ <- <-.
    destruct D as [D|D]; [left|right]; intros X.
    - pose proof (out_size_smaller _ _ _ _ _ _ _ O1 X D K1 D1). lia.
    - pose proof (out_size_smaller _ _ _ _ _ _ _ O2 X D K2 D2). lia.
  Qed.

  Lemma f_linear_err (v : tensor) b x e : f_linear v b x = Err e -> e = RuntimeError.
  Proof. unfold f_linear. destruct (shape v) as [|? [|? [|]]]; try congruence. destruct (split_last _) as [[]|]; [|congruence]. destruct (_ =? _); congruence. Qed.
  Lemma f_conv2d_err g (v : tensor) b x e : f_conv2d g v b x = Err e -> e = RuntimeError.
  Proof.
    unfold f_conv2d, out_size. destruct (shape x) as [|? [|? [|? [|? [|]]]]]; try congruence. destruct (_ =? c_in g); [|congruence].
    repeat match goal with |- context [if ?b then Err _ else _] => destruct b; cbn [bind]; [congruence|] end. discriminate.
  Qed.
  (** C57: a shared bottleneck does not fit a narrow layer *)
  Lemma add_lora_narrow watch clear tf nf cfg (s s' : lm) root i : lm_root s = Some root -> t_kids root <> [] -> tree_ok root (lm_next s) ->
    layer_weights (lm_w s) root ->
    lm_add_lora rnd svd watch clear tf nf None cfg s = (s', Ok tt) ->
    let h := in_use (lm_handler s) cfg (lm_cfg s) in let tf' := chosen tf (lm_tf s) in let nf' := chosen nf (lm_nf s) in
    lc_share h = true -> selected tf' nf' root i -> width (i_mod i) < lc_rank h ->
    (forall j, selected tf' nf' root j -> same_group (lc_groups h) (i_name i) (i_name j) -> same_class (i_mod i) (i_mod j)) ->
    exists f l, lm_root s' = Some (replace_kids f root) /\ f (i_parent i) (i_key i) = Some l /\
      forall x, call usr (lm_w s') l x = Err RuntimeError.
  Proof.
    intros Er Kr OK LW E h tf' nf' Es Hs Nw SC.
    destruct (add_lora_layer watch clear tf nf cfg s s' root i Er Kr OK E Hs) as (f & b & n & a & c & wa & wc & R & El & WL & Kt & Wt & Wa & Sa & Wc & Sc & Wb & _ & B2).
    fold h in El, Sa, Sc, B2. destruct (B2 Es) as (j & Hj & SG & Eb). specialize (SC j Hj SG). clear B2.
    exists f. eexists. split; [exact R|]. split; [exact El|]. intros x. clear El.
    rewrite Eb, bottleneck_id in Wb. rewrite Eb. set (bid := t_id b) in *. clearbody bid. clear Eb b.
    assert (LWi := LW (i_mod i) (selected_below _ _ _ _ _ OK Hs) Kt). rewrite <- Wt in LWi.
    destruct (i_mod i) as [tid tk tcls tps tkids] eqn:Et. cbn in Kt. subst tkids. unfold wlayer in WL. unfold same_class in SC. unfold width in Nw. unfold lora_around, bottleneck, enc_of, dec_of, width in *. cbn [t_kind t_id] in *.
    destruct tk as [ii oo| |g| |]; try contradiction; destruct (t_kind (i_mod j)) as [ji jo| |jg| |]; try contradiction;
      cbn [call String.eqb Ascii.eqb Bool.eqb andb]; destruct LWi as (v & bb & Ev & Sv); rewrite Ev, Wa, Wb, Wc; cbn [weight_shape t_kind] in *.
    - destruct (f_linear v bb x) as [y|e] eqn:Ey; cbn [bind]; [|apply f_linear_err in Ey; congruence].
      apply f_linear_shape in Ey as (lead & NO & J & Sv' & Sx & Sy & _). rewrite Sv in Sv'. injection Sv' as <- <-.
      unfold f_linear at 1. rewrite Sa, Sx, split_last_app, Nat.eqb_refl. cbn [bind]. unfold f_linear at 1. cbn [shape tzeros]. rewrite split_last_app.
      replace (lc_rank h =? min (lc_rank h) (min ii oo)) with false by (symmetry; apply Nat.eqb_neq; lia). reflexivity.
    - destruct (f_conv2d g v bb x) as [y|e] eqn:Ey; cbn [bind]; [|apply f_conv2d_err in Ey; congruence].
      match goal with |- context [f_conv2d ?g' wa None x] => destruct (f_conv2d g' wa None x) as [xa|e] eqn:Exa end; cbn [bind]; [|apply f_conv2d_err in Exa; congruence].
      apply f_conv2d_shape in Exa as (B & H1 & W1 & OH1 & OW1 & Ex & O1 & O2 & Sy' & _).
      unfold f_conv2d at 1. rewrite Sy'. cbn [conv1x1 c_in c_out enc_geom]. replace (min (lc_rank h) (min (c_in g) (c_out g)) =? lc_rank h) with false by (symmetry; apply Nat.eqb_neq; lia). reflexivity.
  Qed.
End P.
