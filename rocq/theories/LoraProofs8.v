(** The new module tree (C56) and repeated calls (C54). *)
From Verif Require Import Py PyStr Field Tensor ModelGrad Monad ModelState ModelMmap ModelSaver ModelLogger ModelModules ModelLora SpecLora LogProofs1 LoraProofs1 LoraProofs2 LoraProofs3 LoraProofs4 LoraProofs5 LoraProofs6 LoraProofs7.
Local Open Scope nat_scope.

Lemma find_group_unique groups n1 n2 g1 g2 : find_group n1 groups = Ok g1 -> find_group n2 groups = Ok g2 -> same_group groups n1 n2 -> g1 = g2.
Proof.
  unfold find_group, same_group. destruct groups as [gs|]; [|congruence].
  destruct (filter (fun g => contains g n1) gs) as [|x1 [|? ?]] eqn:E1; try discriminate. destruct (filter (fun g => contains g n2) gs) as [|x2 [|? ?]] eqn:E2; try discriminate.
  intros [= <-] [= <-] (g & Hg & S1 & S2).
  assert (X1 : In g [x1]) by (rewrite <- E1; apply filter_In; split; [exact Hg|apply contains_spec, S1]).
  assert (X2 : In g [x2]) by (rewrite <- E2; apply filter_In; split; [exact Hg|apply contains_spec, S2]).
  destruct X1 as [<-|[]], X2 as [<-|[]]. reflexivity.
Qed.
Lemma lora_around_inj rank t b n a c b' n' a' c' : wlayer t -> lora_around rank t b n a c = lora_around rank t b' n' a' c' -> b = b' /\ n = n' /\ a = a' /\ c = c'.
Proof.
  intros W. rewrite !lora_around_eq by exact W. intros E. injection E as <- Ea <- Ec. split; [reflexivity|]. split; [reflexivity|].
  split; [rewrite <- (enc_id rank t a W), <- (enc_id rank t a' W), Ea; reflexivity|rewrite <- (dec_id rank t c W), <- (dec_id rank t c' W), Ec; reflexivity].
Qed.

Section P.
  Context {F : Type} `{OField F}.
  Notation tensor := (tensor F).
  Notation lm := (@lm F).
  Notation weights := (dict mid (tensor * option tensor)).
  Context (rnd : mid -> list nat -> F) (svd : tensor -> res tensor).

  Lemma done_wrapped h tf nf root (s s' : lm) fs sh' T : lora_done rnd svd h tf nf root s s' fs sh' T ->
    wrapped h tf nf root (lm_next s) (lm_next s') (lm_w s') (slots fs).
  Proof.
    intros LD. pose proof (ld_slots _ _ _ _ _ _ _ _ _ _ _ LD) as ND. pose proof (ld_table _ _ _ _ _ _ _ _ _ _ _ LD) as TB.
    assert (IN : forall i, selected tf nf root i <-> exists l, In (i, l) fs).
    { intros i. split.
      - intros [Hi Hp]. assert (X : In i (map fst fs)) by (rewrite (ld_items _ _ _ _ _ _ _ _ _ _ _ LD); apply filter_In; split; [exact Hi|]; apply module_check_spec; split; [exact Hp|discriminate]).
        apply in_map_iff in X as ((i' & l) & <- & Hl). exists l. exact Hl.
      - intros (l & Hl). apply (in_map fst) in Hl. rewrite (ld_items _ _ _ _ _ _ _ _ _ _ _ LD) in Hl. apply filter_In in Hl as [Hi Hc]. split; [exact Hi|]. apply module_check_spec in Hc. tauto. }
    constructor.
    - intros i Hi. apply IN in Hi as (l & Hl). destruct (ld_added _ _ _ _ _ _ _ _ _ _ _ LD i l Hl) as (b & n & a & c & Ad & Pt).
      exists b, n, a, c. split; [rewrite <- (ad_eq _ _ _ _ _ _ _ _ _ _ _ _ Ad); apply slots_in; assumption|].
      split; [exact (ad_nodup _ _ _ _ _ _ _ _ _ _ _ _ Ad)|].
      split.
      { pose proof (ad_n _ _ _ _ _ _ _ _ _ _ _ _ Ad) as X1. pose proof (ad_a _ _ _ _ _ _ _ _ _ _ _ _ Ad) as X2. pose proof (ad_c _ _ _ _ _ _ _ _ _ _ _ _ Ad) as X3. unfold fresh_in in *.
        assert (X : In b T) by (apply Pt; rewrite (ad_eq _ _ _ _ _ _ _ _ _ _ _ _ Ad), parts_around by exact (ad_layer _ _ _ _ _ _ _ _ _ _ _ _ Ad); cbn; auto).
        apply (tb_lt _ _ _ _ TB) in X. cbn [In]. intros x [<-|[<-|[<-|[<-|[]]]]]; lia. }
      split; [exact (ad_wb _ _ _ _ _ _ _ _ _ _ _ _ Ad)|]. destruct (ad_group _ _ _ _ _ _ _ _ _ _ _ _ Ad) as (g & Eg & G).
      split; intros Es; rewrite Es in G; [tauto|].
      destruct (ld_made _ _ _ _ _ _ _ _ _ _ _ LD g b G) as (j & Hj & Hc & Egj & WLj & Eb). exists j. split; [split; [exact Hj|apply module_check_spec in Hc; tauto]|].
      split; [eapply find_group_same; eassumption|exact Eb].
    - intros p k l E. apply (slots_iff fs p k l ND) in E as (i & Hi & X). exists i. split; [apply IN; eauto|exact X].
    - intros i j b n a c b' n' a' c' Hi Hj N Ei Ej. apply IN in Hi as (l & Hl). apply IN in Hj as (l' & Hl').
      rewrite (slots_in fs i l ND Hl) in Ei. rewrite (slots_in fs j l' ND Hl') in Ej.
      destruct (ld_added _ _ _ _ _ _ _ _ _ _ _ LD i l Hl) as (b1 & n1 & a1 & c1 & Ad & Pt). destruct (ld_added _ _ _ _ _ _ _ _ _ _ _ LD j l' Hl') as (b2 & n2 & a2 & c2 & Ad' & Pt').
      pose proof (ad_layer _ _ _ _ _ _ _ _ _ _ _ _ Ad) as WL. pose proof (ad_layer _ _ _ _ _ _ _ _ _ _ _ _ Ad') as WL'.
      assert (E1 : b = b1 /\ n = n1 /\ a = a1 /\ c = c1).
      { apply (lora_around_inj (lc_rank h) (i_mod i)); [exact WL|]. rewrite <- (ad_eq _ _ _ _ _ _ _ _ _ _ _ _ Ad). congruence. }
      assert (E2 : b' = b2 /\ n' = n2 /\ a' = a2 /\ c' = c2).
      { apply (lora_around_inj (lc_rank h) (i_mod j)); [exact WL'|]. rewrite <- (ad_eq _ _ _ _ _ _ _ _ _ _ _ _ Ad'). congruence. }
      destruct E1 as (<- & <- & <- & <-), E2 as (<- & <- & <- & <-). clear Ei Ej.
      assert (AP : apart h (i, l) (j, l') \/ apart h (j, l') (i, l)).
      { destruct (ForallOrdPairs_In (ld_apart _ _ _ _ _ _ _ _ _ _ _ LD) (i, l) (j, l') Hl Hl') as [X|X]; [injection X as ? ?; contradiction|exact X]. }
      assert (O1 : own l = [n; a; c]) by (rewrite (ad_eq _ _ _ _ _ _ _ _ _ _ _ _ Ad); apply own_around, WL).
      assert (O2 : own l' = [n'; a'; c']) by (rewrite (ad_eq _ _ _ _ _ _ _ _ _ _ _ _ Ad'); apply own_around, WL').
      assert (P1 : In b (parts l)) by (rewrite (ad_eq _ _ _ _ _ _ _ _ _ _ _ _ Ad), parts_around by exact WL; cbn; auto).
      assert (P2 : In b' (parts l')) by (rewrite (ad_eq _ _ _ _ _ _ _ _ _ _ _ _ Ad'), parts_around by exact WL'; cbn; auto).
      split.
      { intros x Hx Hy. rewrite <- O1 in Hx.
        assert (Hy' : In x (map t_id (parts l'))).
        { rewrite (ad_eq _ _ _ _ _ _ _ _ _ _ _ _ Ad'), parts_around by exact WL'. cbn [map]. rewrite around_id, enc_id, dec_id by exact WL'. cbn [In] in *. tauto. }
        destruct AP as [[AP _]|(_ & AP & _)]; apply (AP x Hx Hy'). }
      destruct (ad_group _ _ _ _ _ _ _ _ _ _ _ _ Ad) as (g & Eg & G). destruct (ad_group _ _ _ _ _ _ _ _ _ _ _ _ Ad') as (g' & Eg' & G').
      destruct (lc_share h) eqn:Es.
      + split.
        * intros Eid. split; [reflexivity|]. assert (g' = g) by (apply (tb_inj _ _ _ _ TB g' b' g b); congruence). subst g'. eapply find_group_same; eassumption.
        * intros [_ SG]. rewrite (find_group_unique _ _ _ _ _ Eg Eg' SG) in G. congruence.
      + split; [|intros [X _]; discriminate X]. intros Eid. exfalso. destruct AP as [(_ & _ & AP)|(_ & _ & AP)]; [apply (AP Es b b' P1 P2 Eid)|apply (AP Es b' b P2 P1); auto].
  Qed.

  (** C56: the tree *)
  Lemma wrapped_cfg h h' tf nf root n0 n1 (w : weights) f : lc_rank h' = lc_rank h -> lc_share h' = lc_share h -> lc_groups h' = lc_groups h ->
    wrapped h tf nf root n0 n1 w f -> wrapped h' tf nf root n0 n1 w f.
  Proof. intros E1 E2 E3 [A B C]. constructor; rewrite ?E1, ?E2, ?E3; assumption. Qed.
  Lemma add_lora_tree watch clear tf nf cfg (s s' : lm) root : lm_root s = Some root -> t_kids root <> [] -> tree_ok root (lm_next s) ->
    lm_add_lora rnd svd watch clear tf nf None cfg s = (s', Ok tt) ->
    exists f, lm_root s' = Some (replace_kids f root) /\
      wrapped (in_use (lm_handler s) cfg (lm_cfg s)) (chosen tf (lm_tf s)) (chosen nf (lm_nf s)) root (lm_next s) (lm_next s') (lm_w s') f /\
      tree_ok (replace_kids f root) (lm_next s') /\
      (forall u, below u root -> dget (t_id u) (lm_w s') = dget (t_id u) (lm_w s)).
  Proof.
    intros Er Kr OK E. destruct (add_lora_done rnd svd _ _ _ _ _ _ _ _ Er Kr OK E) as (cs & fs & sh' & T & s2 & _ & LD & R1 & R2 & R3 & _).
    exists (slots fs). rewrite R1, R2, R3. split; [exact (ld_root _ _ _ _ _ _ _ _ _ _ _ LD)|].
    destruct (in_force_parts (in_use (lm_handler s) cfg (lm_cfg s)) cs) as (P1 & P2 & P3).
    split; [eapply wrapped_cfg; [symmetry; exact P1|symmetry; exact P2|symmetry; exact P3|]; exact (done_wrapped _ _ _ _ (start cfg s) _ _ _ _ LD)|].
    split; [exact (new_tree_ok rnd svd _ _ _ _ (start cfg s) _ _ _ _ OK Kr LD)|].
    intros u Bu. exact (ld_w _ _ _ _ _ _ _ _ _ _ _ LD (t_id u) (proj1 (ok_ids _ _ OK u Bu))).
  Qed.

  (** C56: what is tracked afterwards *)
  Lemma add_lora_tracked clear tf nf cfg (s s' : lm) root : lm_root s = Some root -> t_kids root <> [] -> tree_ok root (lm_next s) ->
    lm_add_lora rnd svd true clear tf nf None cfg s = (s', Ok tt) ->
    exists root', lm_root s' = Some root' /\
      NoDup (map fst (x_names (lm_x s'))) /\ x_mods (lm_x s') = map fst (x_names (lm_x s')) /\
      (forall m name, In (m, name) (x_names (lm_x s')) <-> exists i, selected (lm_tf s) (lm_nf s) root' i /\ t_id (i_mod i) = m /\ i_name i = name /\
         ((exists j, In j (named_modules root') /\ substring "logix_lora_B" (i_name j)) -> substring "logix_lora_B" name)) /\
      (forall p, In p (lm_frozen s') <-> In p (lm_frozen s) \/
         exists u, below u root' /\ t_kids u = [] /\ In p (t_params u) /\ ~ In (t_id u) (x_mods (lm_x s'))).
  Proof.
    intros Er Kr OK E. destruct (add_lora_done rnd svd _ _ _ _ _ _ _ _ Er Kr OK E) as (cs & fs & sh' & T & s2 & _ & LD & R1 & R2 & R3 & _ & _ & _ & _ & Wt).
    destruct (Wt eq_refl) as (W1 & W2 & W3). set (root' := replace_kids (slots fs) root) in *. exists root'. rewrite R1.
    split; [exact (ld_root _ _ _ _ _ _ _ _ _ _ _ LD)|].
    pose proof (new_tree_ok rnd svd _ _ _ _ (start cfg s) _ _ _ _ OK Kr LD) as OK'. fold root' in OK'. destruct (named_modules_spec _ _ OK') as (ND & Vis & Sp).
    assert (MF : map fst (x_names (lm_x s')) = map iid (watch_list (lm_tf s) (lm_nf s) root')) by (rewrite W3, map_map; reflexivity).
    rewrite MF, W2. split; [apply nodup_filter, ND|]. split; [reflexivity|].
    split.
    - intros m name. rewrite W3, in_map_iff. unfold watch_list. split.
      + intros (i & Ei & Hi). injection Ei as <- <-. apply filter_In in Hi as [Hi Hc]. apply module_check_spec in Hc as [Hp HB]. exists i. split; [split; assumption|].
        split; [reflexivity|]. split; [reflexivity|]. intros X. apply HB. apply is_lora_spec, X.
      + intros (i & [Hi Hp] & <- & <- & HB). exists i. split; [reflexivity|]. apply filter_In. split; [exact Hi|]. apply module_check_spec. split; [exact Hp|]. intros X. apply HB. apply is_lora_spec, X.
    - intros p. rewrite W1, watch_item_in. split; (intros [X|X]; [left; exact X|right]).
      + destruct X as (i & Hi & Hc & Hk & Hp). exists (i_mod i). destruct (Sp i Hi) as (ks & P & _). split; [eapply path_below; exact P|]. split; [exact Hk|]. split; [exact Hp|].
        unfold watch_list. rewrite in_map_iff. intros (j & Ej & Hj). apply filter_In in Hj as [Hj Hcj]. assert (X : j = i); [|congruence].
        clear - ND Hi Hj Ej. unfold iid in Ej. revert Hi Hj. generalize (named_modules root') as l, ND. clear - Ej. induction l as [|y l IH]; intros ND; [intros []|].
        cbn [map] in ND. inversion ND as [|? ? N NDr]; subst. intros [->|Hi] [->|Hj]; [reflexivity| | |apply IH; assumption]; exfalso; apply N; apply in_map_iff; eexists; (split; [|eassumption]); unfold iid; congruence.
      + destruct X as (u & Bu & Hk & Hp & NT). destruct (Vis u Bu) as (i & Hi & <-). exists i. split; [exact Hi|]. split; [|auto].
        destruct (module_check i (lm_tf s) (lm_nf s) (is_lora root')) eqn:Ec; [|reflexivity]. exfalso. apply NT. apply in_map_iff. exists i. split; [reflexivity|]. apply filter_In. auto.
  Qed.
End P.
