(** LoRA: repeated use (C54), dilated convolutions (C54), narrow layers with sharing (C57), which calls succeed. *)
From Verif Require Import Py PyStr Field Tensor ModelGrad Monad ModelState ModelMmap ModelSaver ModelLogger ModelModules ModelLora SpecLora LogProofs1 LoraProofs1 LoraProofs2 LoraProofs3 LoraProofs4 LoraProofs5 LoraProofs6 LoraProofs7 LoraProofs8 LoraProofs9.
Local Open Scope nat_scope.

Lemma below_leaf u t : t_kids t = [] -> below u t -> u = t.
Proof. intros K B. apply below_inv in B as [->|(? & ? & X & _)]; [reflexivity|]. rewrite K in X. destruct X. Qed.
Lemma selected_below root n tf nf i : tree_ok root n -> selected tf nf root i -> below (i_mod i) root.
Proof. intros OK [Hi _]. destruct (named_modules_spec root _ OK) as (_ & _ & Sp). destruct (Sp i Hi) as (ks & P & _). eapply path_below; exact P. Qed.
Lemma around_undilated rank t b n a c : undilated t -> undilated b -> t_kids t = [] -> t_kids b = [] ->
  forall v, below v (lora_around rank t b n a c) -> undilated v.
Proof.
  intros Ut Ub Kt Kb v B. unfold lora_around in B. destruct t as [tid tk tcls tps tkids]. cbn [t_kind t_kids] in *. subst tkids.
  destruct tk as [i o| |g| |].
  2,4,5: apply below_leaf in B; [subst; exact Ut|reflexivity].
  all: apply below_inv in B as [->|(k & c' & Hk & B)]; [exact Logic.I|]; cbn [t_kids In] in Hk;
    destruct Hk as [[= <- <-]|[[= <- <-]|[[= <- <-]|[[= <- <-]|[]]]]]; apply below_leaf in B; try reflexivity; try assumption; subst; try assumption; cbn; auto.
Qed.
Lemma bottleneck_undilated t r b : undilated (bottleneck t r b).
Proof. unfold bottleneck, undilated. destruct (t_kind t); cbn; auto. Qed.
Lemma bottleneck_kids t r b : t_kids (bottleneck t r b) = [].
Proof. unfold bottleneck. destruct (t_kind t); reflexivity. Qed.

(** which layers can be wrapped *)
Definition good (c : lora_cfg) (i : item) : Prop := wlayer (i_mod i) /\ exists g, find_group (i_name i) (lc_groups c) = Ok g.
Lemma find_group_one groups name : (exists g, find_group name groups = Ok g) <-> one_group groups name.
Proof.
  unfold find_group, one_group. destruct groups as [gs|]; [|split; [auto|eauto]]. split.
  - intros (g & E). destruct (filter (fun g => contains g name) gs) as [|g0 [|]] eqn:Ef; try discriminate. clear E g. revert g0 Ef. induction gs as [|x gs IH]; intros g0; cbn [filter]; [discriminate|].
    destruct (contains x name) eqn:Ex.
    + intros [= <- Ef]. exists [], x, gs. split; [reflexivity|]. split; [apply contains_spec, Ex|]. intros g' Hg Sg. apply contains_spec in Sg.
      assert (X : In g' (filter (fun g => contains g name) gs)) by (apply filter_In; auto). rewrite Ef in X. destruct X.
    + intros Ef. destruct (IH g0 Ef) as (l & g & r & -> & Sg & N). exists (x :: l), g, r. split; [reflexivity|]. split; [exact Sg|]. intros g' [<-|Hg]; [|apply N, Hg].
      intros Sx. apply contains_spec in Sx. congruence.
  - intros (l & g & r & -> & Sg & N). exists g. rewrite filter_app. cbn [filter]. apply contains_spec in Sg. rewrite Sg.
    assert (E : forall k, (forall g', In g' k -> In g' (l ++ r)) -> filter (fun g => contains g name) k = []).
    { intros k Hk. induction k as [|y k IH]; [reflexivity|]. cbn [filter]. destruct (contains y name) eqn:Ey; [exfalso; apply (N y); [apply Hk; left; reflexivity|apply contains_spec, Ey]|].
      apply IH. intros z Hz. apply Hk. right. exact Hz. }
    rewrite !E; [reflexivity| |]; intros g' Hg; apply in_app_iff; auto.
Qed.
Lemma find_group_err groups name e : find_group name groups = Err e -> e = AssertionError.
Proof. unfold find_group. destruct groups as [gs|]; [|discriminate]. destruct (filter _ gs) as [|? [|]]; congruence. Qed.
Lemma wrappable_good c i tf nf : passes tf nf (i_name i) (i_mod i) -> (good c i <-> wrappable (lc_groups c) i).
Proof.
  intros ((_ & K) & _). unfold good, wrappable, wlayer. rewrite <- find_group_one.
  destruct (t_kind (i_mod i)) eqn:E; try contradiction; (split; [intros [X1 X2]; split; [try discriminate; try contradiction|exact X2]|intros [X1 X2]; split; [try exact Logic.I; congruence|exact X2]]).
Qed.
Lemma no_params root : all_params root = [] <-> forall u, below u root -> t_params u = [].
Proof.
  induction root as [id k cls ps kids IH] using mtree_ind'. cbn [all_params]. rewrite Forall_forall in IH. split.
  - intros E u B. apply app_eq_nil in E as [E1 E2]. apply below_inv in B as [->|(key & c & Hk & B)]; [exact E1|].
    apply (proj1 (IH (key, c) Hk)); [|exact B]. cbn [t_kids] in Hk. clear - E2 Hk. induction kids as [|y kids IHk]; [destruct Hk|]. cbn in E2. apply app_eq_nil in E2 as [X1 X2].
    destruct Hk as [->|Hk]; [exact X1|apply IHk; assumption].
  - intros A. assert (E1 : ps = []) by (apply (A (MT id k cls ps kids)); constructor). rewrite E1. cbn [app].
    assert (E2 : forall l, (forall y, In y l -> In y kids) -> concat (map (fun nc => all_params (snd nc)) l) = []).
    { induction l as [|y l IHl]; intros Hl; [reflexivity|]. cbn. rewrite IHl by (intros z Hz; apply Hl; right; exact Hz). rewrite app_nil_r.
      apply (proj2 (IH y (Hl y (or_introl eq_refl)))). intros u B. apply A. destruct y as [key c]. eapply below_kid; [apply (Hl (key, c)); left; reflexivity|exact B]. }
    apply E2. auto.
Qed.

Section W.
  Context {F : Type} `{OField F}.
  Notation tensor := (tensor F).
  Notation weights := (dict mid (tensor * option tensor)).
  Lemma wrapped_undilated h tf nf root n n0 n1 (w : weights) f : tree_ok root n -> wrapped h tf nf root n0 n1 w f ->
    (forall u, below u root -> undilated u) -> forall v, below v (replace_kids f root) -> undilated v.
  Proof.
    intros OK WR U v B. apply below_replace in B as [(u & Bu & ->)|(u & key & c & l & Bu & Hk & El & Bv)].
    - unfold undilated. destruct (replace_parts f u) as (-> & _). apply U, Bu.
    - destruct (wp_only _ _ _ _ _ _ _ _ WR _ _ _ El) as (i & Hs & Ep & Ek). rewrite <- Ep, <- Ek in El.
      destruct (wp_layer _ _ _ _ _ _ _ _ WR i Hs) as (b & n' & a & c' & El' & _ & _ & _ & B1 & B2). rewrite El in El'. injection El' as ->.
      assert (Hb : undilated b /\ t_kids b = []).
      { destruct (lc_share h); [destruct (B2 eq_refl) as (j & _ & _ & ->)|rewrite (B1 eq_refl)]; (split; [apply bottleneck_undilated|apply bottleneck_kids]). }
      eapply around_undilated; [apply U; eapply selected_below; eassumption|apply Hb|apply Hs|apply Hb|exact Bv].
  Qed.
End W.

Section P.
  Context {F : Type} `{OField F}.
  Notation tensor := (tensor F).
  Notation lm := (@lm F).
  Notation weights := (dict mid (tensor * option tensor)).
  Context (rnd : mid -> list nat -> F) (svd : tensor -> res tensor).

  (** which calls succeed *)
  Lemma lora_item_ok c i sh (s : lm) : shared_ok (lc_rank c) s sh -> (lc_share c = false -> sh = []) -> lc_init c <> "pca"%string -> good c i ->
    exists s' r, lora_item rnd svd c true i sh s = (s', Ok r).
  Proof.
    intros SH SF NI (WL & g & Eg). unfold lora_item.
    rewrite (sbind_run _ _ s s tt) by (unfold wlayer in WL; destruct (t_kind (i_mod i)); try contradiction; reflexivity).
    rewrite (sbind_run _ _ s s g) by (unfold lift; rewrite Eg; reflexivity).
    assert (G0 : exists s0 sh0, (if lc_share c && negb (dmem g sh) then let! m := new_shared rnd (lc_rank c) (i_mod i) in sret (dset g m sh) else sret sh) s = (s0, Ok sh0) /\
      forall b, dget g sh0 = Some b -> t_id b < lm_next s0 /\ exists v, dget (t_id b) (lm_w s0) = Some (v, None) /\ shape v = weight_shape b).
    { destruct (lc_share c) eqn:Es; cbn [andb].
      - destruct (dmem g sh) eqn:Em; cbn [negb].
        + exists s, sh. split; [reflexivity|]. intros b Eb. destruct (SH g b Eb) as (L & _ & Wb). split; [exact L|]. eexists. split; [exact Wb|reflexivity].
        + eexists _, _. split; [erewrite sbind_run by (apply new_shared_run; exact WL); reflexivity|].
          intros b. rewrite dget_dset_eq. intros [= <-]. rewrite bottleneck_id. cbn [lm_next lm_w lm_set_model]. split; [lia|]. rewrite dget_dset_eq. eexists. split; reflexivity.
      - exists s, sh. split; [reflexivity|]. intros b Eb. rewrite (SF eq_refl) in Eb. discriminate Eb. }
    destruct G0 as (s0 & sh0 & E0 & SB). rewrite (sbind_run _ _ _ _ _ E0).
    destruct (new_lora_wraps rnd (lc_rank c) (i_mod i) (dget g sh0) s0 WL SB) as (s1 & b & a & cc & n & El & _).
    rewrite (sbind_run _ _ _ _ _ El). destruct (String.eqb_spec (lc_init c) "pca") as [X|_]; [contradiction|].
    rewrite (sbind_run (sret tt) _ s1 s1 tt) by reflexivity. eexists _, _. reflexivity.
  Qed.
  Lemma lora_item_bad c i sh (s : lm) : (t_kind (i_mod i) = KConv1d -> exists s', lora_item rnd svd c true i sh s = (s', Err NotImplementedError)) /\
    (t_kind (i_mod i) <> KConv1d -> forall e, find_group (i_name i) (lc_groups c) = Err e -> exists s', lora_item rnd svd c true i sh s = (s', Err e)).
  Proof.
    split.
    - intros E. unfold lora_item. rewrite E. eexists. reflexivity.
    - intros N e E. unfold lora_item. rewrite (sbind_run _ _ s s tt) by (destruct (t_kind (i_mod i)); try contradiction; reflexivity).
      eexists. unfold sbind at 1, lift. rewrite E. reflexivity.
  Qed.
  Lemma lora_loop_ok c tf nf l : forall sh (s : lm), shared_ok (lc_rank c) s sh -> (lc_share c = false -> sh = []) -> lc_init c <> "pca"%string ->
    (forall i, In i l -> module_check i tf nf false = true -> good c i) ->
    exists s' sh', lora_loop rnd svd c tf nf true l sh s = (s', Ok sh') /\ shared_ok (lc_rank c) s' sh' /\ (lc_share c = false -> sh' = []).
  Proof.
    induction l as [|i l IH]; intros sh s SH SF NI G; cbn [lora_loop]; [exists s, sh; auto|].
    destruct (module_check i tf nf false) eqn:Ec; [|apply IH; auto; intros j Hj; apply G; right; exact Hj].
    destruct (lora_item_ok c i sh s SH SF NI (G i (or_introl eq_refl) Ec)) as (s1 & [sh1 l1] & E1). rewrite (sbind_run _ _ _ _ _ E1). cbn [fst].
    apply lora_item_done in E1 as (s2 & b & n & a & cc & D & ->); [|exact SH|exact SF].
    apply IH; auto.
    - intros g b' Eb. destruct (id_shared _ _ _ _ _ _ _ _ _ _ _ _ _ D g b' Eb) as (X1 & X2 & X3). cbn [lm_next lm_w lm_set_model]. auto.
    - intros Es. destruct (id_group _ _ _ _ _ _ _ _ _ _ _ _ _ D) as (g & _ & G'). rewrite Es in G'. destruct G' as (-> & _). auto.
    - intros j Hj. apply G. right. exact Hj.
  Qed.
  Lemma lora_loop_bad c tf nf pre i post : forall sh (s : lm), shared_ok (lc_rank c) s sh -> (lc_share c = false -> sh = []) -> lc_init c <> "pca"%string ->
    (forall j, In j pre -> module_check j tf nf false = true -> good c j) -> module_check i tf nf false = true -> ~ good c i ->
    exists s', lora_loop rnd svd c tf nf true (pre ++ i :: post) sh s = (s', Err (match t_kind (i_mod i) with KConv1d => NotImplementedError | _ => AssertionError end)).
  Proof.
    induction pre as [|j pre IH]; intros sh s SH SF NI G Ci Bi; cbn [app lora_loop].
    - rewrite Ci. destruct (lora_item_bad c i sh s) as [B1 B2].
      assert (X : exists s', lora_item rnd svd c true i sh s = (s', Err (match t_kind (i_mod i) with KConv1d => NotImplementedError | _ => AssertionError end))).
      { pose proof Ci as Cp. apply module_check_spec in Cp as (((_ & K) & _) & _). destruct (find_group (i_name i) (lc_groups c)) as [g|e] eqn:Eg.
        - destruct (t_kind (i_mod i)) eqn:Ek; try contradiction; try (apply B1; reflexivity); exfalso; apply Bi; (split; [unfold wlayer; rewrite Ek; exact Logic.I|eauto]).
        - rewrite (find_group_err _ _ _ Eg) in *. destruct (t_kind (i_mod i)) eqn:Ek; try contradiction; try (apply B1; reflexivity); (apply B2; [discriminate|reflexivity]). }
      destruct X as (s' & X). exists s'. unfold sbind. rewrite X. reflexivity.
    - destruct (module_check j tf nf false) eqn:Ec; [|apply IH; auto; intros k Hk; apply G; right; exact Hk].
      destruct (lora_item_ok c j sh s SH SF NI (G j (or_introl eq_refl) Ec)) as (s1 & [sh1 l1] & E1). rewrite (sbind_run _ _ _ _ _ E1). cbn [fst].
      apply lora_item_done in E1 as (s2 & b & n & a & cc & D & ->); [|exact SH|exact SF].
      apply IH; auto.
      + intros g b' Eb. destruct (id_shared _ _ _ _ _ _ _ _ _ _ _ _ _ D g b' Eb) as (X1 & X2 & X3). cbn [lm_next lm_w lm_set_model]. auto.
      + intros Es. destruct (id_group _ _ _ _ _ _ _ _ _ _ _ _ _ D) as (g & _ & G'). rewrite Es in G'. destruct G' as (-> & _). auto.
      + intros k Hk. apply G. right. exact Hk.
  Qed.
  Lemma handler_run h cs tf nf root (s : lm) : lm_handler s = Some h -> dget "covariance_state" (attrs (x_state (lm_x s))) = Some cs ->
    lm_root s = Some root -> t_kids root <> [] -> (exists u, below u root /\ t_params u <> []) ->
    handler_add_lora rnd svd tf nf s = (lora_loop rnd svd (in_force h cs) tf nf true (named_modules root) [] ;; sret tt) (lm_set_lora s (lm_cfg s) (Some (in_force h cs))).
  Proof.
    intros Eh Ec Er Kr (u & Bu & Hu). unfold handler_add_lora. rewrite Eh, Ec. fold (in_force h cs). change (lm_root (lm_set_lora s (lm_cfg s) (Some (in_force h cs)))) with (lm_root s). rewrite Er.
    destruct (is_nil (all_params root)) eqn:E; [exfalso; apply is_nil_true in E; apply Hu; apply (proj1 (no_params root) E), Bu|].
    destruct root as [rid rk rc rp [|kd kids]]; [exfalso; apply Kr; reflexivity|reflexivity].
  Qed.
  Lemma no_pca h (cs : nd (@sval F)) : lc_init h <> "pca"%string \/ cs = Node [] -> lc_init (in_force h cs) <> "pca"%string.
  Proof.
    intros [E|E]; unfold in_force.
    - destruct (String.eqb_spec (lc_init h) "pca"); [contradiction|]. exact E.
    - subst cs. destruct (String.eqb_spec (lc_init h) "pca"); cbn [andb lc_init]; [discriminate|assumption].
  Qed.

  (** without PCA the first unsuitable layer decides *)
  Lemma add_lora_fails watch clear tf nf cfg (s : lm) root cs pre i post : lm_root s = Some root -> t_kids root <> [] ->
    dget "covariance_state" (attrs (x_state (lm_x s))) = Some cs -> (exists u, below u root /\ t_params u <> []) ->
    let h := in_use (lm_handler s) cfg (lm_cfg s) in let tf' := chosen tf (lm_tf s) in let nf' := chosen nf (lm_nf s) in
    lc_init h <> "pca"%string \/ cs = Node [] ->
    named_modules root = pre ++ i :: post -> selected tf' nf' root i -> ~ wrappable (lc_groups h) i ->
    (forall j, In j pre -> selected tf' nf' root j -> wrappable (lc_groups h) j) ->
    exists s', lm_add_lora rnd svd watch clear tf nf None cfg s = (s', Err (match t_kind (i_mod i) with KConv1d => NotImplementedError | _ => AssertionError end)).
  Proof.
    intros Er Kr Ec Pu h tf' nf' NP En Hs Bi G. unfold lm_add_lora.
    rewrite (sbind_run _ _ s (start cfg s) tt) by (rewrite start_eq; reflexivity).
    rewrite (sbind_run _ _ (start cfg s) (start cfg s) (start cfg s)) by reflexivity.
    change (lm_tf (start cfg s)) with (lm_tf s). change (lm_nf (start cfg s)) with (lm_nf s). rewrite !or_chosen. fold tf'. fold nf'.
    destruct (in_force_parts h cs) as (P1 & P2 & P3).
    destruct (lora_loop_bad (in_force h cs) tf' nf' pre i post [] (lm_set_lora (start cfg s) (lm_cfg (start cfg s)) (Some (in_force h cs)))) as (s' & E).
    - intros g b X. discriminate X.
    - reflexivity.
    - apply no_pca, NP.
    - intros j Hj Cj. apply module_check_spec in Cj as (Pj & _). apply (proj2 (wrappable_good (in_force h cs) j tf' nf' Pj)). rewrite P3. apply G; [exact Hj|]. split; [rewrite En; apply in_app_iff; auto|exact Pj].
    - apply module_check_spec. split; [apply Hs|discriminate].
    - intros X. apply (proj1 (wrappable_good (in_force h cs) i tf' nf' (proj2 Hs))) in X. rewrite P3 in X. contradiction.
    - exists s'. unfold sbind at 1. rewrite (handler_run h cs tf' nf' root (start cfg s) eq_refl Ec Er Kr Pu), En. unfold sbind at 1. rewrite E. reflexivity.
  Qed.
  Lemma add_lora_succeeds tf nf cfg (s : lm) root cs : lm_root s = Some root -> t_kids root <> [] -> tree_ok root (lm_next s) ->
    dget "covariance_state" (attrs (x_state (lm_x s))) = Some cs -> (exists u, below u root /\ t_params u <> []) ->
    let h := in_use (lm_handler s) cfg (lm_cfg s) in let tf' := chosen tf (lm_tf s) in let nf' := chosen nf (lm_nf s) in
    lc_init h <> "pca"%string \/ cs = Node [] ->
    (forall j, selected tf' nf' root j -> wrappable (lc_groups h) j) ->
    exists s', lm_add_lora rnd svd false false tf nf None cfg s = (s', Ok tt).
  Proof.
    intros Er Kr OK Ec Pu h tf' nf' NP G. unfold lm_add_lora.
    rewrite (sbind_run _ _ s (start cfg s) tt) by (rewrite start_eq; reflexivity).
    rewrite (sbind_run _ _ (start cfg s) (start cfg s) (start cfg s)) by reflexivity.
    change (lm_tf (start cfg s)) with (lm_tf s). change (lm_nf (start cfg s)) with (lm_nf s). rewrite !or_chosen. fold tf'. fold nf'.
    destruct (in_force_parts h cs) as (P1 & P2 & P3).
    destruct (lora_loop_ok (in_force h cs) tf' nf' (named_modules root) [] (lm_set_lora (start cfg s) (lm_cfg (start cfg s)) (Some (in_force h cs)))) as (s1 & sh1 & E & _ & _).
    - intros g b X. discriminate X.
    - reflexivity.
    - apply no_pca, NP.
    - intros j Hj Cj. apply module_check_spec in Cj as (Pj & _). apply (proj2 (wrappable_good (in_force h cs) j tf' nf' Pj)). rewrite P3. apply G. split; assumption.
    - assert (E1 : handler_add_lora rnd svd tf' nf' (start cfg s) = (s1, Ok tt)) by (rewrite (handler_run h cs tf' nf' root (start cfg s) eq_refl Ec Er Kr Pu); rewrite (sbind_run _ _ _ _ _ E); reflexivity).
      rewrite (sbind_run _ _ _ _ _ E1). rewrite (sbind_run (sret tt) _ s1 s1 tt) by reflexivity.
      destruct (handler_done rnd svd h cs tf' nf' root (start cfg s) s1 eq_refl Ec Er Kr OK E1) as (_ & fs & sh' & T & LD).
      pose proof (new_tree_ok rnd svd _ _ _ _ (start cfg s) _ _ _ _ OK Kr LD) as OK'. pose proof (ld_root _ _ _ _ _ _ _ _ _ _ _ LD) as R1.
      assert (E2 : exists s2, save_lora s1 = (s2, Ok tt)).
      { unfold save_lora. rewrite R1. destruct (mem _ _) eqn:Em.
        - exfalso. apply mem_In in Em. set (r' := replace_kids (slots fs) root) in *. destruct r' as [rid rk rc rp kids] eqn:Er'. cbn [all_ids tl t_id] in Em.
          apply in_concat in Em as (l & Hl & Hx). apply in_map_iff in Hl as ((key & c) & <- & Hk). apply in_all_ids in Hx as (v & Bv & Ev).
          assert (Bc : below c (MT rid rk rc rp kids)) by (eapply (below_child (MT rid rk rc rp kids)); exact Hk).
          assert (v = MT rid rk rc rp kids) by (apply (ok_same _ _ OK'); [eapply below_trans; eassumption|constructor|exact Ev]). subst v.
          cbn [snd] in Bv. apply tsize_below in Bv as [X|X]; pose proof (tsize_kid (MT rid rk rc rp kids) key c Hk) as Y; [rewrite <- X in Y; exact (Nat.lt_irrefl _ Y)|exact (Nat.lt_irrefl _ (Nat.lt_trans _ _ _ X Y))].
        - destruct (is_nil _); eexists; reflexivity. }
      destruct E2 as (s2 & E2). rewrite (sbind_run _ _ _ _ _ E2). cbn [orb]. rewrite (sbind_run (sret tt) _ s2 s2 tt) by reflexivity. eexists. reflexivity.
  Qed.
End P.
