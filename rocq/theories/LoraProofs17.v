(** LoRA: missing covariances (C65); loading weights in add_lora and initialize_from_log (C66). *)
From Verif Require Import Py PyStr Field Tensor ModelGrad Monad ModelState ModelMmap ModelSaver ModelLogger ModelModules ModelLora SpecState SpecLora LoraProofs1 LoraProofs2 LoraProofs3 LoraProofs4 LoraProofs5 LoraProofs6 LoraProofs7 LoraProofs10 LoraProofs16.
Local Open Scope nat_scope.

Section P.
  Context {F : Type} `{OField F}.
  Notation tensor := (tensor F).
  Notation lm := (@lm F).
  Context (rnd : mid -> list nat -> F) (svd : tensor -> res tensor).

  Lemma lora_item_nocov c i (s : lm) ll : lc_init c = "pca"%string -> good c i ->
    dget "covariance_state" (attrs (x_state (lm_x s))) = Some (Node ll) -> dget (i_name i) ll = None ->
    exists s', lora_item rnd svd c true i [] s = (s', Err TypeError).
  Proof.
    intros IP (WL & g & Eg) Ec En. unfold lora_item.
    rewrite (sbind_run _ _ s s tt) by (unfold wlayer in WL; destruct (t_kind (i_mod i)); try contradiction; reflexivity).
    rewrite (sbind_run _ _ s s g) by (unfold lift; rewrite Eg; reflexivity).
    assert (G0 : exists s0 sh0, (if lc_share c && negb (dmem g ([] : dict string mtree)) then let! m := new_shared rnd (lc_rank c) (i_mod i) in sret (dset g m []) else sret []) s = (s0, Ok sh0) /\ lm_x s0 = lm_x s /\
      forall b, dget g sh0 = Some b -> t_id b < lm_next s0 /\ exists v, dget (t_id b) (lm_w s0) = Some (v, None) /\ shape v = weight_shape b).
    { change (dmem g ([] : dict string mtree)) with false. destruct (lc_share c) eqn:Es; cbn [andb negb].
      - eexists _, _. split; [erewrite sbind_run by (apply new_shared_run; exact WL); reflexivity|]. split; [reflexivity|].
        intros b. rewrite dget_dset_eq. intros [= <-]. rewrite bottleneck_id. cbn [lm_next lm_w lm_set_model]. split; [lia|]. rewrite dget_dset_eq. eexists. split; reflexivity.
      - exists s, []. split; [reflexivity|]. split; [reflexivity|]. intros b Eb. discriminate Eb. }
    destruct G0 as (s0 & sh0 & E0 & X0 & SB). rewrite (sbind_run _ _ _ _ _ E0).
    destruct (new_lora_wraps rnd (lc_rank c) (i_mod i) (dget g sh0) s0 WL SB) as (s1 & b & a & cc & n & El & Wr & _).
    rewrite (sbind_run _ _ _ _ _ El). rewrite IP, String.eqb_refl. destruct (wr_keeps _ _ _ _ _ _ _ _ _ Wr) as (K1 & _).
    assert (Ex : lm_x s1 = lm_x s) by congruence.
    assert (Y : (let! s := sget in let! cov := lift (let* cs := (match dget "covariance_state" (attrs (x_state (lm_x s))) with Some d => Ok d | None => Err AttributeError end) in nd_item cs (i_name i)) in
      pca_init svd (lc_rank c) (i_mod i) (lora_around (lc_rank c) (i_mod i) b n a cc) cov) s1 = (s1, Err TypeError)).
    { rewrite (sbind_run _ _ s1 s1 s1) by reflexivity. rewrite Ex, Ec. cbn [bind nd_item]. rewrite En. rewrite (sbind_run _ _ s1 s1 (Node [])) by reflexivity.
      rewrite lora_around_eq by exact WL. unfold pca_init. unfold wlayer in WL. destruct (t_kind (i_mod i)); try contradiction; apply sbind_err; reflexivity. }
    exists s1. apply sbind_err. exact Y.
  Qed.
  Lemma lora_loop_skip c tf nf r pre : forall l sh (s : lm), (forall j, In j pre -> module_check j tf nf false = false) ->
    lora_loop rnd svd c tf nf r (pre ++ l) sh s = lora_loop rnd svd c tf nf r l sh s.
  Proof.
    induction pre as [|j pre IH]; intros l sh s N; [reflexivity|]. cbn [app lora_loop]. rewrite (N j (or_introl eq_refl)). apply IH. intros k Hk. apply N. right. exact Hk.
  Qed.
  (** a layer whose covariance was never collected *)
  Lemma add_lora_pca_missing watch clear tf nf cfg (s : lm) root ll pre i post : lm_root s = Some root -> t_kids root <> [] -> (exists u, below u root /\ t_params u <> []) ->
    dget "covariance_state" (attrs (x_state (lm_x s))) = Some (Node ll) -> ll <> [] ->
    let h := in_use (lm_handler s) cfg (lm_cfg s) in let tf' := chosen tf (lm_tf s) in let nf' := chosen nf (lm_nf s) in
    lc_init h = "pca"%string -> named_modules root = pre ++ i :: post -> selected tf' nf' root i -> (forall j, In j pre -> ~ selected tf' nf' root j) ->
    wrappable (lc_groups h) i -> dget (i_name i) ll = None ->
    exists s', lm_add_lora rnd svd watch clear tf nf None cfg s = (s', Err TypeError).
  Proof.
    intros Er Kr Pu Ec Nl h tf' nf' IP En Hs Np Wr Nc. unfold lm_add_lora.
    rewrite (sbind_run _ _ s (start cfg s) tt) by (rewrite start_eq; reflexivity).
    rewrite (sbind_run _ _ (start cfg s) (start cfg s) (start cfg s)) by reflexivity.
    change (lm_tf (start cfg s)) with (lm_tf s). change (lm_nf (start cfg s)) with (lm_nf s). rewrite !or_chosen. fold tf'. fold nf'.
    assert (IF : in_force h (Node ll) = h) by (unfold in_force; destruct ll; [contradiction|]; rewrite andb_false_r; reflexivity).
    assert (Hi : module_check i tf' nf' false = true) by (apply module_check_spec; split; [apply Hs|discriminate]).
    destruct (lora_item_nocov h i (lm_set_lora (start cfg s) (lm_cfg (start cfg s)) (Some h)) ll) as (s' & E); [exact IP|eapply wrappable_good; [apply Hs|exact Wr]|exact Ec|exact Nc|].
    exists s'. apply sbind_err. rewrite (handler_run rnd svd h (Node ll) tf' nf' root) by (assumption || reflexivity). rewrite IF, En. unfold sbind. rewrite lora_loop_skip.
    - cbn [lora_loop]. rewrite Hi. unfold sbind. rewrite E. reflexivity.
    - intros j Hj. apply not_true_is_false. intros C. apply (Np j Hj). split; [rewrite En; apply in_app_iff; auto|]. apply module_check_spec in C. apply C.
  Qed.

  (** add_lora with a file of weights *)
  Lemma add_lora_path tf nf cfg (s s1 s2 : lm) r n root file : lm_add_lora rnd svd false false tf nf None cfg s = (s1, Ok tt) ->
    lm_root s1 = Some root -> tree_ok root n -> load_lora file s1 = (s2, r) ->
    exists s', lm_add_lora rnd svd false false tf nf (Some (Ok file)) cfg s = (s', r) /\ lm_w s' = lm_w s2 /\ lm_root s' = lm_root s2.
  Proof.
    unfold lm_add_lora. intros E Er OK El.
    apply sbind_ok in E as (t1 & [] & E1 & E). apply sbind_ok in E as (t2 & q & E2 & E). apply sbind_ok in E as (t3 & [] & E3 & E). apply sbind_ok in E as (t4 & [] & E4 & E). apply sbind_ok in E as (t5 & [] & E5 & E).
    injection E4 as <-. cbn [orb] in E. injection E as <-.
    rewrite (sbind_run _ _ _ _ _ E1), (sbind_run _ _ _ _ _ E2), (sbind_run _ _ _ _ _ E3).
    assert (S5 : lm_root t5 = lm_root t3 /\ lm_w t5 = lm_w t3 /\ t5 = lm_set_file t3 (lm_file t5)).
    { unfold save_lora in E5. destruct (lm_root t3) as [r0|] eqn:Er3; [|discriminate E5]. destruct (mem _ _); [discriminate E5|]. destruct (is_nil _); injection E5 as <-; [|split; [exact Er3|split; reflexivity]]. split; [exact Er3|]. split; [reflexivity|]. destruct t3; reflexivity. }
    destruct S5 as (R5 & W5 & T5).
    assert (L3 : exists t, load_lora file t3 = (t, r) /\ lm_w t = lm_w s2 /\ lm_root t = lm_root s2).
    { unfold load_lora in El |- *. rewrite <- R5, <- W5. rewrite Er in El |- *. destruct (forallb _ file).
      - injection El as <- <-. eexists. split; [reflexivity|]. split; reflexivity.
      - injection El as <- <-. exists t3. split; [reflexivity|]. split; congruence. }
    destruct L3 as (t & L3 & Wt & Rt). destruct r as [[]|e].
    - rewrite (sbind_run _ _ t3 t tt) by (rewrite (sbind_run _ _ t3 t3 file) by reflexivity; exact L3).
      assert (Ert : lm_root t = Some root).
      { unfold load_lora in L3. rewrite <- R5, Er in L3. destruct (forallb _ file); injection L3 as <- _; [reflexivity|congruence]. }
      assert (SV : exists t', save_lora t = (t', Ok tt) /\ lm_w t' = lm_w t /\ lm_root t' = lm_root t).
      { unfold save_lora. rewrite Ert, (not_own_descendant root n OK). destruct (is_nil _); eexists; (split; [reflexivity|]); split; try reflexivity; cbn; congruence. }
      destruct SV as (t' & Sv & Wt' & Rt'). rewrite (sbind_run _ _ _ _ _ Sv). cbn [orb]. exists t'. split; [reflexivity|]. split; congruence.
    - exists t. split; [|auto]. unfold sbind at 1. rewrite (sbind_run _ _ t3 t3 file) by reflexivity. rewrite L3. reflexivity.
  Qed.

  (** initialize_from_log *)
  Lemma from_log_loads path (s : lm) root file : stored_lora path s = Some (Ok file) -> lm_root s = Some root -> (exists j, In j (named_modules root) /\ substring "logix_lora_B" (i_name j)) ->
    lora_from_log rnd svd path s = load_lora file s.
  Proof.
    intros Ef Er L. apply is_lora_spec in L. unfold lora_from_log. rewrite (sbind_run _ _ s s s) by reflexivity. rewrite Ef, Er, L.
    rewrite (sbind_run _ _ s s tt) by reflexivity. rewrite (sbind_run _ _ s s s) by reflexivity. rewrite Ef, (sbind_run _ _ s s file) by reflexivity. reflexivity.
  Qed.
  Lemma from_log_fails path (s : lm) root e : stored_lora path s = Some (Err e) -> lm_root s = Some root -> (exists j, In j (named_modules root) /\ substring "logix_lora_B" (i_name j)) ->
    lora_from_log rnd svd path s = (s, Err e).
  Proof.
    intros Ef Er L. apply is_lora_spec in L. unfold lora_from_log. rewrite (sbind_run _ _ s s s) by reflexivity. rewrite Ef, Er, L.
    rewrite (sbind_run _ _ s s tt) by reflexivity. rewrite (sbind_run _ _ s s s) by reflexivity. rewrite Ef. apply sbind_err. reflexivity.
  Qed.
  Lemma from_log_adds path (s s1 : lm) root file : stored_lora path s <> None -> lm_root s = Some root -> ~ (exists j, In j (named_modules root) /\ substring "logix_lora_B" (i_name j)) ->
    lm_add_lora rnd svd true true None None None None s = (s1, Ok tt) -> stored_lora path s1 = Some (Ok file) ->
    lora_from_log rnd svd path s = load_lora file s1.
  Proof.
    intros Ef Er L E Ef1. unfold lora_from_log. rewrite (sbind_run _ _ s s s) by reflexivity. rewrite Er. destruct (stored_lora path s); [|contradiction].
    assert (X : is_lora root = false) by (apply not_true_is_false; intros X; apply L, is_lora_spec, X). rewrite X, (sbind_run _ _ _ _ _ E), (sbind_run _ _ s1 s1 s1) by reflexivity.
    rewrite Ef1, (sbind_run _ _ s1 s1 file) by reflexivity. reflexivity.
  Qed.
  Lemma from_log_add_fails path (s s1 : lm) root e : stored_lora path s <> None -> lm_root s = Some root -> ~ (exists j, In j (named_modules root) /\ substring "logix_lora_B" (i_name j)) ->
    lm_add_lora rnd svd true true None None None None s = (s1, Err e) ->
    lora_from_log rnd svd path s = (s1, Err e).
  Proof.
    intros Ef Er L E. unfold lora_from_log. rewrite (sbind_run _ _ s s s) by reflexivity. rewrite Er. destruct (stored_lora path s); [|contradiction].
    assert (X : is_lora root = false) by (apply not_true_is_false; intros X; apply L, is_lora_spec, X). rewrite X. apply sbind_err. exact E.
  Qed.
  Lemma from_log_nothing path (s : lm) : stored_lora path s = None \/ lm_root s = None -> lora_from_log rnd svd path s = (s, Ok tt).
  Proof.
    intros [E|E]; unfold lora_from_log; rewrite (sbind_run _ _ s s s) by reflexivity; rewrite E; [reflexivity|]. destruct (stored_lora path s); reflexivity.
  Qed.
End P.
