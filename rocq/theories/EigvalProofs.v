(** Corrected eigenvalues asked for in the forward or backward phase (C98). *)
From Coq Require Import ZArith Permutation.
From Verif Require Import Py Field Tensor ModelGrad Monad ModelState ModelMmap ModelSaver ModelLogger SpecGrad SpecState SpecLogger LogProofs1 LogProofs2 LogProofs3 LogProofs6 LogProofs8 LogProofs10 StateProofs1 StateProofs2 StateProofs3 StateProofs4 StateProofs5 StateProofs7 StateProofs10.
Local Open Scope nat_scope.
Local Open Scope string_scope.

Section P.
  Context {F : Type} `{OField F}.
  Notation tensor := (tensor F).
  Notation dten := (@dten F).
  Notation lx := (@lx F).
  Notation lstate := (@lstate F).
  Notation ev := (@ev F).
  Variable kind : mid -> mkind.
  Variable wsize : mid -> nat.
  Variable eigh : tensor -> res (tensor * tensor).
  Variable enc : dten -> array.
  Notation run_ev := (run_ev kind eigh).
  Notation run_evs := (run_evs kind eigh).
  Notation reachable := (reachable kind wsize eigh enc).
  Notation run_plugin := (run_plugin eigh).

  Definition fails {S A} (r : S * res A) : Prop := exists s e, r = (s, Err e).
  Lemma fails_bind_l {S A B} (f : SM S A) (g : A -> SM S B) s : fails (f s) -> fails (sbind f g s).
  Proof. intros (s1 & e & E). exists s1, e. apply sbind_err. exact E. Qed.
  Lemma fails_bind_r {S A B} (f : SM S A) (g : A -> SM S B) s : (forall s1 a, f s = (s1, Ok a) -> fails (g a s1)) -> fails (sbind f g s).
  Proof. intros G. destruct (f s) as [s1 [a|e]] eqn:E; [rewrite (sbind_run _ _ _ _ _ E); eauto|exists s1, e; apply sbind_err; exact E]. Qed.
  Lemma seach_fails {S A} (f : A -> SM S unit) (R : S -> Prop) l : (forall a s s', R s -> In a l -> f a s = (s', Ok tt) -> R s') ->
    (exists a, In a l /\ forall s, R s -> fails (f a s)) -> forall s, R s -> fails (seach f l s).
  Proof.
    induction l as [|b l IH]; intros K (a & I & Fa) s Rs; [destruct I|]. cbn [seach]. destruct I as [->|I].
    - apply fails_bind_l. auto.
    - apply fails_bind_r. intros s1 [] E. apply IH; [intros; eapply K; [eassumption|right; eassumption|eassumption]|eauto|].
      apply (K b s s1); [exact Rs|left; reflexivity|exact E].
  Qed.

  (** ---- the update given data ---- *)
  Lemma eigval_data_fails b m d off (s : lstate) : fails (corrected_eigval_update eigh b m (Some d) off s).
  Proof.
    unfold corrected_eigval_update. do 6 (apply fails_bind_r; intros ? ? _). apply fails_bind_l. eexists _, _. reflexivity.
  Qed.
  Lemma eigval_data_known b m d off (s : lstate) :
    (forall a, In a ["covariance_eigvec_state"; "covariance_eigval_state"; "ekfac_eigval_state"; "ekfac_counter"] -> In a (dkeys (attrs s))) ->
    corrected_eigval_update eigh b m (Some d) off s = (s, Err AssertionError).
  Proof.
    intros K. assert (G : forall a, In a ["covariance_eigvec_state"; "covariance_eigval_state"; "ekfac_eigval_state"; "ekfac_counter"] -> exists x, dget a (attrs s) = Some x).
    { intros a I. apply dget_In_keys. auto. }
    destruct (G "covariance_eigvec_state" ltac:(cbn; auto)) as (x1 & E1). destruct (G "covariance_eigval_state" ltac:(cbn; auto)) as (x2 & E2).
    destruct (G "ekfac_eigval_state" ltac:(cbn; auto)) as (x3 & E3). destruct (G "ekfac_counter" ltac:(cbn; auto)) as (x4 & E4).
    unfold corrected_eigval_update. cbv [sbind sget]. unfold hasattr, dmem. rewrite E1. cbv [sret attr]. rewrite E1, E2, E3, E4. reflexivity.
  Qed.
  Lemma eigval_data_first (dk0 : @sdisk F) ps (s : lstate) b m d off : run_phases dk0 ps state_init = (s, Ok tt) -> Forall (Forall call_ok) ps ->
    snd (covariance_svd eigh s) = Ok tt ->
    exists s', corrected_eigval_update eigh b m (Some d) off s = (s', Err AssertionError) /\
      (forall n, In n (dkeys (attrs s)) -> dget n (attrs s') = dget n (attrs s)) /\
      forall cs s2 o, run_calls cs s' = (s2, o) ->
        (exists w, get_covariance_svd_state eigh s2 = (s2, Ok (Node [], w))) /\
        forall m k, match lookup2 s "covariance_state" m k with
                    | Some (VT c) => exists v w, eigh (snd c) = Ok (v, w) /\ lookup2 s2 "covariance_eigvec_state" m k = Some (VT (fst c, w))
                    | _ => lookup2 s2 "covariance_eigvec_state" m k = None
                    end.
  Proof.
    intros E O Ev. destruct (phases_ok dk0 ps _ inv5_init s E O) as (I & _).
    assert (HA : hasattr "covariance_eigvec_state" s = false).
    { unfold hasattr. destruct (dmem _ _) eqn:D; [|reflexivity]. apply dmem_In in D. destruct I as (_ & KK & _). rewrite KK in D. clear - D. vm_compute in D. intuition discriminate. }
    destruct ((covariance_svd eigh ;; register_state "ekfac_eigval_state" true true false ;;
          register_state "ekfac_counter" true false false ;; register_normalize_pair "ekfac_eigval_state" "ekfac_counter") s) as [s' r] eqn:Es.
    assert (Er : r = Ok tt).
    { revert Es. unfold sbind at 1. destruct (covariance_svd eigh s) as [s1 r1]. cbn [snd] in Ev. subst r1. unfold sbind, register_state, register_normalize_pair.
      repeat match goal with |- context [if ?b then _ else _] => destruct b; cbv iota beta end; intros [= _ <-]; reflexivity. }
    subst r. destruct (einv_start eigh s s' I Es) as (ev & ec & Gc & Gv & Tc & (_ & _ & X & C & Ex & Ec & FX & FC & K) & _ & _ & Old & V).
    assert (EX : X = Node []).
    { destruct X as [v|[|[k v] r]]; [destruct FX|reflexivity|]. exfalso. specialize (K k). cbv zeta in K. destruct K as [(_ & K1 & _)|(? & ? & ? & ? & ? & ? & ? & ? & K1 & _)].
      - unfold get1 in K1. cbn [dget] in K1. rewrite eqb_refl in K1. destruct FX as (_ & FX). apply Forall_inv in FX. cbn [snd] in FX. destruct v; [discriminate K1|destruct FX].
      - apply K1. reflexivity. }
    subst X. change StateProofs7.es with "ekfac_eigval_state" in Ex. change StateProofs7.en with "ekfac_counter" in Ec. exists s'. split; [|split; [exact Old|]].
    - unfold corrected_eigval_update. rewrite (sbind_run sget _ _ _ _ eq_refl). rewrite HA. rewrite (sbind_run _ _ _ _ _ Es).
      cbv [sbind attr]. rewrite Gc, Gv, Ex, Ec. reflexivity.
    - intros cs s2 o Ecs.
      assert (FR : forall n, (forall st, n <> stat_name st /\ n <> counter_name st) -> dget n (attrs s2) = dget n (attrs s')).
      { intros n N. pose proof (frames_run n cs N s') as Q. rewrite Ecs in Q. exact Q. }
      assert (A1 : dget "covariance_eigval_state" (attrs s2) = Some ev) by (rewrite FR; [exact Gv|intros []; split; discriminate]).
      assert (A2 : dget "covariance_eigvec_state" (attrs s2) = Some ec) by (rewrite FR; [exact Gc|intros []; split; discriminate]).
      assert (A3 : dget "ekfac_eigval_state" (attrs s2) = Some (Node [])) by (rewrite FR; [exact Ex|intros []; split; discriminate]).
      split.
      + exists ec. unfold get_covariance_svd_state. cbv [sbind sget]. unfold hasattr, dmem. rewrite A1, A2. cbn [andb]. cbv [sret attr]. rewrite A3. cbv iota. rewrite A3, A2. reflexivity.
      + intros m' k. specialize (V m' k). rewrite (lookup2_get2 s2 _ _ _ _ A2).
        destruct (lookup2 s "covariance_state" m' k) as [[]|]; try exact (proj2 V).
        destruct V as (v & w & V1 & _ & V3). exists v, w. split; assumption.
  Qed.

  (** ---- the hooks ---- *)
  Lemma plugin_eigval_fails mo m t r (x : lx) : fails (run_plugin PCorrectedEigval mo m t (Some r) x).
  Proof.
    cbn [ModelLogger.run_plugin data_of]. unfold on_state. match goal with |- context [corrected_eigval_update _ ?b ?m (Some ?d) ?o ?s] => destruct (eigval_data_fails b m d o s) as (s' & e & ->) end.
    eexists _, _. reflexivity.
  Qed.
  Lemma plugins_fail mo m t r ps (x : lx) : In PCorrectedEigval ps -> fails (seach (fun p => run_plugin p mo m t (Some r)) ps x).
  Proof.
    intros I. apply (seach_fails _ (fun _ => True)); [auto| |exact Logic.I]. exists PCorrectedEigval. split; [exact I|]. intros s _. apply plugin_eigval_fails.
  Qed.
  Lemma forward_eigval gm m n ins (x : lx) : In PCorrectedEigval (o_forward (x_opt x)) -> fails (forward_hook kind eigh gm m n ins x).
  Proof.
    intros I. unfold forward_hook. destruct ins as [|t [|]]; [eexists _, _; reflexivity| |eexists _, _; reflexivity].
    apply fails_bind_r. intros s1 a E. unfold lift in E. injection E as <- _. apply plugins_fail. exact I.
  Qed.
  Lemma backward_eigval m n gs (x : lx) : In PCorrectedEigval (o_backward (x_opt x)) -> fails (backward_hook kind eigh m n gs x).
  Proof.
    intros I. unfold backward_hook. destruct gs as [|t [|]]; [eexists _, _; reflexivity| |eexists _, _; reflexivity]. apply plugins_fail. exact I.
  Qed.
  Lemma forward_phase ids mask es c m ins out gm (x x1 x2 : lx) : reachable x -> begins ids mask x x1 -> run_evs es x1 = (x2, Ok tt) -> In m (x_mods x) ->
    In PCorrectedEigval (o_forward (x_opt x)) -> fails (run_ev (MCall c m ins out gm) x2).
  Proof.
    intros HR HB E HM I. destruct (batch_reg kind wsize eigh enc _ _ _ _ _ _ HR HB E) as [Er Eo].
    cbn [ModelLogger.run_ev]. erewrite sbind_run by reflexivity. rewrite (sbind_run sget _ _ _ _ eq_refl). cbn [x_reg with_calls].
    rewrite Er. unfold installed. rewrite pre_inst. pose proof (times_pos m _ HM). destruct (times m (x_mods x)); [congruence|].
    apply fails_bind_l. cbn [repeat seach]. apply fails_bind_l. apply forward_eigval. cbn [x_opt with_calls]. rewrite Eo. exact I.
  Qed.

  (** calls keep the backward hooks they were given *)
  Definition ck (c : nat) (x x' : lx) : Prop := dget c (x_calls x') = dget c (x_calls x).
  Lemma ck_refl c x : ck c x x. Proof. reflexivity. Qed.
  Lemma ck_trans c x y z : ck c x y -> ck c y z -> ck c x z.
  Proof. unfold ck. congruence. Qed.
  Lemma slh_ck c x y : slh x y -> ck c x y.
  Proof. intros (s & l & h & ->). reflexivity. Qed.
  Lemma grows_ck c x y : grows x y -> ck c x y.
  Proof. intros (s & l & h & hs & ->). reflexivity. Qed.
  Lemma post_ck c m ins out (x x' : lx) o : (match out with
        | OutRaise e => sfail e
        | OutOther => let! x := sget in seach (fun n => grad_hook m n ins out) (fwd_of m (x_reg x))
        | OutTensor t u =>
            (fun x => (with_heap x (dset t u (x_heap x)), Ok tt)) ;;
            let! x := sget in
            seach (fun n => grad_hook m n ins out) (fwd_of m (x_reg x))
        end) x = (x', o) -> ck c x x'.
  Proof.
    intros E. apply grows_ck. revert E. destruct out as [t u| |e].
    - apply (sbind_rel grows grows_trans).
      + intros v o3 [= <- _]. apply slh_grows, heap_slh.
      + intros [] v v' o3. apply (sbind_rel grows grows_trans).
        { intros v1 o4 [= <- _]. apply grows_refl. }
        { intros v0 v1 v2 o4. apply (seach_rel grows grows_refl grows_trans). intros n y1 y2 o5 _. apply grad_hook_grows. }
    - apply (sbind_rel grows grows_trans).
      { intros v1 o4 [= <- _]. apply grows_refl. }
      { intros v0 v1 v2 o4. apply (seach_rel grows grows_refl grows_trans). intros n y1 y2 o5 _. apply grad_hook_grows. }
    - intros [= <- _]. apply grows_refl.
  Qed.
  Lemma call_ck c k m ins out gm (x x' : lx) o : run_ev (MCall k m ins out gm) x = (x', o) ->
    dget c (x_calls x') = if Nat.eqb c k then Some (back_of m (x_reg x)) else dget c (x_calls x).
  Proof.
    cbn [ModelLogger.run_ev]. erewrite sbind_run by reflexivity. rewrite (sbind_run sget _ _ _ _ eq_refl). set (x0 := with_calls x _). intros E.
    assert (Q : ck c x0 x').
    { revert E. apply (sbind_rel (ck c) (ck_trans c)).
      - intros y o1 E1. apply slh_ck. revert E1. apply (seach_rel slh slh_refl slh_trans). intros n v v' o2 _. apply forward_hook_slh.
      - intros [] y y' o1. apply post_ck. }
    unfold ck in Q. rewrite Q. unfold x0. cbn [x_calls with_calls]. destruct (Nat.eqb_spec c k) as [->|N]; [apply dget_dset_eq|apply dget_dset_neq; exact N].
  Qed.
  Lemma evs_ck c es : (forall k m ins out gm, In (MCall k m ins out gm) es -> k <> c) -> forall (x x' : lx) o, run_evs es x = (x', o) -> ck c x x'.
  Proof.
    intros N x x' o. apply (seach_rel (ck c) (ck_refl c) (ck_trans c)). intros e y y' o' I.
    destruct e as [t u|k m ins out gm|t g|k gs|e].
    - intros [= <- _]. reflexivity.
    - intros E. unfold ck. rewrite (call_ck c _ _ _ _ _ _ _ _ E). specialize (N _ _ _ _ _ I). destruct (Nat.eqb_spec c k); [congruence|reflexivity].
    - cbn [ModelLogger.run_ev]. rewrite (sbind_run sget _ _ _ _ eq_refl). intros E. apply slh_ck. revert E. apply (seach_rel slh slh_refl slh_trans). intros h v v' o1 _.
      destruct h; try (intros [= <- _]; apply slh_refl); [apply grad_tensor_hook_slh|apply plugins_slh].
    - cbn [ModelLogger.run_ev]. rewrite (sbind_run sget _ _ _ _ eq_refl). intros E. apply slh_ck. revert E. apply (seach_rel slh slh_refl slh_trans). intros h v v' o1 _.
      destruct h; try (intros [= <- _]; apply slh_refl). apply backward_hook_slh.
    - intros [= <- _]. reflexivity.
  Qed.
  Lemma backward_phase ids mask es es' c m ins out gm gs (x x1 x2 : lx) : reachable x -> begins ids mask x x1 ->
    run_evs (es ++ MCall c m ins out gm :: es')%list x1 = (x2, Ok tt) -> (forall k m' ins' out' gm', In (MCall k m' ins' out' gm') es' -> k <> c) -> In m (x_mods x) ->
    In PCorrectedEigval (o_backward (x_opt x)) -> fails (run_ev (MBack c gs) x2).
  Proof.
    intros HR HB E N HM I. destruct (batch_reg kind wsize eigh enc _ _ _ _ _ _ HR HB E) as [_ Eo].
    unfold ModelLogger.run_evs in E. rewrite seach_app in E. apply sbind_ok in E as (y & [] & E1 & E).
    change (run_evs es x1 = (y, Ok tt)) in E1. destruct (batch_reg kind wsize eigh enc _ _ _ _ _ _ HR HB E1) as [Er _].
    cbn [seach] in E. apply sbind_ok in E as (z & [] & E2 & E3). pose proof (evs_ck c es' N _ _ _ E3) as Q. unfold ck in Q.
    rewrite (call_ck c _ _ _ _ _ _ _ _ E2), Nat.eqb_refl, Er in Q. unfold installed in Q. rewrite back_inst in Q.
    cbn [ModelLogger.run_ev]. rewrite (sbind_run sget _ _ _ _ eq_refl). rewrite Q. pose proof (times_pos m _ HM). destruct (times m (x_mods x)); [congruence|].
    cbn [repeat seach]. apply fails_bind_l. apply backward_eigval. rewrite Eo. exact I.
  Qed.
End P.
