(** One log as source and target. *)
From Verif Require Import Py PyStr Field Tensor ModelGrad Monad ModelState ModelInfluence ModelReads SpecInfluence SpecReads.
From Verif Require Import StateProofs1 InfProofs1 InfProofs2 InfProofs16 ReadProofs1 ReadProofs2 ReadProofs3 ReadProofs4 ReadProofs6.
Local Open Scope string_scope.
Local Open Scope list_scope.
Local Open Scope nat_scope.

Section ReadProofs9.
  Context {F : Type} `{OField F}.
  Notation tensor := (tensor F).
  Notation sval := (@sval F).
  Notation lstate := (@lstate F).
  Notation dten := (@dten F).
  Notation world := (@world F).
  Notation logs := (list (bool * nd sval)).
  Notation tlog := (@tlog F).
  Variable eigh : tensor -> res (tensor * tensor).
  Variable inverse : tensor -> res tensor.
  Variable fsqrt : F -> F.

  Lemma nd_keys_log (L : tlog) : nd_keys (log_nd L) = Ok (dkeys L).
  Proof. unfold log_nd, nd_keys, dkeys. rewrite map_map. reflexivity. Qed.
  Lemma covered_not (C A : tlog) s : dget "covariance_state" (attrs s) = Some (log_nd C) -> covered C A -> ~ uncovered s (log_nd A).
  Proof.
    intros E CV (cs & ms & cms & E' & K1 & K2 & N). rewrite E in E'. injection E' as <-. rewrite nd_keys_log in K1, K2. injection K1 as <-. injection K2 as <-.
    enough (forallb (fun m => mem m (dkeys C)) (dkeys A) = true) by congruence. apply forallb_forall. intros m Im. apply mem_In. apply CV. exact Im.
  Qed.
  (** preconditioned: the source is a new dictionary *)
  Theorem same_preconditioned (w : world) sids tids a b (A C : tlog) mode h groups d : stands w a b A -> dget "covariance_state" (attrs (w_st w)) = Some (log_nd C) -> covered C A ->
    match compute_influence eigh inverse fsqrt (sids, Nest (log_nd A)) (tids, Nest (log_nd A)) mode true h groups d (w_st w) with
    | (s', Ok v) => exists w' dv, compute_influence_r eigh inverse fsqrt (sids, At a) (tids, At a) mode true h groups d w = (w', Ok v) /\ w_st w' = s' /\
        stands w' a b (placed dv A) /\ others_kept w w' [a]
    | (_, Err e) => exists w' e', compute_influence_r eigh inverse fsqrt (sids, At a) (tids, At a) mode true h groups d w = (w', Err e') /\
        (e' = e \/ (b = false /\ e' = KeyError))
    end.
  Proof.
    destruct w as [s L]. intros SA CS CV. unfold stands in *. cbn [w_logs w_st] in *.
    pose proof (tr_influence eigh inverse fsqrt (b = false) L sids tids a b A a b A mode true h groups d s SA (fun x => x) SA (fun x => x) (or_intror (conj eq_refl (covered_not C A s CS CV)))) as T. unfold tracks in T.
    destruct (compute_influence eigh inverse fsqrt (sids, Nest (log_nd A)) (tids, Nest (log_nd A)) mode true h groups d s) as [s' [v|e]]; [|exact T].
    destruct T as (w' & v' & E & -> & L' & dv & -> & Dv & T' & O). exists (World s' L'), dv. split; [exact E|]. split; [reflexivity|]. split; [exact T'|].
    intros r x Nr. apply O. intros ->. apply Nr. left. reflexivity.
  Qed.

  Lemma moved_keys dv (A : tlog) : log_keys (moved dv A) = log_keys A.
  Proof. unfold log_keys, moved. rewrite map_map. f_equal. apply map_ext. intros [m e]. cbn [fst snd]. unfold dkeys. rewrite !map_map. reflexivity. Qed.
  Lemma moved_dkeys dv (A : tlog) : dkeys (moved dv A) = dkeys A.
  Proof. unfold dkeys, moved. rewrite map_map. reflexivity. Qed.
  Lemma moved_moved dv (A : tlog) : moved dv (moved dv A) = moved dv A.
  Proof. unfold moved. rewrite map_map. apply map_ext. intros [m e]. cbn [fst snd]. rewrite map_map. reflexivity. Qed.
  Lemma moved_look dv (A : tlog) m k : look (moved dv A) m k = option_map (fun d => (dv, snd d)) (look A m k).
  Proof.
    unfold look, moved. rewrite (dget_map (fun e : dict string dten => map (fun q => (fst q, (dv, snd (snd q)))) e)). destruct (dget m A) as [e|]; cbn [option_map]; [|reflexivity].
    apply (dget_map (fun d : dten => (dv, snd d))).
  Qed.

  Lemma not_covered_b (C A : tlog) : ~ covered C A -> forallb (fun m => mem m (dkeys C)) (dkeys A) = false.
  Proof.
    intros N. destruct (forallb _ _) eqn:E; [|reflexivity]. exfalso. apply N. intros m Im. rewrite forallb_forall in E. apply mem_In. apply E. exact Im.
  Qed.
  Lemma skip_pure prec h ids (A P : tlog) d s : skips prec h s A -> dkeys P = dkeys A ->
    (if prec then precondition eigh inverse (ids, Nest (log_nd P)) d h else sret (ids, Nest (log_nd P))) s = (s, Ok (ids, Nest (log_nd P))).
  Proof.
    intros [->|(Hh & C & E & N)] K; [reflexivity|]. destruct prec; [|reflexivity]. unfold precondition. replace (mem h _) with true by (symmetry; apply mem_In; exact Hh). cbn [fst snd].
    unfold sbind, attr. rewrite E. unfold lift. rewrite !nd_keys_log, K. rewrite (not_covered_b C A N). reflexivity.
  Qed.
  Lemma skip_r prec h ids r b (A : tlog) d (w : world) : skips prec h (w_st w) A -> stands w r b A ->
    (if prec then precondition_r eigh inverse (ids, At r) d h else sret (ids, At r)) w = (w, Ok (ids, At r)).
  Proof.
    intros [->|(Hh & C & E & N)] SA; [reflexivity|]. destruct prec; [|reflexivity]. unfold precondition_r. replace (mem h _) with true by (symmetry; apply mem_In; exact Hh). cbn [fst snd].
    destruct w as [s L]. cbn [w_st] in *. unfold sbind, on_st, attr. cbn [w_st w_logs]. rewrite E. unfold logs_at. unfold stands in SA. rewrite SA. cbn [snd]. unfold lift. rewrite !nd_keys_log. rewrite (not_covered_b C A N). reflexivity.
  Qed.

  (** not preconditioned: the log is first moved to one device as a whole, and then is its own source *)
  Theorem same_plain (w : world) sids tids a b (A : tlog) mode prec h groups d m k l dv x : stands w a b A -> skips prec h (w_st w) A -> log_keys A = (m, k) :: l -> look A m k = Some (dv, x) ->
    match compute_influence eigh inverse fsqrt (sids, Nest (log_nd (placed dv A))) (tids, Nest (log_nd (placed dv A))) mode prec h groups d (w_st w) with
    | (s', Ok v) => exists w', compute_influence_r eigh inverse fsqrt (sids, At a) (tids, At a) mode prec h groups d w = (w', Ok v) /\ w_st w' = s' /\
        stands w' a b (placed dv A) /\ others_kept w w' [a]
    | (_, Err e) => exists w' e', compute_influence_r eigh inverse fsqrt (sids, At a) (tids, At a) mode prec h groups d w = (w', Err e') /\
        (e' = e \/ (b = false /\ e' = KeyError))
    end.
  Proof.
    destruct w as [s L]. intros SA SK KA LA. change (placed dv A) with (moved dv A). set (P := moved dv A).
    set (L2 := upd L a (b, log_nd P)). cbn [w_st]. unfold stands in SA. cbn [w_logs] in SA. assert (T2 : nth_error L2 a = Some (b, log_nd P)) by exact (nth_error_upd_same _ _ _ _ SA).
    assert (Q : tracks (b = false) (more L2) (compute_influence eigh inverse fsqrt (sids, Nest (log_nd P)) (tids, Nest (log_nd P)) mode prec h groups d s)
                  (compute_influence_r eigh inverse fsqrt (sids, At a) (tids, At a) mode prec h groups d (World s L))).
    { unfold compute_influence, compute_influence_r. destruct (mem mode _); [|apply tr_fail].
      rewrite (sbind_run _ _ _ _ _ (skip_pure prec h sids A P d s SK (moved_dkeys dv A))). rewrite (sbind_run _ _ _ _ _ (skip_r prec h sids a b A d (World s L) SK SA)). cbn [fst snd].
      eapply (tr_bind (b = false) (fun s' (p : @scores F * @glog F) w (tot : @scores F) => s' = s /\ w = World s L2 /\ tot = fst p /\ snd p = (tids, Nest (log_nd P)))).
      { unfold lift at 1. unfold sbind at 1. rewrite (sbind_run _ _ _ _ _ (logs_run a (World s L) _ SA)). cbn [snd]. rewrite sbind_lift.
        assert (SY : synchronize_device (log_nd P) (log_nd P) = Ok (log_nd P)).
        { unfold synchronize_device. rewrite first_item_keys. unfold P at 1. rewrite moved_keys, KA. cbn [hd_error]. rewrite log_item_look. unfold P at 1. rewrite moved_look, LA. cbn [option_map bind fst]. rewrite move_to_moved. unfold P. rewrite moved_moved. reflexivity. }
        rewrite SY. unfold lift at 1. unfold sbind at 1.
        assert (SR : synchronize_device_r a a (World s L) = (World s L2, Ok tt)).
        { pose proof (tr_sync (b = false) L a b b A A a s SA (fun x => x) SA) as T. unfold tracks in T.
          assert (SA' : synchronize_device (log_nd A) (log_nd A) = Ok (log_nd P)). { unfold synchronize_device. rewrite first_item_keys, KA. cbn [hd_error]. rewrite log_item_look, LA. cbn [bind fst]. apply move_to_moved. }
          rewrite SA' in T. cbn [lift] in T. destruct T as (w' & u & E & dv' & _ & Z & ->). rewrite E. destruct u. unfold L2. rewrite <- Z. reflexivity. }
        rewrite (sbind_run _ _ _ _ _ SR). rewrite (sbind_run _ _ _ _ _ (logs_run a (World s L2) _ T2)). cbn [snd].
        eapply tr_bind; [apply tr_lift|]. intros s3 ms w ? Y [-> ->]. apply lift_ok in Y. destruct Y as [-> _].
        pose proof (tr_dot_loop (b = false) L2 groups a b P a b P T2 (fun x => x) T2 (fun x => x) ms (init_scores groups) s) as Q.
        match type of Q with tracks _ _ (lift ?f _) _ => destruct f as [tot|e] end.
        - destruct Q as (w & ? & Q & -> & ->). rewrite Q. eexists _, _. split; [reflexivity|]. auto.
        - destruct Q as (w & e' & Q & He). rewrite Q. exists w, e'. auto. }
      intros s2 pr w tot _ (-> & -> & -> & Dp).
      eapply (tr_bind (b = false) (more L2)).
      { destruct pr as [t0 g0]. cbn [fst snd] in *. subst g0. destruct (String.eqb mode "cosine"); [|destruct (String.eqb mode "l2")].
        - eapply tr_bind; [apply (tr_self eigh inverse (b = false) L2 tids a b P true h groups d s T2 (fun x => x))|]. intros s3 nv w ? _ (L3 & -> & -> & G3).
          eapply tr_mono; [apply tr_lift|]. intros. eapply more_weak; eassumption.
        - eapply tr_bind; [apply (tr_self eigh inverse (b = false) L2 tids a b P true h groups d s T2 (fun x => x))|]. intros s3 nv w ? _ (L3 & -> & -> & G3).
          eapply tr_mono; [apply tr_lift|]. intros. eapply more_weak; eassumption.
        - eapply tr_mono; [apply tr_ret|]. intros. eapply more_weak; [apply grows_refl|eassumption]. }
      intros s3 tot w ? _ (L3 & -> & -> & G3). eapply tr_bind; [apply tr_lift|]. intros s4 vals w ? Z [-> ->]. apply lift_ok in Z. destruct Z as [-> _].
      eapply tr_bind; [apply tr_lift|]. intros s4 v w ? Z [-> ->]. apply lift_ok in Z. destruct Z as [-> _].
      eapply tr_mono; [apply tr_ret|]. intros s4 v4 w v5 [-> ->]. exists L3. auto. }
    unfold tracks in Q. destruct (compute_influence eigh inverse fsqrt _ _ mode prec h groups d s) as [s' [v|e]]; [|exact Q].
    destruct Q as (w' & v' & E & L' & -> & -> & G). exists (World s' L'). split; [exact E|]. split; [reflexivity|]. split; [exact (G _ _ T2)|].
    intros r y Nr Er. apply G. unfold L2. cbn [w_logs] in Er. rewrite (nth_error_upd_other _ _ _ _ _ SA); [exact Er|]. intros ->. apply Nr. left. reflexivity.
  Qed.
End ReadProofs9.
