(** Reads of missing entries: corrected eigenvalues. *)
From Verif Require Import Py PyStr Field Tensor ModelGrad Monad ModelState ModelInfluence ModelReads SpecInfluence SpecFault SpecReads.
From Verif Require Import StateProofs1 StateProofs3 StateProofs7 InfProofs1 InfProofs2 InfProofs3 InfProofs4 InfProofs5 InfProofs7 FaultProofs1 ReadProofs1 ReadProofs2 ReadProofs3 ReadProofs6.
Local Open Scope string_scope.
Local Open Scope list_scope.
Local Open Scope nat_scope.

Section ReadProofs7.
  Context {F : Type} `{OField F}.
  Notation tensor := (tensor F).
  Notation sval := (@sval F).
  Notation lstate := (@lstate F).
  Notation dten := (@dten F).
  Notation world := (@world F).
  Notation tlog := (@tlog F).
  Variable eigh : tensor -> res (tensor * tensor).
  Variable inverse : tensor -> res tensor.

  Lemma kfac_module_damp evn r m d (w w' : world) pl : kfac_module_r evn r m (Some d) w = (w', Ok pl) -> snd pl = d.
  Proof.
    intros E. unfold kfac_module_r in E. repeat (apply sbind_ok in E; destruct E as (? & ? & ?E & E)). unfold on_st in E.
    match type of E with (let (_, _) := ?x in _) = _ => destruct x as [s1 o] eqn:Z end. injection E as _ ->. unfold kfac_rest in Z.
    repeat (apply sbind_ok in Z; destruct Z as (? & ? & ?E & Z)). injection Z as _ <-. reflexivity.
  Qed.
  Lemma kfac_app evn r l2 : forall l1 d out (w : world), kfac_loop_r evn r (l1 ++ l2) (Some d) out w = (let! o := kfac_loop_r evn r l1 (Some d) out in kfac_loop_r evn r l2 (Some d) o) w.
  Proof.
    induction l1 as [|m l1 IH]; intros d out w; [reflexivity|]. cbn [app kfac_loop_r]. unfold sbind in *. destruct (kfac_module_r evn r m (Some d) w) as [w1 [pl|e]] eqn:E; [|reflexivity]. rewrite (kfac_module_damp _ _ _ _ _ _ _ E).
    unfold lift. destruct (nd_set2 out m "grad" (VT (fst pl))) as [o|e]; [|reflexivity]. apply IH.
  Qed.
  Lemma leafs_set m (E : dict string dten) : dget m E = None -> dset m (@Node sval []) (map (fun q => (fst q, Leaf (VT (snd q)))) E) = map (fun q => (fst q, Leaf (VT (snd q)))) E ++ [(m, Node [])].
  Proof. intros De. apply dset_new. rewrite (dget_map (fun d : dten => @Leaf sval (VT d))), De. reflexivity. Qed.
  Lemma item2_run (L : list (bool * nd sval)) a m t (EC : tlog) v s : dget a (attrs s) = Some (log_nd EC) -> look EC m t = Some v -> on_st (item2_t a m t) (World s L) = (World s L, Ok v).
  Proof.
    intros D Lk. pose proof (tr_item2_t False L a (log_nd EC) m t s D) as T. unfold tracks in T. rewrite log_item_look, Lk in T. cbn [lift] in T. destruct T as (w' & v' & E & -> & ->). exact E.
  Qed.
  (** which preconditioner, for failing runs *)
  Lemma prec_kfac_r ids (s : lstate) LS r live C L d h w' e : dget "covariance_state" (attrs s) = Some (log_nd C) -> nth_error LS r = Some (live, log_nd L) -> covered C L -> picks_kfac h C L ->
    precondition_kfac_r eigh r d (World s LS) = (w', Err e) -> precondition_r eigh inverse (ids, At r) d h (World s LS) = (w', Err e).
  Proof.
    intros HC SR CV PK PK2.
    unfold precondition_r. cbn [snd fst]. assert (HC' : on_st (attr "covariance_state") (World s LS) = (World s LS, Ok (log_nd C))) by (unfold on_st; cbn [w_st w_logs]; rewrite (attr_run _ s _ HC); reflexivity).
      destruct PK as [->|(-> & NL & A)].
      + change (mem "kfac" ["auto"; "kfac"; "raw"]) with true. cbv iota. rewrite (sbind_run _ _ _ _ _ HC'), (sbind_run _ _ _ _ _ (logs_run r (World s LS) _ SR)). cbn [snd]. rewrite !log_nd_keys, !sbind_lift, (covered_forallb C L CV).
        change (String.eqb "kfac" "raw") with false. change (String.eqb "kfac" "auto") with false. cbv iota. rewrite sbind_sret. exact (sbind_err _ _ _ _ _ PK2).
      + change (mem "auto" ["auto"; "kfac"; "raw"]) with true. cbv iota. rewrite (sbind_run _ _ _ _ _ HC'), (sbind_run _ _ _ _ _ (logs_run r (World s LS) _ SR)). cbn [snd]. rewrite !log_nd_keys, !sbind_lift, (covered_forallb C L CV).
        change (String.eqb "auto" "raw") with false. change (String.eqb "auto" "auto") with true. cbv iota. unfold auto_raw in A. destruct (dkeys L) as [|m0 ms] eqn:KL; [destruct L; [congruence|discriminate]|].
        assert (IC : In m0 (dkeys C)) by (apply CV; rewrite KL; left; reflexivity). apply dget_In_keys in IC. destruct IC as (y & IC).
        assert (YI : dget m0 (map (fun p => (fst p, @Node sval (map (fun q => (fst q, Leaf (VT (snd q)))) (snd p)))) C) = Some (Node (map (fun q => (fst q, Leaf (VT (snd q)))) y))) by (rewrite (dget_map (fun e : dict string dten => @Node sval (map (fun q => (fst q, Leaf (VT (snd q)))) e))), IC; reflexivity).
        erewrite sbind_run with (a := false) (s1 := World s LS); [exact (sbind_err _ _ _ _ _ PK2)|]. rewrite (sbind_run _ _ _ _ _ (item_present LS _ m0 _ _ s HC YI)).
        pose proof (nd_has_log C m0 "grad") as Q. unfold log_nd in Q. cbn [nd_item bind] in Q. rewrite YI in Q. cbn [bind] in Q. injection Q as Q. unfold sret. cbn [nd_has]. rewrite A in Q. do 2 f_equal. exact Q.
  Qed.
  Lemma prec_raw_r ids (s : lstate) LS r live C L d h w' e : dget "covariance_state" (attrs s) = Some (log_nd C) -> nth_error LS r = Some (live, log_nd L) -> covered C L -> picks_raw h C L ->
    precondition_raw_r inverse r d (World s LS) = (w', Err e) -> precondition_r eigh inverse (ids, At r) d h (World s LS) = (w', Err e).
  Proof.
    intros HC SR CV PK PK2.
    unfold precondition_r. cbn [snd fst]. assert (HC' : on_st (attr "covariance_state") (World s LS) = (World s LS, Ok (log_nd C))) by (unfold on_st; cbn [w_st w_logs]; rewrite (attr_run _ s _ HC); reflexivity).
      destruct PK as [->|(-> & NL & A)].
      + change (mem "raw" ["auto"; "kfac"; "raw"]) with true. cbv iota. rewrite (sbind_run _ _ _ _ _ HC'), (sbind_run _ _ _ _ _ (logs_run r (World s LS) _ SR)). cbn [snd]. rewrite !log_nd_keys, !sbind_lift, (covered_forallb C L CV).
        change (String.eqb "raw" "raw") with true. cbv iota. rewrite sbind_sret. exact (sbind_err _ _ _ _ _ PK2).
      + change (mem "auto" ["auto"; "kfac"; "raw"]) with true. cbv iota. rewrite (sbind_run _ _ _ _ _ HC'), (sbind_run _ _ _ _ _ (logs_run r (World s LS) _ SR)). cbn [snd]. rewrite !log_nd_keys, !sbind_lift, (covered_forallb C L CV).
        change (String.eqb "auto" "raw") with false. change (String.eqb "auto" "auto") with true. cbv iota. unfold auto_raw in A. destruct (dkeys L) as [|m0 ms] eqn:KL; [destruct L; [congruence|discriminate]|].
        assert (IC : In m0 (dkeys C)) by (apply CV; rewrite KL; left; reflexivity). apply dget_In_keys in IC. destruct IC as (y & IC).
        assert (YI : dget m0 (map (fun p => (fst p, @Node sval (map (fun q => (fst q, Leaf (VT (snd q)))) (snd p)))) C) = Some (Node (map (fun q => (fst q, Leaf (VT (snd q)))) y))) by (rewrite (dget_map (fun e : dict string dten => @Node sval (map (fun q => (fst q, Leaf (VT (snd q)))) e))), IC; reflexivity).
        erewrite sbind_run with (a := true) (s1 := World s LS); [exact (sbind_err _ _ _ _ _ PK2)|]. rewrite (sbind_run _ _ _ _ _ (item_present LS _ m0 _ _ s HC YI)).
        pose proof (nd_has_log C m0 "grad") as Q. unfold log_nd in Q. cbn [nd_item bind] in Q. rewrite YI in Q. cbn [bind] in Q. injection Q as Q. unfold sret. cbn [nd_has]. rewrite A in Q. do 2 f_equal. exact Q.
  Qed.
  (** a module of the log that has no corrected eigenvalues *)
  Theorem ekfac_hole ids (w : world) r live dv C EC E L d h l1 m l2 g vf vb : stands w r live L -> ekfac_state (w_st w) C EC E -> covered C L -> NoDup (dkeys L) -> picks_kfac h C L ->
    dkeys L = l1 ++ m :: l2 -> (forall x, In x l1 -> ekfac_data dv EC E L x) -> grad_of L m = Some g -> look EC m "forward" = Some vf -> look EC m "backward" = Some vb -> dget m E = None ->
    exists w', precondition_r eigh inverse (ids, At r) (Some d) h w = (w', Err AssertionError) /\ w_logs w' = w_logs w /\
      dget "ekfac_eigval_state" (attrs (w_st w')) = Some (Node (map (fun q => (fst q, Leaf (VT (snd q)))) (increased d dv (only l1 L) E) ++ [(m, Node [])])) /\
      (forall n, n <> "ekfac_eigval_state" -> dget n (attrs (w_st w')) = dget n (attrs (w_st w))).
  Proof.
    destruct w as [s LS]. unfold stands. cbn [w_st w_logs]. intros SR R CV N PK DL K Gm Lf Lb De.
    pose proof R as (HC & (HV & _) & NV & HE & NE). change (dget "ekfac_eigval_state" (attrs s) = Some (leafs E)) in HE.
    assert (N' := N). rewrite DL in N'. assert (KK : forall x, In x l1 -> efits dv EC E L x (efit_c EC E L x)) by (intros x I; apply efit_ok; auto).
    assert (FE : fold_left (fun E0 x => estep dv d E0 x (efit_c EC E L x)) l1 E = increased d dv (only l1 L) E).
    { etransitivity; [exact (esteps_map dv d (efit_c EC E L) l1 E NE (NoDup_left _ _ N') (fun x I => proj1 (proj2 (proj2 (proj2 (proj2 (proj2 (proj2 (KK x I)))))))))|]. unfold increased. apply map_ext. intros [x [xd xe]]. cbn [fst snd]. rewrite only_keys.
      destruct (mem x l1) eqn:Ex; [|reflexivity]. replace (mem x (dkeys L)) with true; [reflexivity|]. symmetry. apply mem_In. rewrite DL. apply in_or_app. left. apply mem_In. exact Ex. }
    set (E1 := increased d dv (only l1 L) E) in *. set (s1 := with_ev s E1).
    assert (De1 : dget m E1 = None) by (unfold E1; rewrite increased_get, De; reflexivity).
    set (E2 := @Node sval (map (fun q => (fst q, Leaf (VT (snd q)))) E1 ++ [(m, Node [])])).
    set (s2 := with_attrs s1 (dset "ekfac_eigval_state" E2 (attrs s1))).
    assert (LOOP : kfac_loop_r "ekfac_eigval_state" r (l1 ++ m :: l2) (Some d) (Node []) (World s LS) = (World s2 LS, Err AssertionError)).
    { rewrite kfac_app. destruct (kfac_loop_ek_prefix dv EC L (efit_c EC E L) d [] l1 [] s E HE KK) as (dn' & Q); [cbn [map app]; exact (NoDup_left _ _ N')|].
      change (log_nd (plog [])) with (@Node sval []) in Q. rewrite app_nil_r, FE in Q. cbn [kfac_loop] in Q. change (with_ev s E1) with s1 in Q.
      pose proof (tr_kfac_loop True LS "ekfac_eigval_state" (log_nd EC) r live (log_nd L) SR (fun _ => Logic.I) ltac:(discriminate) l1 (Some d) (Node []) s ltac:(exists []; reflexivity) HV) as T. rewrite Q in T.
      destruct T as (w' & o & T & [-> ->] & _). rewrite (sbind_run _ _ _ _ _ T). cbn [kfac_loop_r].
      assert (HV1 : dget "covariance_eigvec_state" (attrs s1) = Some (log_nd EC)) by (unfold s1, with_ev; cbn [with_attrs attrs]; rewrite dget_dset_neq by discriminate; exact HV).
      assert (HE1 : dget "ekfac_eigval_state" (attrs s1) = Some (leafs E1)) by apply with_ev_get.
      assert (MOD : kfac_module_r "ekfac_eigval_state" r m (Some d) (World s1 LS) = (World s2 LS, Err AssertionError)).
      { unfold kfac_module_r. assert (RG : read_t r m "grad" (World s1 LS) = (World s1 LS, Ok g)).
        { unfold read_t. erewrite sbind_run; [|apply (read_hit r m "grad" (World s1 LS) live (log_nd L)); [exact SR|]; rewrite item_of_look; unfold grad_of in Gm; rewrite Gm; reflexivity]. reflexivity. }
        rewrite (sbind_run _ _ _ _ _ RG). rewrite (sbind_run _ _ _ _ _ (item2_run LS _ m "forward" EC vf s1 HV1 Lf)). rewrite (sbind_run _ _ _ _ _ (item2_run LS _ m "backward" EC vb s1 HV1 Lb)).
        assert (RI : on_st (item "ekfac_eigval_state" m) (World s1 LS) = (World s2 LS, Ok (Node []))).
        { unfold on_st, item, sbind. cbn [w_st w_logs]. rewrite (attr_run _ s1 _ HE1). unfold leafs. cbn [getitem]. rewrite (dget_map (fun d : dten => @Leaf sval (VT d))), De1. cbn [option_map]. rewrite leafs_set by exact De1. reflexivity. }
        rewrite (sbind_run _ _ _ _ _ RI). unfold on_st. cbn [w_st w_logs]. unfold kfac_rest. rewrite (sbind_run _ _ _ _ _ (attr_run _ s2 E2 (dget_dset_eq _ _ _))). reflexivity. }
      exact (sbind_err _ _ _ _ _ MOD). }
    assert (PK2 : precondition_kfac_r eigh r (Some d) (World s LS) = (World s2 LS, Err AssertionError)).
    { unfold precondition_kfac_r. assert (SV : on_st (get_covariance_svd_state eigh) (World s LS) = (World s LS, Ok (leafs E, log_nd EC))) by (unfold on_st; cbn [w_st w_logs]; rewrite (ek_svd eigh s C EC E R); reflexivity).
      rewrite (sbind_run _ _ _ _ _ SV). assert (SG : on_st sget (World s LS) = (World s LS, Ok s)) by reflexivity. rewrite (sbind_run _ _ _ _ _ SG). rewrite (hasattr_some s _ _ HE).
      rewrite (sbind_run _ _ _ _ _ (logs_run r (World s LS) _ SR)). cbn [snd]. rewrite log_nd_keys, sbind_lift, DL. exact LOOP. }
    exists (World s2 LS). split; [|split; [reflexivity|split]].
    - exact (prec_kfac_r ids s LS r live C L (Some d) h _ _ (proj1 HC) SR CV PK PK2).
    - cbn [w_st]. apply dget_dset_eq.
    - intros n Nn. cbn [w_st]. unfold s2, s1, with_ev. cbn [with_attrs attrs]. rewrite !dget_dset_neq by (intros ->; apply Nn; reflexivity). reflexivity.
  Qed.
  (** corrected eigenvalues cannot be collected for the module any more *)
  Theorem ekfac_stuck b m g off (s : lstate) EC vf vb d x ev c : dget "covariance_eigvec_state" (attrs s) = Some (log_nd EC) -> look EC m "forward" = Some vf -> look EC m "backward" = Some vb ->
    dget "covariance_eigval_state" (attrs s) = Some ev -> dget "ekfac_counter" (attrs s) = Some c -> dget "ekfac_eigval_state" (attrs s) = Some (Node d) -> dget m d = Some (Node x) -> get_data b m "grad" None = Ok g ->
    corrected_eigval_update eigh b m None off s = (s, Err AttributeError).
  Proof.
    intros HV Lf Lb HL HC HE D G. unfold corrected_eigval_update. assert (SG : sget s = (s, Ok s)) by reflexivity. rewrite (sbind_run _ _ _ _ _ SG), (hasattr_some s _ _ HV), sbind_sret.
    rewrite (sbind_run _ _ _ _ _ (attr_run _ s _ HV)), (sbind_run _ _ _ _ _ (attr_run _ s _ HL)), (sbind_run _ _ _ _ _ (attr_run _ s _ HE)), (sbind_run _ _ _ _ _ (attr_run _ s _ HC)), sbind_sret, G, sbind_lift.
    assert (HH : nd_has (Node d) m = true) by (cbn [nd_has]; unfold dmem; rewrite D; reflexivity). rewrite HH, sbind_sret.
    assert (EO : forall t v e, look EC m t = Some v -> eig_operand (log_nd EC) m t e = Ok v).
    { intros t v e Lk. pose proof (log_item_look EC m t) as Q. rewrite Lk in Q. unfold log_item in Q. unfold eig_operand. destruct (nd_item (log_nd EC) m) as [y|]; [|discriminate Q]. cbn [bind] in *. destruct (nd_item y t) as [z|]; [|discriminate Q]. cbn [bind] in *. destruct z as [[q| | |]|]; try discriminate Q. exact Q. }
    rewrite (EO _ _ _ Lf), sbind_lift, (EO _ _ _ Lb), sbind_lift, (sbind_run _ _ _ _ _ (attr_run _ s _ HE)). cbn [nd_item]. rewrite D. reflexivity.
  Qed.
End ReadProofs7.
