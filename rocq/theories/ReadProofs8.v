(** Reads of missing entries: the cached decompositions and inverses. *)
From Verif Require Import Py PyStr Field Tensor ModelGrad Monad ModelState ModelInfluence ModelReads SpecInfluence SpecFault SpecReads.
From Verif Require Import StateProofs1 StateProofs3 StateProofs7 InfProofs1 InfProofs2 InfProofs3 InfProofs4 InfProofs5 InfProofs7 FaultProofs1 ReadProofs1 ReadProofs2 ReadProofs3 ReadProofs6 ReadProofs7 InfProofs16.
Local Open Scope string_scope.
Local Open Scope list_scope.
Local Open Scope nat_scope.

Section ReadProofs8.
  Context {F : Type} `{OField F}.
  Notation tensor := (tensor F).
  Notation sval := (@sval F).
  Notation lstate := (@lstate F).
  Notation dten := (@dten F).
  Notation world := (@world F).
  Notation tlog := (@tlog F).
  Variable eigh : tensor -> res (tensor * tensor).
  Variable inverse : tensor -> res tensor.

  Lemma hole2 (L : tlog) m t : look L m t = None -> getitem2 true (log_nd L) m t = (with_hole L m t, Ok (Node [])).
  Proof.
    intros Q. unfold getitem2, getitem, log_nd, with_hole. rewrite (dget_map (fun e : dict string dten => Node (map (fun q => (fst q, Leaf (VT (snd q)))) e))). unfold look in Q.
    destruct (dget m L) as [e|] eqn:G; cbn [option_map].
    - rewrite (dget_map (fun d : dten => Leaf (VT d))), Q. cbn [option_map]. rewrite (dset_new t) by (rewrite (dget_map (fun d : dten => Leaf (VT d))), Q; reflexivity). reflexivity.
    - cbn [dget fst snd map app]. rewrite dset_dset. reflexivity.
  Qed.
  Lemma item2_miss (LS : list (bool * nd sval)) a m t (EC : tlog) s : dget a (attrs s) = Some (log_nd EC) -> look EC m t = None ->
    on_st (item2_t a m t) (World s LS) = (World (with_attrs s (dset a (with_hole EC m t) (attrs s))) LS, Err AttributeError).
  Proof. intros D Q. unfold on_st, item2_t, item2, sbind. cbn [w_st w_logs]. rewrite (attr_run a s _ D), hole2 by exact Q. reflexivity. Qed.
  Lemma grad_read r live (L : tlog) m g s LS : nth_error LS r = Some (live, log_nd L) -> grad_of L m = Some g -> read_t r m "grad" (World s LS) = (World s LS, Ok g).
  Proof.
    intros SR Gm. unfold read_t. erewrite sbind_run; [|apply (read_hit r m "grad" (World s LS) live (log_nd L)); [exact SR|]; rewrite item_of_look; unfold grad_of in Gm; rewrite Gm; reflexivity]. reflexivity.
  Qed.
  Lemma kfac_prefix_r (s : lstate) LS r live evn EV EC L (kf : string -> kfit) rest : holds s evn EV -> dget "covariance_eigvec_state" (attrs s) = Some (log_nd EC) -> nth_error LS r = Some (live, log_nd L) ->
    forall ms dn d, (forall m, In m ms -> kfits EV EC L m (kf m)) -> NoDup (map fst dn ++ ms) ->
    exists d' dn', kfac_loop_r evn r (ms ++ rest) d (log_nd (plog dn)) (World s LS) = kfac_loop_r evn r rest d' (log_nd (plog dn')) (World s LS).
  Proof.
    intros HE HV SR. induction ms as [|m ms IH]; intros dn d K N; [exists d, dn; reflexivity|]. cbn [kfac_loop_r app].
    pose proof (tr_kfac_module True LS evn (log_nd EC) r live (log_nd L) m d s SR (fun _ => Logic.I) HV) as T. rewrite (kfac_module_plain s evn EV EC L m (kf m) d HE (K m (or_introl eq_refl))) in T. destruct T as (w' & pl & T & -> & ->).
    rewrite (sbind_run _ _ _ _ _ T). cbn [fst snd]. rewrite plog_set.
    - rewrite sbind_lift. apply IH; [intros m' I; apply K; right; exact I|]. rewrite map_app, <- app_assoc. exact N.
    - intros I. apply NoDup_remove_2 in N. apply N. apply in_or_app. left. exact I.
  Qed.
  (** the module of a type without covariance that KFAC reads first *)
  Theorem kfac_hole ids (w : world) r live C L d h l1 m l2 g t : eigh_contract eigh -> stands w r live L -> kfac_ready eigh (w_st w) C -> solvable eigh C -> covered C L -> NoDup (dkeys L) -> picks_kfac h C L ->
    dkeys L = l1 ++ m :: l2 -> (forall x, In x l1 -> kfac_data C L x) -> grad_of L m = Some g -> look C m t = None -> t = "forward" \/ (t = "backward" /\ exists c, look C m "forward" = Some c) ->
    exists w' EV EC, precondition_r eigh inverse (ids, At r) d h w = (w', Err AttributeError) /\ w_logs w' = w_logs w /\ decomposed eigh C EV EC /\
      dget "covariance_eigvec_state" (attrs (w_st w')) = Some (with_hole EC m t) /\ dget "covariance_eigval_state" (attrs (w_st w')) = Some (log_nd EV) /\
      (forall n, n <> "covariance_eigval_state" -> n <> "covariance_eigvec_state" -> dget n (attrs (w_st w')) = dget n (attrs (w_st w))).
  Proof.
    destruct w as [s LS]. unfold stands. cbn [w_st w_logs]. intros CT SR R SO CV N PK DL K Gm Ct Ht.
    destruct (ready_get_total eigh s C R SO) as (s' & vw & E). destruct (ready_get eigh s C s' vw R E) as (EV & EC & -> & SC & FR). pose proof SC as (_ & NE & HE & (HV & _) & D).
    set (s2 := with_attrs s' (dset "covariance_eigvec_state" (with_hole EC m t) (attrs s'))).
    assert (Q : look EC m t = None) by (pose proof (D m t) as Dm; rewrite Ct in Dm; apply Dm).
    exists (World s2 LS), EV, EC. split; [|split; [reflexivity|split; [exact D|split; [|split]]]].
    - apply (prec_kfac_r eigh inverse ids s LS r live C L d h _ _ (proj1 (proj1 R)) SR CV PK). unfold precondition_kfac_r.
      assert (SV : on_st (get_covariance_svd_state eigh) (World s LS) = (World s' LS, Ok (log_nd EV, log_nd EC))) by (unfold on_st; cbn [w_st w_logs]; rewrite E; reflexivity).
      rewrite (sbind_run _ _ _ _ _ SV). assert (SG : on_st sget (World s' LS) = (World s' LS, Ok s')) by reflexivity. rewrite (sbind_run _ _ _ _ _ SG). rewrite (hasattr_none s' _ NE).
      rewrite (sbind_run _ _ _ _ _ (logs_run r (World s' LS) _ SR)). cbn [snd]. rewrite log_nd_keys, sbind_lift, DL. rewrite DL in N.
      destruct (kfac_prefix_r s' LS r live "covariance_eigval_state" EV EC L (kfit_c eigh C L) (m :: l2) HE HV SR l1 [] d) as (d' & dn' & P).
      + intros x I. apply kfull_fits; [apply SC|]. apply kfull_ok; auto.
      + cbn [map app]. exact (NoDup_left _ _ N).
      + change (log_nd (plog [])) with (@Node sval []) in P. rewrite P. cbn [kfac_loop_r]. apply sbind_err. unfold kfac_module_r. rewrite (sbind_run _ _ _ _ _ (grad_read r live L m g s' LS SR Gm)).
        destruct Ht as [->|(-> & c & Cf)].
        * exact (sbind_err _ _ _ _ _ (item2_miss LS _ m "forward" EC s' HV Q)).
        * pose proof (D m "forward") as Df. rewrite Cf in Df. destruct Df as (wf & vf & _ & _ & Wf). rewrite (sbind_run _ _ _ _ _ (item2_run LS _ m "forward" EC _ s' HV Wf)). exact (sbind_err _ _ _ _ _ (item2_miss LS _ m "backward" EC s' HV Q)).
    - cbn [w_st]. apply dget_dset_eq.
    - cbn [w_st]. unfold s2. cbn [attrs with_attrs]. rewrite dget_dset_neq by discriminate. apply HE.
    - intros n N1 N2. cbn [w_st]. unfold s2. cbn [attrs with_attrs]. rewrite dget_dset_neq by (intros ->; apply N2; reflexivity). apply FR; assumption.
  Qed.
  Lemma raw_prefix_r (s : lstate) LS r live IV L (rf : string -> rfit) rest : dget "covariance_inverse_state" (attrs s) = Some (log_nd IV) -> nth_error LS r = Some (live, log_nd L) ->
    forall ms dn, (forall m, In m ms -> rfits IV L m (rf m)) -> NoDup (map fst dn ++ ms) ->
    exists dn', raw_loop_r r (ms ++ rest) (log_nd (plog dn)) (World s LS) = raw_loop_r r rest (log_nd (plog dn')) (World s LS).
  Proof.
    intros HI SR. induction ms as [|m ms IH]; intros dn K N; [exists dn; reflexivity|]. cbn [raw_loop_r app].
    assert (M : exists p, raw_module_r r m (World s LS) = (World s LS, Ok p)).
    { pose proof (tr_raw_loop True LS (log_nd IV) r live (log_nd L) SR (fun _ => Logic.I) [m] (Node []) s ltac:(exists []; reflexivity) HI) as T. cbn [foldM] in T. rewrite (raw_module_ok IV L m (rf m)) in T by (apply K; left; reflexivity). cbn [bind] in T.
      destruct T as (w' & q & T & [-> ->] & _). cbn [raw_loop_r] in T. apply sbind_ok in T. destruct T as (w1 & p & T1 & T2). apply sbind_ok in T2. destruct T2 as (w2 & o & T2 & T3). apply lift_ok in T2. destruct T2 as [-> T2]. injection T3 as -> _. exists p. exact T1. }
    destruct M as (p & M). rewrite (sbind_run _ _ _ _ _ M).
    pose proof (plog_set dn m p) as P. rewrite P by (intros I; apply NoDup_remove_2 in N; apply N; apply in_or_app; left; exact I).
    rewrite sbind_lift. apply (IH (dn ++ [(m, p)])); [intros m' I; apply K; right; exact I|]. rewrite map_app, <- app_assoc. exact N.
  Qed.
  (** a module without covariance of gradients *)
  Theorem raw_hole ids (w : world) r live C L d h l1 m l2 g : inverse_contract inverse -> stands w r live L -> raw_ready inverse (w_st w) C d -> invertible inverse d C -> covered C L -> NoDup (dkeys L) -> picks_raw h C L ->
    dkeys L = l1 ++ m :: l2 -> (forall x, In x l1 -> raw_data C L x) -> grad_of L m = Some g -> look C m "grad" = None ->
    exists w' IV, precondition_r eigh inverse (ids, At r) d h w = (w', Err AttributeError) /\ w_logs w' = w_logs w /\ inverted inverse d C IV /\
      dget "covariance_inverse_state" (attrs (w_st w')) = Some (with_hole IV m "grad") /\
      (forall n, n <> "covariance_inverse_state" -> dget n (attrs (w_st w')) = dget n (attrs (w_st w))).
  Proof.
    destruct w as [s LS]. unfold stands. cbn [w_st w_logs]. intros CT SR R IN CV N PK DL K Gm Ct.
    destruct (inv_ready_get eigh inverse s C d R) as (s' & IV & E & SC & FR).
    { intros m0 t c Lc. destruct (IN m0 t c Lc) as (n & Sc & Q). destruct (damped_spec (snd c) d n Sc) as (A1 & A2 & A3). exact (Q _ A1 A2 A3). }
    pose proof SC as (_ & (HI & _) & D). assert (Q : look IV m "grad" = None) by (pose proof (D m "grad") as Dm; rewrite Ct in Dm; exact Dm).
    set (s2 := with_attrs s' (dset "covariance_inverse_state" (with_hole IV m "grad") (attrs s'))).
    exists (World s2 LS), IV. split; [|split; [reflexivity|split; [exact D|split]]].
    - apply (prec_raw_r eigh inverse ids s LS r live C L d h _ _ (proj1 (proj1 R)) SR CV PK). unfold precondition_raw_r.
      assert (SV : on_st (get_covariance_inverse_state inverse d) (World s LS) = (World s' LS, Ok (log_nd IV))) by (unfold on_st; cbn [w_st w_logs]; rewrite E; reflexivity).
      rewrite (sbind_run _ _ _ _ _ SV). rewrite (sbind_run _ _ _ _ _ (logs_run r (World s' LS) _ SR)). cbn [snd]. rewrite log_nd_keys, sbind_lift, DL. rewrite DL in N.
      destruct (raw_prefix_r s' LS r live IV L (rfit_c IV L) (m :: l2) HI SR l1 []) as (dn' & P).
      + intros x I. apply (rfit_ok inverse C IV L x d CT); [apply SC|apply K; exact I].
      + cbn [map app]. exact (NoDup_left _ _ N).
      + change (log_nd (plog [])) with (@Node sval []) in P. rewrite P. cbn [raw_loop_r]. apply sbind_err. unfold raw_module_r. rewrite (sbind_run _ _ _ _ _ (grad_read r live L m g s' LS SR Gm)).
        exact (sbind_err _ _ _ _ _ (item2_miss LS _ m "grad" IV s' HI Q)).
    - cbn [w_st]. apply dget_dset_eq.
    - intros n N1. cbn [w_st]. unfold s2. cbn [attrs with_attrs]. rewrite dget_dset_neq by (intros ->; apply N1; reflexivity). apply FR; assumption.
  Qed.
End ReadProofs8.
