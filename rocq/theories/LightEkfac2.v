(** Lightning runs with corrected eigenvalues: the influence run. *)
From Coq Require Import ZArith Permutation Lia.
From Verif Require Import Py PyStr Field Tensor ModelGrad Monad ModelState ModelMmap ModelSaver ModelLoader ModelLogger ModelModules ModelLora ModelScheduler ModelInfluence ModelUtils ModelTrainer ModelLightning SpecGrad SpecState SpecStore SpecLogger SpecInfluence SpecRows SpecTrainer SpecLightning SpecDisk SpecWhole SpecLightWhole SpecDrift SpecEkfac SpecLightEkfac StateProofs1 StateProofs3 StateProofs4 StateProofs5 StateProofs7 GradProofs1 LogProofs1 LogProofs8 LogProofs9 InfProofs5 InfProofs10 InfProofs14 InfProofs19 TrainProofs1 TrainProofs2 TrainProofs3 TrainProofs4 WatchProofs2 ViewProofs ViewProofs2 DiskProofs1 DiskProofs2 DiskProofs3 WholeProofs1 WholeProofs2 WholeProofs3 WholeProofs4 WholeProofs5 WholeProofs6 EkfacProofs1 EkfacProofs2 EkfacProofs3 EkfacProofs4 LightProofs1 LightWhole1 LightWhole2 DriftProofs2 LightEkfac1.
Local Open Scope string_scope.
Local Open Scope list_scope.
Local Open Scope nat_scope.

Section P.
  Context {F : Type} `{OField F}.
  Notation tensor := (tensor F).
  Notation dten := (@dten F).
  Notation lx := (@lx F).
  Notation tlog := (@tlog F).
  Notation tr := (@tr F).
  Context (rnd : mid -> list nat -> F) (svd : tensor -> res tensor) (kind : mid -> mkind) (wsize : mid -> nat).
  Context (eigh : tensor -> res (tensor * tensor)) (inverse : tensor -> res tensor) (fsqrt : F -> F).
  Context (enc : dten -> array) (dec : array -> dten) (show : did -> string).
  Context {B X : Type} (extract : B -> SM X (list did)) (mask : option (B -> res (option dten))) (body : B -> list (@ev F)).
  Notation pl := (@pl F X).
  Notation logged := (logged kind eigh enc show extract mask body).
  Notation step_of := (LightProofs1.step_of kind eigh enc body).
  Notation pl_batch := (pl_batch kind eigh inverse fsqrt enc dec show extract mask body).
  Notation pl_do_epoch := (pl_do_epoch rnd svd kind eigh inverse fsqrt enc dec show extract mask body).
  Notation pl_extract := (pl_extract rnd svd kind eigh inverse fsqrt enc dec show extract mask body).
  Notation reachable := (reachable kind wsize eigh enc).
  Notation new_light := (new_light kind wsize eigh enc).
  Notation light_training := (light_training rnd svd kind eigh enc dec show extract mask body).
  Notation light_first := (light_first rnd svd kind eigh enc show extract mask body).
  Notation pl_influence := (pl_influence rnd svd kind eigh inverse fsqrt enc dec show extract mask body).
  Notation light_testing := (light_testing kind eigh enc show extract mask body).
  Notation calls_all := (SpecInfluence.calls_all eigh inverse fsqrt).
  Notation pl_epoch_start := (pl_epoch_start rnd svd).

  Lemma light_calls_run a bs es (q : pl) x0 t2 loader ls x1 e1 f' os r :
    let x := lm_x (tr_lm (pl_t q)) in
    (lx_setup [("grad", [AStr "log"])] ;; lx_eval) x = (x0, Ok tt) -> build_loader dec show a (pl_t q) = (t2, Ok loader) ->
    logged x0 (pl_ext q) bs ls x1 e1 -> calls_all (map (fun c => bcall loader (pa_imode a) true "auto" None (pa_damping a) c) (map as_nest ls)) (tr_ifn (pl_t q)) = (f', Ok os) -> saved f' r ->
    exists q' o, pl_influence a (bs :: es) q = (q', Ok (Some o)) /\ tr_scores (pl_t q') = Some o /\ saved (tr_ifn (pl_t q')) r /\ pl_epoch q' = S (pl_epoch q) /\ pl_ext q' = e1.
  Proof.
    intros x E0 EB T1 EC SV. destruct (setup_ready x x0 E0) as (L0 & S0 & D0 & X0 & EX0).
    set (q1 := PL (tr_set_mode (pl_t q) "influence") (pl_ext q) (pl_epoch q) false : pl).
    set (q2 := PL (tr_set_lm (pl_t q1) (tr_sched (pl_t q1)) (lm_set_x (tr_lm (pl_t q1)) x0)) (pl_ext q) (pl_epoch q) false : pl).
    assert (EX : lm_x (tr_lm (pl_t q2)) = x0) by reflexivity. assert (IX : tr_ifn (pl_t q2) = tr_ifn (pl_t q)). { unfold tr_ifn. rewrite EX, X0. reflexivity. }
    assert (ES : pl_epoch_start q1 = (q2, Ok tt)).
    { unfold ModelLightning.pl_epoch_start. unfold sbind at 1. unfold sget at 1. change (pl_mode q1) with "influence". change (String.eqb "influence" "log") with false. cbv iota.
      pose proof (on_lx_two (lx_setup [("grad", [AStr "log"])]) lx_eval (fun _ => sret tt) q1) as TW.
      assert (RT : forall (m : SM pl unit) qq, (let! _ := m in sret tt) qq = m qq) by (intros m qq; unfold sbind, sret; destruct (m qq) as [? [[]|]]; reflexivity).
      unfold sbind at 1 in TW. unfold sbind at 1. destruct (on_lx (lx_setup _) q1) as [q3 [[]|er]] eqn:E3; rewrite RT in TW; [rewrite RT in TW|]; rewrite TW; unfold on_lx, on_t, on_tlm, on_x; change (lm_x (tr_lm (pl_t q1))) with x; rewrite E0; reflexivity. }
    assert (RD : ready dec show a x0 (tr_built (pl_t q2)) loader).
    { unfold LightProofs1.ready. change (tr_built (pl_t q2)) with (tr_built (pl_t q)). unfold build_loader in EB. destruct (tr_built (pl_t q)) as [z|]; [injection EB as _ ->; reflexivity|]. rewrite D0. destruct (log_batches _ _ _ _) as [z|] eqn:EZ; [|discriminate EB]. injection EB as _ ->. reflexivity. }
    destruct (batches_run kind eigh inverse fsqrt enc dec show extract mask body a q2 loader eq_refl bs x0 x1 (pl_ext q) e1 ls (tr_ifn (pl_t q)) f' os (tr_built (pl_t q2)) L0 S0 T1 RD EC) as (bl' & ER).
    assert (PI : pat q2 x0 (pl_ext q) (tr_ifn (pl_t q)) (tr_built (pl_t q2)) = q2) by (rewrite <- IX; exact (pat_id q2 x0 EX)). rewrite PI in ER.
    set (q3 := pat q2 x1 e1 f' bl') in *.
    set (q4 := PL (pl_t q3) (pl_ext q3) (pl_epoch q3) true : pl).
    assert (EE : pl_epoch_end q3 = (q4, Ok tt)).
    { unfold pl_epoch_end. unfold sbind at 1. unfold sget at 1. change (pl_mode q3) with "influence". change (String.eqb "influence" "log") with false. cbv iota. unfold sbind, sret. change (pl_mode q3) with "influence". change (String.eqb "influence" "log") with false. cbv iota. change (1 - 1 <=? pl_epoch q3) with true. reflexivity. }
    set (q5 := PL (pl_t q3) e1 (S (pl_epoch q)) true : pl).
    assert (ED : pl_do_epoch a bs q1 = (q5, Ok tt)).
    { unfold ModelLightning.pl_do_epoch. rewrite (sbind_run _ _ _ _ _ ES), (sbind_run _ _ _ _ _ ER), (sbind_run _ _ _ _ _ EE). reflexivity. }
    destruct SV as (o & SV1 & SV2 & SV3). exists q5, o. split; [|split; [exact SV1|split; [change (tr_ifn (pl_t q5)) with (tr_ifn (at_ (pl_t q2) x1 f' (tr_acc (pl_t q2)) bl' (tr_loader (pl_t q2)))); rewrite at_ifn; exists o; auto|split; [reflexivity|reflexivity]]]].
    - unfold ModelLightning.pl_influence, pl_set_mode, ModelLightning.fit. unfold sbind at 1. unfold on_t, set_mode. cbn [pl_t pl_ext pl_epoch pl_stop]. unfold sbind at 1. unfold sbind at 1. cbn [pl_t pl_ext pl_epoch pl_stop]. fold q1.
      cbn [ModelLightning.fit_epochs]. rewrite (sbind_run _ _ _ _ _ ED). unfold sbind at 1. unfold sget at 1. change (pl_stop q5) with true. cbv iota. unfold sret at 1. unfold sbind, sget, sret. change (tr_scores (pl_t q5)) with (if_scores f'). rewrite SV1. reflexivity.
  Qed.

  Theorem light_influence_ekfac ms a (q : pl) bs1 (q2 : pl) bs2 es sids (M : tlog) q' bs3 es3 qids (Q : tlog) d ks :
    new_light "ekfac" ms q -> pl_epoch q = 0 -> light_first q bs1 -> let cs := light_calls kind mask body q bs1 in Forall call_ok cs ->
    pl_do_epoch a bs1 (log_fit q) = (q2, Ok tt) -> light_training ms a q2 bs2 sids M -> tr_scores (pl_t q) = None -> tr_built (pl_t q) = None -> matrices ms M ->
    pl_extract a (bs1 :: bs2 :: es) q = (q', Ok tt) -> light_sizes kind eigh enc show extract mask body q' bs3 qids Q ks -> splits ks (length qids) -> uniform (length qids) Q -> (forall m, In m (dkeys Q) -> factored cs Q m) ->
    pa_imode a = "dot" -> pa_damping a = Some d -> fle f0 d -> d <> f0 -> eigh_contract eigh ->
    Q <> [] -> plain_log Cpu (length qids) Q -> within Q M -> (forall m, In m ms -> In m (dkeys Q)) ->
    exists pf o P C EC E, pl_influence a (bs3 :: es3) q' = (pf, Ok (Some o)) /\ tr_scores (pl_t pf) = Some o /\
      saved (tr_ifn (pl_t pf)) (InfRes qids sids (final (fun l => score_matrix P M l (length qids) (length sids)) None (dkeys Q))) /\
      dkeys P = dkeys Q /\ ekfac_state (x_state (lm_x (tr_lm (pl_t q')))) C EC E /\
      (forall m g n i j, grad_of Q m = Some (Cpu, g) -> shape g = [n; i; j] ->
         exists wf vf wb vb dm t e p, eigh (factor cs m "forward") = Ok (wf, vf) /\ eigh (factor cs m "backward") = Ok (wb, vb) /\ grad_of M m = Some (dm, t) /\
           dget m E = Some (e, mean_squares vb vf t) /\ grad_of P m = Some (Cpu, p) /\ shape p = shape g /\
           forall k, k < n -> eig_row (if dev_eqb e Cpu then fmul (fnat (S (SpecDrift.step_of ks k))) d else d) vb vf (mean_squares vb vf t) (slice p k) (slice g k) i j).
  Proof.
    intros HN Zq HE cs HC E1 HT NR NB HM EX TE SP UQ FD Em Ed D0 D1 IC NQ PQ WI SUB.
    destruct (light_ekfac rnd svd kind wsize eigh inverse fsqrt enc dec show extract mask body ms a q bs1 q2 bs2 es sids M HN Zq HE HC E1 HT) as (q3 & C & EC & E & E2 & _ & ES & LB & KS & C0 & C1 & C2 & C3). rewrite EX in E2. injection E2 as <-. fold cs in C0, C1.
    destruct HT as (NE & ND & HI & HB & NDs & HO & _ & (dt & e & exact & CD & ST) & _ & _ & _ & _ & ks' & _ & _ & _ & SP'). pose proof (splits_ne ks' sids SP') as NS.
    set (lds := map (@length string) (chunks (pa_bs a) sids)) in *.
    assert (NBq : tr_built (pl_t q') = None) by (destruct ES as (_ & _ & _ & Q4 & _); congruence).
    assert (NRq : tr_scores (pl_t q') = None) by (destruct ES as (Q1 & _); congruence).
    assert (ED : exists t2, build_loader dec show a (pl_t q') = (t2, Ok (batches 0 lds sids (regrad ms M)))). { unfold build_loader. rewrite NBq, LB. eexists. reflexivity. }
    destruct ED as (t2 & ED). destruct TE as (x0 & ls & x1 & e1 & EB & T1 & EL).
    assert (HG : forall m, In m ms -> exists x, grad_of M m = Some x) by (intros m I; destruct (HM m I) as (dd & t & n & i & j & G & _); eauto).
    pose proof (regrad_plain exact ms (length sids) M ND ST HM) as PB.
    assert (WB : within Q (regrad ms M)). { intros m x G. destruct (WI m x G) as ([dd t] & G2 & S2). assert (I : In m ms) by (apply HI; eapply look_in; exact G2). exists (Cpu, t). split; [apply (regrad_grad ms M m dd t I G2 ND)|exact S2]. }
    assert (GF : grad_first (regrad ms M)) by (destruct ms as [|m ms']; [congruence|reflexivity]).
    assert (SB : forall m, In m (dkeys (regrad ms M)) -> In m (dkeys Q)) by (intros m I; rewrite regrad_keys in I; exact (SUB m I)).
    pose proof (chunk_splits (pa_bs a) sids HB NS) as SC. fold lds in SC.
    assert (QM : forall m, In m (dkeys Q) -> In m ms). { intros m I. destruct PQ as (_ & PQ). destruct (PQ m I) as (x & i & j & G & _). destruct (WI m _ G) as (y & Gy & _). apply HI. eapply look_in. exact Gy. }
    assert (FF : forall m g n i j, grad_of Q m = Some (Cpu, g) -> shape g = [n; i; j] -> exists df wf vf db wb vb dm t e, look C m "forward" = Some (df, divided_again cs m "forward") /\ look EC m "forward" = Some (df, vf) /\ look EC m "backward" = Some (db, vb) /\ eigh (factor cs m "forward") = Ok (wf, vf) /\ eigh (factor cs m "backward") = Ok (wb, vb) /\
      orthogonal j vf /\ orthogonal i vb /\ grad_of M m = Some (dm, t) /\ dget m E = Some (e, mean_squares vb vf t) /\ In m (dkeys Q)).
    { intros m g n i j G S. assert (I : In m (dkeys Q)) by (eapply look_in; exact G). destruct (FD m I) as (dv & g' & n' & i' & j' & G' & S' & K). rewrite G in G'. injection G' as <- <-. rewrite S in S'. injection S' as <- <- <-.
      destruct (K "forward" j (or_introl eq_refl)) as (K1 & W1 & _). destruct (K "backward" i (or_intror (or_introl eq_refl))) as (K2 & W2 & _).
      destruct (C1 m "forward" K1) as (df & wf & vf & Lc & Ef & Le). destruct (C1 m "backward" K2) as (db & wb & vb & _ & Eb & Lb). destruct (C2 m (QM m I)) as (e2 & vf' & vb' & dm & t & L1 & L2 & GM & DE).
      rewrite Le in L1. injection L1 as <-. rewrite Lb in L2. injection L2 as <-. cbn [snd] in DE.
      assert (OO : forall n v c w, eigh c = Ok (w, v) -> symmetric n c -> orthogonal n v). { intros n0 v c w Ew SY. destruct (IC n0 c w v SY Ew) as (_ & Sv & _ & _ & O1 & O2 & _). split; [exact Sv|]. intros i0 j0 Li Lj. split; [apply O1; assumption|apply O2; assumption]. }
      exists df, wf, vf, db, wb, vb, dm, t, e2. split; [exact Lc|]. split; [exact Le|]. split; [exact Lb|]. split; [exact Ef|]. split; [exact Eb|]. split; [apply (OO j vf _ wf Ef); apply factor_facts; exact W1|]. split; [apply (OO i vb _ wb Eb); apply factor_facts; exact W2|]. auto. }
    assert (KD : forall m, In m (dkeys Q) -> ekfac_data Cpu EC E Q m).
    { intros m I. destruct PQ as (_ & PQ). destruct (PQ m I) as (g & i & j & G & S & W). destruct (FF m g (length qids) i j G S) as (df & wf & vf & db & wb & vb & dm & t & e2 & _ & Lf & Lb & _ & _ & Of & Ob & GM & DE & _).
      exists (length qids), i, j, g, (df, vf), (db, vb), (e2, mean_squares vb vf t). repeat (split; [assumption|]). cbn [snd]. unfold mean_squares. rewrite (proj1 Of), (proj1 Ob). cbn [nth]. split; [reflexivity|]. split; [apply tgen_wf|].
      intros i0 j0 Li Lj. rewrite mget_mgen by assumption. apply fdiv_nonneg; [apply (lsum_squares (fun g0 => project vb vf i0 j0 g0))|apply fnat_nonneg|].
      apply fnat_neq_0. destruct ST as (U & _ & ST). destruct (ST m (QM m I)) as (dd & t' & k & rest & G' & S' & _). unfold grad_of in GM. rewrite GM in G'. injection G' as <- <-. unfold samples, batch_size. rewrite map_length, seq_length, S'. cbn [hd]. destruct sids; [congruence|discriminate]. }
    assert (CV : covered C Q). { intros m I. destruct PQ as (_ & PQ). destruct (PQ m I) as (g & i & j & G & S & W). destruct (FF m g _ i j G S) as (? & ? & ? & ? & ? & ? & ? & ? & ? & L & _). eapply look_in. exact L. }
    assert (PK : picks_kfac "auto" C Q). { right. split; [reflexivity|]. split; [exact NQ|]. unfold auto_raw. destruct Q as [|[m x] Q']; [congruence|]. cbn [dkeys map fst].
      assert (Z : calls_for SCov m "grad" cs = []). { apply calls_for_none. intros c J. unfold cs, light_calls in J. cbv zeta in J. revert J. generalize (x_heap (lm_x (tr_lm (pl_t q)))). induction (map (light_batch mask body) bs1) as [|b bs IH]; intros h J; [destruct J|]. cbn [epoch_calls] in J. apply in_app_or in J as [J|J]; [exact (stat_typ _ _ _ _ _ _ _ _ _ _ J)|exact (IH _ J)]. }
      destruct (C0 m "grad" Z) as [-> _]. reflexivity. }
    destruct (drift_calls eigh inverse fsqrt Cpu C EC E Q (regrad ms M) "auto" None d qids sids lds ks (tr_ifn (pl_t q')) NQ PQ UQ PB WB GF SB Logic.I Logic.I SC SP KS KD CV PK D0 D1 NRq) as (f' & os & P & EC1 & SV & I4 & SOL).
    rewrite <- EL, <- Em, <- Ed in EC1.
    destruct (light_calls_run a bs3 es3 q' x0 t2 _ ls x1 e1 f' os _ EB ED T1 EC1 SV) as (pf & o & I1 & I2 & I3 & _ & _).
    exists pf, o, P, C, EC, E. split; [exact I1|]. split; [exact I2|]. split.
    { replace (final (fun l => score_matrix P M l (length qids) (length sids)) None (dkeys Q)) with (final (fun l => score_matrix P (regrad ms M) l (length qids) (length sids)) None (dkeys Q)); [exact I3|].
      assert (Y : forall l, score_matrix P (regrad ms M) l (length qids) (length sids) = score_matrix P M l (length qids) (length sids)).
      { intros l. unfold score_matrix. apply InfProofs1.mgen_ext. intros i j _ _. unfold score. f_equal. apply map_ext. intros m. apply gdot_regrad; assumption. }
      unfold final. rewrite Y. reflexivity. }
    split; [exact I4|]. split; [exact KS|]. intros m g n i j G S. destruct (FF m g n i j G S) as (df & wf & vf & db & wb & vb & dm & t & e2 & _ & Lf & Lb & Ef & Eb & _ & _ & GM & DE & _).
    destruct (SOL m g _ _ e2 _ n i j G S Lf Lb DE) as (p & Gq & Sq & R). exists wf, vf, wb, vb, dm, t, e2, p. cbn [snd] in R. auto 10.
  Qed.
End P.
