(** Influence runs with corrected eigenvalues in a process that starts from what an earlier one left on disk. *)
From Coq Require Import ZArith Permutation Lia.
From Verif Require Import Py PyStr Field Tensor ModelGrad Monad ModelState ModelMmap ModelSaver ModelLoader ModelLogger ModelModules ModelLora ModelScheduler ModelInfluence ModelUtils ModelTrainer SpecGrad SpecState SpecStore SpecLogger SpecInfluence SpecRows SpecTrainer SpecDisk SpecWhole SpecDrift SpecEkfac StateProofs1 StateProofs3 StateProofs4 StateProofs5 StateProofs7 GradProofs1 LogProofs1 LogProofs8 LogProofs9 InfProofs5 InfProofs10 TrainProofs1 TrainProofs2 TrainProofs3 TrainProofs4 WatchProofs2 ViewProofs ViewProofs2 DiskProofs1 DiskProofs2 DiskProofs3 WholeProofs1 WholeProofs2 WholeProofs3 WholeProofs4 WholeProofs5 WholeProofs6 DriftProofs3 EkfacProofs1 EkfacProofs2 EkfacProofs3 EkfacProofs4 SpecReopen StateProofs10 ReopenProofs.
Local Open Scope string_scope.
Local Open Scope list_scope.
Local Open Scope nat_scope.

Section P.
  Context {F : Type} `{OField F}.
  Add Field ro2field : f_theory.
  Notation tensor := (tensor F).
  Notation dten := (@dten F).
  Notation lx := (@lx F).
  Notation lstate := (@lstate F).
  Notation tlog := (@tlog F).
  Notation tr := (@tr F).
  Context (rnd : mid -> list nat -> F) (svd : tensor -> res tensor) (kind : mid -> mkind) (wsize : mid -> nat).
  Context (eigh : tensor -> res (tensor * tensor)) (inverse : tensor -> res tensor) (fsqrt : F -> F).
  Context (enc : dten -> array) (dec : array -> dten) (show : did -> string).
  Context (tok : option (ModelUtils.data -> res (list string))) (hash : string -> string).
  Notation trained := (trained kind eigh enc show tok hash).
  Notation reachable := (reachable kind wsize eigh enc).
  Notation do_epoch := (do_epoch rnd svd kind eigh inverse fsqrt enc dec show tok hash).
  Notation extract_log := (extract_log rnd svd kind eigh inverse fsqrt enc dec show tok hash).
  Notation influence := (influence rnd svd kind eigh inverse fsqrt enc dec show tok hash).
  Notation new_run := (new_run kind wsize eigh enc).
  Notation first_epoch := (first_epoch rnd svd kind eigh enc show tok hash).
  Notation training := (training rnd svd kind eigh enc dec show tok hash).
  Notation on_epoch_begin := (on_epoch_begin rnd svd).
  Notation on_train_begin := (on_train_begin rnd svd).
  Lemma second_saves cs ms a (p2 : tr) steps sids (M : tlog) q' : tr_mode p2 = "log" -> tr_sched p2 = ekfac_sched 0 (skipn 1 ekfac_all) ->
    (let x := lm_x (tr_lm p2) in reachable x /\ fresh_dir (x_dir x) /\ (exists rank w thr, x_saver x = saver_init rank w thr (grad_paths ms) /\ (w <= 1)%Z) /\ factors cs (x_state x)) ->
    training ms a p2 steps sids M -> do_epoch a steps p2 = (q', Ok tt) ->
    exists ecs x1, run_ecalls eigh ecs (x_state (lm_x (tr_lm p2))) = (x_state x1, Ok tt) /\ lx_finalize x1 = (lm_x (tr_lm q'), Ok tt).
  Proof.
    intros Mo Sc (HR & HF & (rank & w & thr & Es & Hw) & FA) (NE & ND & HI & HB & NDs & HO & (dt & e & exact & CD & ST) & p1 & ls & x1 & ks & EB & T1 & EL & SP) GOAL.
    pose proof EB as E1. rewrite (second_begins rnd svd p2 Sc) in E1. injection E1 as E1. set (x0 := begun2 (lm_x (tr_lm p2))) in *.
    assert (X0 : lm_x (tr_lm p1) = x0) by (rewrite <- E1; reflexivity). rewrite X0 in T1.
    pose proof (batches_parts M ks 0 sids ls EL) as EP. destruct (trained_logged kind eigh enc show tok hash a x0 x1 _ ls T1 (parts 0 ks M) EP) as (bs & B1 & B2).
    assert (HR0 : reachable x0) by exact (begun2_reachable kind wsize eigh enc _ HR). pose proof (batch_own a _ _ B1 HO) as HW. destruct SP as (SP1 & SP2 & SP3).
    assert (HG : Forall good_grads (parts 0 ks M)) by (apply (parts_good exact ms (length sids) M ST HI); [exact SP2|lia]).
    destruct (logged_eig kind wsize eigh enc bs (parts 0 ks M) x0 x1 B2 HR0 eq_refl HW) as (HL & _ & HLen & HN).
    set (ecs := epoch_ecalls (x_offload x0) bs (parts 0 ks M)) in *.
    assert (NDM : NoDup (dkeys M)). { destruct ks as [|k ks]; [congruence|]. cbn [parts] in HN. apply Forall_inv in HN. rewrite part_keys in HN. exact HN. }
    assert (Lk : length bs = length ks). { rewrite <- HLen. clear. generalize 0. induction ks as [|k ks IH]; intros o; [reflexivity|]. cbn [parts length]. rewrite IH. reflexivity. }
    destruct ST as (U & U2 & ST).
    assert (ON : forall m, In m ms -> exists d t k rest, grad_of M m = Some (d, t) /\ shape t = length sids :: k :: rest /\ grads_for m ecs = samples t /\ on_module m ecs <> []).
    { intros m J. destruct (ST m J) as (d & t & k & rest & G & S & _ & _). exists d, t, k, rest. split; [exact G|]. split; [exact S|].
      destruct (epoch_on (x_offload x0) m M d t (length sids) (k :: rest) NDM G S ks bs 0 Lk ltac:(lia)) as [I1 I2]. split; [|exact (I2 SP1)]. unfold ecs. rewrite I1, SP3. unfold samples, batch_size. rewrite S. reflexivity. }
    assert (OFF : forall m, ~ In m ms -> on_module m ecs = []). { intros m J. apply epoch_off. intros Q. apply J, HI, Q. }
    destruct ecs as [|e0 es0] eqn:Ee. { exfalso. destruct ms as [|m ms']; [congruence|]. destruct (ON m (or_introl eq_refl)) as (? & ? & ? & ? & _ & _ & _ & Q). apply Q. reflexivity. }
    assert (GW : Forall grad_wf (e0 :: es0)) by (rewrite <- Ee; apply epoch_gwf; exact HG).
    destruct FA as [I5 FA]. change (x_state x0) with (x_state (lm_x (tr_lm p2))) in HL.
    destruct (ekfac_struct eigh (x_disk x1) _ e0 es0 _ I5 GW HL) as (s' & dk' & C & EC & E & Ef & KS & LC & LE & NO & YES).
    (* finalize of the saver *)
    assert (Sv : x_save x0 = true) by reflexivity. assert (Esx : x_saver x0 = saver_init rank w thr (grad_paths ms)) by exact Es.
    assert (SE0 : settle x0 = x_saver x0) by (apply settle_empty; rewrite Esx; reflexivity). assert (TD0 : two_deep (s_buffer (x_saver x0))) by (rewrite Esx; intros i b; discriminate).
    assert (Fi : exists x2, lx_finalize x1 = (x2, Ok tt) /\ x_state x2 = s').
    { destruct (trained_saves kind eigh enc show tok hash a _ _ _ _ Sv SE0 TD0 T1) as (gs & El & J & SB & _ & SE). rewrite El in EL. destruct (cut_ids enc show M ks gs sids EL) as (Q1 & Q2); [congruence|]. set (ids := concat (map fst gs)) in *.
      pose proof EL as EL2. rewrite Q1 in EL2. rewrite (written_batches enc show M ids ks 0 gs EL2 Q2) in SB. rewrite Esx in SB.
      assert (J2 : Forall json_id ids). { unfold ids. clear - J. induction J as [|g gs (sl & E) J IH]; [constructor|]. cbn [map concat]. rewrite E. apply Forall_app. split; [|exact IH]. apply Forall_forall. intros d I0. apply in_map_iff in I0. destruct I0 as (s & <- & _). exact Logic.I. }
      assert (Li : length ids = length sids) by (rewrite Q1, map_length; reflexivity).
      destruct (read_back dt e exact enc dec CD show ms (length sids) M (conj U (conj U2 ST)) rank w thr (x_dir x0) ks ids (ha_bs a) NE ND HF Hw J2) as (d' & sv' & R1 & R2); auto.
      { apply (nodup_map show). rewrite <- Q1. exact NDs. }
      unfold save_run in R1. rewrite SB in R1. unfold lx_finalize. unfold sbind at 1. rewrite Ef. cbv beta iota.
      match goal with |- context [settle ?z] => change (settle z) with (settle x1) end. rewrite SE. match goal with |- context [saver_finalize ?z _] => change z with (x_dir x1) end.
      rewrite R1. eexists. split; [reflexivity|]. reflexivity. }
    destruct Fi as (x2 & Fi & Sx2). rewrite (set_log p2 Mo) in EB.
    destruct (epoch_written rnd svd kind eigh inverse fsqrt enc dec show tok hash dt e exact ms (length sids) M a steps p2 p1 rank w thr ls x1 x2 ks sids) as (p' & K1 & K2 & K3 & K4 & K5); auto; try (rewrite X0; assumption). { exact (conj U (conj U2 ST)). }
    pose proof (finalize_trained rnd svd kind eigh inverse fsqrt enc dec show tok hash a p2 p1 steps ls x1 x2 Mo EB ltac:(rewrite X0; exact T1) Fi) as K6. rewrite K1 in K6. apply (f_equal fst) in K6. cbn [fst] in K6.
    rewrite K1 in GOAL. injection GOAL as <-. exists (e0 :: es0), x1. split; [exact HL|]. rewrite K2. exact Fi.
  Qed.
  Lemma ekfac_at cs ms a (p p' : tr) a' steps1 sids (M : tlog) epochs qids (Q : tlog) d p0 ls x1 ks exact C EC E :
    cs = factor_calls kind a' p steps1 ->
    ha_init a = false -> 0 < ha_bs a -> ms <> [] -> NoDup ms -> (forall m, In m (dkeys M) -> In m ms) -> sids <> [] -> storable exact ms (length sids) M -> no_results p' -> matrices ms M ->
    log_batches dec show (ha_bs a) (x_dir (lm_x (tr_lm p'))) = Ok (batches 0 (map (@length string) (chunks (ha_bs a) sids)) sids (regrad ms M)) ->
    ekfac_state (x_state (lm_x (tr_lm p'))) C EC E -> eig_facts eigh cs ms M C EC E -> on_train_begin a (tr_set_mode p' "influence") = (p0, Ok tt) ->
    Forall (fun l => l <> []) (concat epochs) -> trained a (lm_x (tr_lm p0)) (concat (concat epochs)) ls x1 -> map as_nest ls = batches 0 ks qids Q -> splits ks (length qids) ->
    uniform (length qids) Q -> ok_log Q -> (forall m, In m (dkeys Q) -> factored cs Q m) ->
    ha_imode a = "dot" -> ha_damping a = Some d -> fle f0 d -> d <> f0 -> eigh_contract eigh ->
    groups_ok (ha_groups a) -> groups_hit (ha_groups a) (dkeys Q) -> Q <> [] -> plain_log Cpu (length qids) Q -> within Q M -> (forall m, In m ms -> In m (dkeys Q)) ->
    exists pf o P, influence a epochs p' = (pf, Ok (Some o)) /\ tr_scores pf = Some o /\
      saved (tr_ifn pf) (InfRes qids sids (final (fun l => score_matrix P M l (length qids) (length sids)) (ha_groups a) (dkeys Q))) /\
      dkeys P = dkeys Q /\
      (forall m g n i j, grad_of Q m = Some (Cpu, g) -> shape g = [n; i; j] ->
         exists wf vf wb vb dm t e q, eigh (factor cs m "forward") = Ok (wf, vf) /\ eigh (factor cs m "backward") = Ok (wb, vb) /\ grad_of M m = Some (dm, t) /\
           dget m E = Some (e, mean_squares vb vf t) /\ grad_of P m = Some (Cpu, q) /\ shape q = shape g /\
           forall k, k < n -> eig_row (if dev_eqb e Cpu then fmul (fnat (S (step_of (step_sizes (map (@length _) (concat epochs)) ks) k))) d else d) vb vf (mean_squares vb vf t) (slice q k) (slice g k) i j).
  Proof.
    intros Ecs Ei HB NE ND HI NS ST NRp HM LB KS (C0 & C1 & C2 & C3) EB HEp T1 EL SP UQ OQ FD Em Ed D0 D1 IC GO GH NQ PQ WI SUB.
    destruct (begin_state rnd svd a p' p0 Ei EB) as [Bs Bd]. pose proof (acc_begin rnd svd a _ _ _ EB) as (_ & _ & _ & _ & A1 & A2). cbn [tr_set_mode tr_built tr_loader] in A1, A2. destruct NRp as (R1 & R2 & R3 & R4).
    set (lds := map (@length string) (chunks (ha_bs a) sids)) in *.
    destruct (fresh_loader dec show a p0 (batches 0 lds sids (regrad ms M))) as (p3 & ED & _ & _); [congruence|congruence|rewrite Bd; exact LB|].
    assert (HG : forall m, In m ms -> exists x, grad_of M m = Some x) by (intros m I; destruct (HM m I) as (dd & t & n & i & j & G & _); eauto).
    pose proof (regrad_plain exact ms (length sids) M ND ST HM) as PB.
    assert (WB : within Q (regrad ms M)). { intros m x G. destruct (WI m x G) as ([dd t] & G2 & S2). assert (I : In m ms) by (apply HI; eapply look_in; exact G2). exists (Cpu, t). split; [apply (regrad_grad ms M m dd t I G2 ND)|exact S2]. }
    assert (GF : grad_first (regrad ms M)) by (destruct ms as [|m ms']; [congruence|reflexivity]).
    assert (SB : forall m, In m (dkeys (regrad ms M)) -> In m (dkeys Q)) by (intros m I; rewrite regrad_keys in I; exact (SUB m I)).
    pose proof (chunk_splits (ha_bs a) sids HB NS) as SC. fold lds in SC.
    assert (QM : forall m, In m (dkeys Q) -> In m ms). { intros m I. destruct PQ as (_ & PQ). destruct (PQ m I) as (x & i & j & G & _). destruct (WI m _ G) as (y & Gy & _). apply HI. eapply look_in. exact Gy. }
    assert (FF : forall m g n i j, grad_of Q m = Some (Cpu, g) -> shape g = [n; i; j] -> exists df wf vf db wb vb dm t e, look C m "forward" = Some (df, divided_again cs m "forward") /\ look EC m "forward" = Some (df, vf) /\ look EC m "backward" = Some (db, vb) /\ eigh (factor cs m "forward") = Ok (wf, vf) /\ eigh (factor cs m "backward") = Ok (wb, vb) /\
      orthogonal j vf /\ orthogonal i vb /\ grad_of M m = Some (dm, t) /\ dget m E = Some (e, mean_squares vb vf t) /\ In m (dkeys Q)).
    { intros m g n i j G S. assert (I : In m (dkeys Q)) by (eapply look_in; exact G). destruct (FD m I) as (dv & g' & n' & i' & j' & G' & S' & K). rewrite G in G'. injection G' as <- <-. rewrite S in S'. injection S' as <- <- <-.
      destruct (K "forward" j (or_introl eq_refl)) as (K1 & W1 & _). destruct (K "backward" i (or_intror (or_introl eq_refl))) as (K2 & W2 & _).
      destruct (C1 m "forward" K1) as (df & wf & vf & Lc & Ef & Le). destruct (C1 m "backward" K2) as (db & wb & vb & _ & Eb & Lb). destruct (C2 m (QM m I)) as (e2 & vf' & vb' & dm & t & L1 & L2 & GM & DE).
      rewrite Le in L1. injection L1 as <-. rewrite Lb in L2. injection L2 as <-. cbn [snd] in DE.
      assert (OO : forall n v c w, eigh c = Ok (w, v) -> symmetric n c -> orthogonal n v). { intros n0 v c w Ew SY. destruct (IC n0 c w v SY Ew) as (_ & Sv & _ & _ & O1 & O2 & _). split; [exact Sv|]. intros i0 j0 Li Lj. split; [apply O1; assumption|apply O2; assumption]. }
      exists df, wf, vf, db, wb, vb, dm, t, e2. split; [exact Lc|]. split; [exact Le|]. split; [exact Lb|]. split; [exact Ef|]. split; [exact Eb|]. split; [apply (OO j vf _ wf Ef); apply factor_facts; exact W1|]. split; [apply (OO i vb _ wb Eb); apply factor_facts; exact W2|]. auto. }
    assert (KD : forall m, In m (dkeys Q) -> ekfac_data Cpu EC E Q m).
    { intros m I. destruct PQ as (_ & PQ). destruct (PQ m I) as (g & i & j & G & S & W). destruct (FF m g (length qids) i j G S) as (df & wf & vf & db & wb & vb & dm & t & e2 & _ & Lf & Lb & _ & _ & Of & Ob & GM & DE & _).
      exists (length qids), i, j, g, (df, vf), (db, vb), (e2, mean_squares vb vf t). repeat (split; [assumption|]). cbn [snd]. unfold mean_squares. rewrite (proj1 Of), (proj1 Ob). cbn [nth]. split; [reflexivity|]. split; [apply tgen_wf|].
      intros i0 j0 Li Lj. rewrite mget_mgen by assumption. apply fdiv_nonneg; [apply (lsum_squares (fun g0 => project vb vf i0 j0 g0))|apply fnat_nonneg|].
      apply fnat_neq_0. destruct ST as (U & _ & ST). destruct (ST m (QM m I)) as (dd & t' & k & rest & G' & S' & _). unfold grad_of in GM. rewrite GM in G'. injection G' as <- <-. unfold samples, batch_size. rewrite map_length, seq_length, S'. cbn [hd]. destruct sids; [congruence|discriminate]. }
    assert (CV : covered C Q). { intros m I. destruct PQ as (_ & PQ). destruct (PQ m I) as (g & i & j & G & S & W). destruct (FF m g _ i j G S) as (? & ? & ? & ? & ? & ? & ? & ? & ? & L & _). eapply look_in. exact L. }
    assert (PK : picks_kfac "auto" C Q). { right. split; [reflexivity|]. split; [exact NQ|]. unfold auto_raw. destruct Q as [|[m x] Q']; [congruence|]. cbn [dkeys map fst].
      assert (Z : calls_for SCov m "grad" cs = []). { apply calls_for_none. intros c J. rewrite Ecs in J; unfold factor_calls in J. cbv zeta in J. revert J. generalize (x_heap (lm_x (tr_lm p))). induction (map (step_batch a') (concat steps1)) as [|b bs IH]; intros h J; [destruct J|]. cbn [epoch_calls] in J. apply in_app_or in J as [J|J]; [exact (stat_typ _ _ _ _ _ _ _ _ _ _ J)|exact (IH _ J)]. }
      destruct (C0 m "grad" Z) as [-> _]. reflexivity. }
    destruct (drift_run rnd svd kind eigh inverse fsqrt enc dec show tok hash Cpu C EC E d a epochs p' p0 p3 Q (regrad ms M) qids sids lds ls x1 ks EB ED SC R1 R2 Em Ed D0 D1 ltac:(rewrite Bs; exact KS) KD CV PK NQ PQ UQ OQ PB WB GF SB GO GH HEp T1 EL SP) as (pf & o & P & I1 & I2 & I3 & I4 & SOL).
    exists pf, o, P. split; [exact I1|]. split; [exact I2|]. split.
    { replace (final (fun l => score_matrix P M l (length qids) (length sids)) (ha_groups a) (dkeys Q)) with (final (fun l => score_matrix P (regrad ms M) l (length qids) (length sids)) (ha_groups a) (dkeys Q)); [exact I3|].
      assert (X : forall l, score_matrix P (regrad ms M) l (length qids) (length sids) = score_matrix P M l (length qids) (length sids)).
      { intros l. unfold score_matrix. apply InfProofs1.mgen_ext. intros i j _ _. unfold score. f_equal. apply map_ext. intros m. apply gdot_regrad; assumption. }
      unfold final. destruct (ha_groups a) as [gs|]; [|rewrite X; reflexivity]. rewrite X. f_equal. f_equal. apply map_ext. intros g. rewrite X. reflexivity. }
    split; [exact I4|]. intros m g n i j G S. destruct (FF m g n i j G S) as (df & wf & vf & db & wb & vb & dm & t & e2 & _ & Lf & Lb & Ef & Eb & _ & _ & GM & DE & _).
    destruct (SOL m g _ _ e2 _ n i j G S Lf Lb DE) as (q & Gq & Sq & R). exists wf, vf, wb, vb, dm, t, e2, q. cbn [snd] in R. auto 10.
  Qed.

  (** ---- the states of corrected eigenvalues are saved ---- *)
  Definition three : list string := ["covariance_eigval_state"; "covariance_eigvec_state"; "ekfac_eigval_state"].
  Definition keyed (n : string) (s : lstate) : Prop := In n (dkeys (attrs s)).
  Definition kept (s : lstate) : Prop := In "covariance_state" (st_save s) /\ forall n, In n three -> (keyed n s -> In n (st_states s)) /\ (In n (st_states s) -> In n (st_save s)).
  Lemma k_attr n (s s1 : lstate) x : attr n s = (s1, Ok x) -> s1 = s /\ keyed n s.
  Proof. unfold attr. destruct (dget n (attrs s)) eqn:E; [|discriminate]. intros [= <- _]. split; [reflexivity|]. apply dget_In_keys. eauto. Qed.
  Lemma k_lift {A} (r : res A) (s s1 : lstate) x : lift r s = (s1, Ok x) -> s1 = s.
  Proof. unfold lift. intros [= <- _]. reflexivity. Qed.
  Definition grows (s s1 : lstate) : Prop := forall n, keyed n s -> keyed n s1.
  Lemma k_set n x (s s1 : lstate) : kept s -> keyed n s \/ ~ In n three -> set_attr n x s = (s1, Ok tt) -> kept s1 /\ grows s s1.
  Proof.
    intros (K1 & K2) Hn E. unfold set_attr in E. injection E as <-. unfold keyed in *. split; [|intros k I; cbn; apply In_dkeys_dset; right; exact I].
    split; [exact K1|]. intros k I. destruct (K2 k I) as [K3 K4]. split; [|exact K4]. intros J. unfold keyed in J. cbn in J. apply In_dkeys_dset in J as [->|J]; [|exact (K3 J)]. destruct Hn as [Hn|Hn]; [exact (K3 Hn)|contradiction].
  Qed.
  Lemma k_reg n sy sv nc (s s1 : lstate) : kept s -> sv = true \/ ~ In n three -> register_state n sy sv nc s = (s1, Ok tt) -> kept s1 /\ grows s s1.
  Proof.
    intros (K1 & K2) Hn E. unfold register_state in E. destruct (mem n (st_states s)); injection E as <-; [split; [split; assumption|intros k I; exact I]|]. unfold keyed in *. split; [|intros k I; unfold keyed; cbn; apply In_dkeys_dset; right; exact I]. split.
    - cbn. destruct sv; [apply in_or_app; left|]; exact K1.
    - intros k I. destruct (K2 k I) as [K3 K4]. unfold keyed. cbn. split.
      + intros J. apply In_dkeys_dset in J as [->|J]; [left; reflexivity|right; exact (K3 J)].
      + intros [<-|J]; [destruct Hn as [->|Hn]; [apply in_or_app; right; left; reflexivity|contradiction]|]. specialize (K4 J). destruct sv; [apply in_or_app; left|]; exact K4.
  Qed.
  Lemma k_svd (s s1 : lstate) : kept s -> covariance_svd eigh s = (s1, Ok tt) -> kept s1.
  Proof.
    intros K E. unfold covariance_svd in E. apply sbind_ok in E as (s2 & [] & E2 & E). apply sbind_ok in E as (s3 & [] & E3 & E). apply sbind_ok in E as (s4 & cs & E4 & E). apply sbind_ok in E as (s5 & l & E5 & E).
    destruct (k_reg _ _ _ _ _ _ K (or_introl eq_refl) E2) as (K2 & _). destruct (k_reg _ _ _ _ _ _ K2 (or_introl eq_refl) E3) as (K3 & _). apply k_attr in E4 as (-> & _). apply k_lift in E5 as ->. clear - K3 E.
    revert s3 K3 E. induction l as [|[[m k] d] l IH]; intros s K E; cbn [seach] in E; [injection E as <-; exact K|]. apply sbind_ok in E as (s2 & [] & E1 & E). apply (IH s2); [|exact E]. clear - E1 K.
    apply sbind_ok in E1 as (q1 & ? & X & E1). apply k_lift in X as ->. apply sbind_ok in E1 as (q2 & ? & X & E1). apply k_attr in X as (-> & Y1). apply sbind_ok in E1 as (q3 & ? & X & E1). apply k_lift in X as ->. apply sbind_ok in E1 as (q4 & [] & X & E1). destruct (k_set _ _ _ _ K (or_introl Y1) X) as (K4 & _).
    apply sbind_ok in E1 as (q5 & ? & X5 & E1). apply k_attr in X5 as (-> & Y2). apply sbind_ok in E1 as (q6 & ? & X6 & E1). apply k_lift in X6 as ->. exact (proj1 (k_set _ _ _ _ K4 (or_introl Y2) E1)).
  Qed.
  Lemma k_update b m off (s s1 : lstate) : kept s -> corrected_eigval_update eigh b m None off s = (s1, Ok tt) -> kept s1.
  Proof.
    intros K E. unfold corrected_eigval_update in E. apply sbind_ok in E as (q0 & v0 & X0 & E). unfold sget in X0. injection X0 as <- <-. apply sbind_ok in E as (q1 & [] & X1 & E).
    assert (K1 : kept q1).
    { destruct (hasattr _ s); [injection X1 as <-; exact K|]. apply sbind_ok in X1 as (y1 & [] & A1 & X1). apply sbind_ok in X1 as (y2 & [] & A2 & X1). apply sbind_ok in X1 as (y3 & [] & A3 & X1).
      pose proof (k_svd _ _ K A1) as Z1. destruct (k_reg _ _ _ _ _ _ Z1 (or_introl eq_refl) A2) as (Z2 & _).
      assert (NC : ~ In "ekfac_counter" three) by (cbn; intuition discriminate). destruct (k_reg _ _ _ _ _ _ Z2 (or_intror NC) A3) as (Z3 & _). unfold register_normalize_pair in X1. destruct (mem _ _); injection X1 as <-; exact Z3. }
    clear X1 K. apply sbind_ok in E as (q2 & ec & X & E). apply k_attr in X as (-> & _). apply sbind_ok in E as (q2 & ev & X & E). apply k_attr in X as (-> & _). apply sbind_ok in E as (q2 & ks & X & E). apply k_attr in X as (-> & Yk). apply sbind_ok in E as (q2 & kc & X & E). apply k_attr in X as (-> & _).
    apply sbind_ok in E as (q2 & [] & X & E). injection X as <-. apply sbind_ok in E as (q2 & d & X & E). apply k_lift in X as ->. apply sbind_ok in E as (q2 & [] & X & E).
    assert (NC : ~ In "ekfac_counter" three) by (cbn; intuition discriminate).
    assert (K2 : kept q2).
    { destruct (nd_has _ _); [injection X as <-; exact K1|]. cbv zeta in X. apply sbind_ok in X as (y1 & ks' & A1 & X). apply k_lift in A1 as ->. apply sbind_ok in X as (y2 & [] & A2 & X). destruct (k_set _ _ _ _ K1 (or_introl Yk) A2) as (Z1 & _). apply sbind_ok in X as (y3 & kc' & A3 & X). apply k_lift in A3 as ->. exact (proj1 (k_set _ _ _ _ Z1 (or_intror NC) X)). }
    clear X K1 Yk q1. apply sbind_ok in E as (q3 & fw & X & E). apply k_lift in X as ->. apply sbind_ok in E as (q3 & bw & X & E). apply k_lift in X as ->. apply sbind_ok in E as (q3 & ks2 & X & E). apply k_attr in X as (-> & Yk). apply sbind_ok in E as (q3 & old & X & E). apply k_lift in X as ->. apply sbind_ok in E as (q3 & sq & X & E). apply k_lift in X as ->.
    apply sbind_ok in E as (q3 & [] & X & E).
    assert (K3 : kept q3). { destruct off; apply sbind_ok in X as (y1 & nw & A1 & X); apply k_lift in A1 as ->; apply sbind_ok in X as (y2 & ks3 & A2 & X); apply k_lift in A2 as ->; exact (proj1 (k_set _ _ _ _ K2 (or_introl Yk) X)). }
    apply sbind_ok in E as (q4 & n & X4 & E). apply k_lift in X4 as ->. apply sbind_ok in E as (q4 & kc2 & X4 & E). apply k_attr in X4 as (-> & _). apply sbind_ok in E as (q4 & c & X4 & E). apply k_lift in X4 as ->. apply sbind_ok in E as (q4 & c' & X4 & E). apply k_lift in X4 as ->.
    apply sbind_ok in E as (q4 & kc3 & X4 & E). apply k_lift in X4 as ->. exact (proj1 (k_set _ _ _ _ K3 (or_intror NC) E)).
  Qed.
  Lemma k_calls es : forall s s1 : lstate, kept s -> run_ecalls eigh es s = (s1, Ok tt) -> kept s1.
  Proof.
    induction es as [|e es IH]; intros s s1 K E; [injection E as <-; exact K|]. unfold run_ecalls in *. cbn [seach] in E. apply sbind_ok in E as (s2 & [] & E1 & E). exact (IH s2 s1 (k_update _ _ _ _ _ K E1) E).
  Qed.
  Lemma k_finalize dk dk' (s s1 : lstate) : kept s -> finalize dk s = (s1, Ok dk') -> kept s1.
  Proof.
    intros K E. unfold finalize in E. apply sbind_ok in E as (s2 & [] & E1 & E).
    assert (s2 = s1) as <-. { unfold save_state in E. unfold sbind at 1 in E. unfold sget at 1 in E. unfold sbind, lift, sret in E. destruct (foldM _ _ _); [|discriminate E]. injection E as -> _. reflexivity. }
    clear E. unfold normalize in E1. apply sbind_ok in E1 as (q & v & X & E1). unfold sget in X. injection X as <- <-. revert E1. generalize (st_norm s). intros l. revert s K. induction l as [|p l IH]; intros s K E; cbn [seach] in E; [injection E as <-; exact K|].
    apply sbind_ok in E as (q & [] & E1 & E). apply (IH q); [|exact E]. apply sbind_ok in E1 as (y & x & X & E1). apply k_attr in X as (-> & Y). apply sbind_ok in E1 as (y & c & X & E1). apply k_attr in X as (-> & _). destruct (normalize_nd x c) as [x' o]. apply sbind_ok in E1 as (y & [] & X & E1). apply k_lift in E1 as ->. exact (proj1 (k_set _ _ _ _ K (or_introl Y) X)).
  Qed.
  Lemma k_inv5 (s : lstate) : inv5 s -> kept s.
  Proof.
    intros (R & K & _). assert (RS : st_save s = st_save (@state_init F)). { revert R. unfold registries. generalize (@state_init F). intros i E. injection E as _ _ -> _ _. reflexivity. }
    split; [rewrite RS; vm_compute; auto 10|]. intros n I. assert (St : st_states s = st_states (@state_init F)). { revert R. unfold registries. generalize (@state_init F). intros i E. injection E as -> _ _ _ _. reflexivity. }
    unfold keyed. rewrite K, St. split; intros J; exfalso; revert J; destruct I as [<-|[<-|[<-|[]]]]; vm_compute; intuition discriminate.
  Qed.
  Lemma reopened_eig dk0 dk (s s0 : lstate) C EC E : kept s -> save_state dk0 s = (s, Ok dk) -> ekfac_state s C EC E -> exists s1, load_state dk s0 = (s1, Ok tt) /\ ekfac_state s1 C EC E.
  Proof.
    intros (K1 & K2) SV ((H1 & H2) & (H3 & H4) & H5 & H6 & H7).
    assert (AL : forall n, In n (st_save s) -> dget n (attrs s) <> None).
    { unfold save_state in SV. unfold sbind at 1 in SV. unfold sget at 1 in SV. unfold sbind, lift, sret in SV. destruct (foldM _ _ _) as [z|] eqn:FM; [|discriminate SV]. clear - FM. revert dk0 FM. induction (st_save s) as [|b l IH]; intros dk0 FM n I; cbn [foldM] in FM; [destruct I|]. destruct I as [I|I].
      - subst n. destruct (dget b (attrs s)); [discriminate|discriminate FM].
      - destruct (dget b (attrs s)); [|discriminate FM]. cbn in FM. exact (IH _ FM n I). }
    destruct (save_load dk0 s s0 AL) as (dk' & s1 & E1 & E2 & _ & _ & _ & _ & _ & V & _). rewrite SV in E1. injection E1 as <-. exists s1. split; [exact E2|].
    assert (SVD : forall n x, In n three -> dget n (attrs s) = Some x -> dget n (attrs s1) = Some x).
    { intros n x I G. rewrite <- G. apply V. destruct (K2 n I) as [Z1 Z2]. apply Z2, Z1. apply dget_In_keys. eauto. }
    split; [split; [rewrite (V _ K1); exact H1|exact H2]|]. split; [split; [apply SVD; [cbn; auto|exact H3]|exact H4]|]. split; [|split; [apply SVD; [cbn; auto|exact H6]|exact H7]].
    destruct (dget "covariance_eigval_state" (attrs s)) as [x|] eqn:G; [|congruence]. rewrite (SVD _ x); [discriminate|cbn; auto|exact G].
  Qed.
  Lemma finished_epoch a steps (p p' : tr) : tr_mode p = "log" -> do_epoch a steps p = (p', Ok tt) -> exists c, lm_conf (tr_lm p') = Some c.
  Proof.
    intros M E3. unfold ModelTrainer.do_epoch in E3. apply sbind_ok in E3 as (p4 & [] & E4 & E3). apply sbind_ok in E3 as (p5 & [] & E5 & E6).
    assert (M5 : tr_mode p5 = "log").
    { pose proof (fr_epoch_begin rnd svd _ _ _ E4) as (M4 & _). rewrite M in M4. clear - E5 M4. revert p4 M4 E5. induction steps as [|s steps IH]; intros p4 M4 E5; cbn [seach] in E5; [injection E5 as <-; exact M4|]. apply sbind_ok in E5 as (q & [] & Es & E5). apply fr_do_step in Es as (Es & _). apply (IH q); [congruence|exact E5]. }
    unfold on_epoch_end in E6. unfold sbind at 1 in E6. unfold sget at 1 in E6. rewrite M5 in E6. change (String.eqb "log" "log") with true in E6. cbv iota in E6. unfold on_tlm, lm_finalize, sbind, on_x in E6.
    destruct (lx_finalize (lm_x (tr_lm p5))) as [x2 [[]|e]] eqn:EF; [|discriminate E6]. injection E6 as <-. eexists; reflexivity.
  Qed.
  Notation testing := (testing rnd svd kind eigh enc show tok hash).
  (** everything a later process finds *)
  Lemma left_behind ms a p steps1 p2 steps2 sids (M : tlog) p' : new_run "ekfac" ms a p -> first_epoch a p steps1 -> let cs := factor_calls kind a p steps1 in Forall call_ok cs ->
    do_epoch a steps1 (tr_set_mode p "log") = (p2, Ok tt) -> training ms a p2 steps2 sids M -> extract_log a [steps1; steps2] p = (p', Ok tt) ->
    exists C EC E dk0 c, log_batches dec show (ha_bs a) (x_dir (lm_x (tr_lm p'))) = Ok (batches 0 (map (@length string) (chunks (ha_bs a) sids)) sids (regrad ms M)) /\
      ekfac_state (x_state (lm_x (tr_lm p'))) C EC E /\ eig_facts eigh cs ms M C EC E /\ kept (x_state (lm_x (tr_lm p'))) /\ save_state dk0 (x_state (lm_x (tr_lm p'))) = (x_state (lm_x (tr_lm p')), Ok (x_disk (lm_x (tr_lm p')))) /\ lm_conf (tr_lm p') = Some c.
  Proof.
    intros HN HE cs HC E1 HT EX. destruct (extract_ekfac rnd svd kind wsize eigh inverse fsqrt enc dec show tok hash ms a p steps1 p2 steps2 sids M HN HE HC E1 HT) as (q & C & EC & E & E2 & EA & ES & LB & KS & EF). rewrite EX in E2. injection E2 as <-. fold cs in EF.
    destruct (first_run rnd svd kind wsize eigh inverse fsqrt enc dec show tok hash ms a p steps1 HN HE HC) as (q & Eq & Mo & Sc & A1 & S1 & HR & Dq & Sq & FA). rewrite E1 in Eq. injection Eq as <-.
    destruct HN as (_ & Ei & _ & _ & HF & SV). rewrite <- Dq in HF. rewrite <- Sq in SV.
    assert (E3 : do_epoch a steps2 p2 = (p', Ok tt)).
    { unfold ModelTrainer.extract_log, set_mode in EX. erewrite sbind_run in EX by reflexivity. unfold do_train, ModelTrainer.on_train_begin in EX. rewrite Ei in EX. cbn [seach] in EX. unfold sbind at 1 in EX. unfold sbind at 1 in EX. cbn [sget] in EX. unfold sbind at 1 in EX. cbn in EX. unfold sbind in EX. rewrite E1 in EX. destruct (do_epoch a steps2 p2) as [z [[]|e]]; [exact EX|discriminate EX]. }
    destruct (second_saves (factor_calls kind a p steps1) ms a p2 steps2 sids M p' Mo Sc (conj HR (conj HF (conj SV FA))) HT E3) as (ecs & x1 & RE & Fi). destruct (finished_epoch a steps2 p2 p' Mo E3) as (c & EC1).
    destruct (finalize_saves x1 _ Fi) as (dk0 & SV2). exists C, EC, E, dk0, c. split; [exact LB|]. split; [exact KS|]. split; [exact EF|]. split; [|split; assumption].
    pose proof (k_calls _ _ _ (k_inv5 _ (proj1 FA)) RE) as K. unfold lx_finalize in Fi. apply sbind_ok in Fi as (y & [] & F1 & Fi). destruct (finalize (x_disk x1) (x_state x1)) as [s' [dk|e]] eqn:EF1; [|discriminate F1]. injection F1 as <-.
    apply (k_finalize _ _ _ _ K) in EF1. destruct (saver_finalize _ _) as [[d' sv] o]. injection Fi as Fi _. apply (f_equal x_state) in Fi. cbn in Fi. rewrite <- Fi. exact EF1.
  Qed.
  Theorem reopened_ekfac ms a p steps1 (p2 : tr) steps2 sids (M : tlog) p' r a2 epochs qids (Q : tlog) d p0 ls x1 ks :
    new_run "ekfac" ms a p -> first_epoch a p steps1 -> let cs := factor_calls kind a p steps1 in Forall call_ok cs ->
    do_epoch a steps1 (tr_set_mode p "log") = (p2, Ok tt) -> training ms a p2 steps2 sids M -> matrices ms M ->
    extract_log a [steps1; steps2] p = (p', Ok tt) -> reopened p' r -> ha_init a2 = true -> ha_bs a2 = ha_bs a -> on_train_begin a2 (tr_set_mode r "influence") = (p0, Ok tt) ->
    Forall (fun l => l <> []) (concat epochs) -> trained a2 (lm_x (tr_lm p0)) (concat (concat epochs)) ls x1 -> map as_nest ls = batches 0 ks qids Q -> splits ks (length qids) ->
    uniform (length qids) Q -> ok_log Q -> (forall m, In m (dkeys Q) -> factored cs Q m) ->
    ha_imode a2 = "dot" -> ha_damping a2 = Some d -> fle f0 d -> d <> f0 -> eigh_contract eigh ->
    groups_ok (ha_groups a2) -> groups_hit (ha_groups a2) (dkeys Q) -> Q <> [] -> plain_log Cpu (length qids) Q -> within Q M -> (forall m, In m ms -> In m (dkeys Q)) ->
    exists pf o P C EC E, influence a2 epochs r = (pf, Ok (Some o)) /\ tr_scores pf = Some o /\
      saved (tr_ifn pf) (InfRes qids sids (final (fun l => score_matrix P M l (length qids) (length sids)) (ha_groups a2) (dkeys Q))) /\
      dkeys P = dkeys Q /\ ekfac_state (x_state (lm_x (tr_lm p'))) C EC E /\
      (forall m g n i j, grad_of Q m = Some (Cpu, g) -> shape g = [n; i; j] ->
         exists wf vf wb vb dm t e q, eigh (factor cs m "forward") = Ok (wf, vf) /\ eigh (factor cs m "backward") = Ok (wb, vb) /\ grad_of M m = Some (dm, t) /\
           dget m E = Some (e, mean_squares vb vf t) /\ grad_of P m = Some (Cpu, q) /\ shape q = shape g /\
           forall k, k < n -> eig_row (if dev_eqb e Cpu then fmul (fnat (S (step_of (step_sizes (map (@length _) (concat epochs)) ks) k))) d else d) vb vf (mean_squares vb vf t) (slice q k) (slice g k) i j).
  Proof.
    intros HN HE cs HC E1 HT HM EX RO AI AB EB HEp T1 EL SP UQ OQ FD Em Ed D0 D1 IC GO GH NQ PQ WI SUB. pose proof RO as (_ & _ & NR & _ & _ & PR).
    destruct (left_behind ms a p steps1 p2 steps2 sids M p' HN HE HC E1 HT EX) as (C & EC & E & dk0 & c & LB & KS & EF & K & SV & Ec). fold cs in EF.
    destruct (reopened_eig dk0 _ _ (x_state (lm_x (tr_lm r))) C EC E K SV KS) as (s1 & LS & KS1). destruct (reopened_init rnd svd p' r s1 c RO Ec LS) as (l & EI & X1 & X2).
    rewrite (influence_same rnd svd kind eigh inverse fsqrt enc dec show tok hash a2 epochs r l AI EI).
    destruct HT as (NE & ND & HI & HB & NDs & HO & (dt & e & exact & CD & ST) & _ & _ & _ & ks' & _ & _ & _ & SP'). pose proof (splits_ne ks' sids SP') as NS.
    destruct (ekfac_at cs ms (no_init a2) p (with_lm r l) a steps1 sids M epochs qids Q d p0 ls x1 ks exact C EC E) as (pf & o & P & Y); try assumption; try reflexivity.
    - change (ha_bs (no_init a2)) with (ha_bs a2). rewrite AB. exact HB.
    - change (lm_x (tr_lm (with_lm r l))) with (lm_x l). change (ha_bs (no_init a2)) with (ha_bs a2). rewrite X2, AB. exact LB.
    - change (lm_x (tr_lm (with_lm r l))) with (lm_x l). rewrite X1. exact KS1.
    - rewrite <- (begin_same rnd svd a2 r l AI EI). exact EB.
    - apply trained_same. exact T1.
    - exists pf, o, P, C, EC, E. destruct Y as (Y1 & Y2 & Y3 & Y4 & Y5). auto 10.
  Qed.
  Lemma epoch_bs b a steps (p p' : tr) : tr_mode p = "log" -> do_epoch a steps p = (p', Ok tt) -> do_epoch (with_bs b a) steps p = (p', Ok tt).
  Proof.
    intros M E3. unfold ModelTrainer.do_epoch in E3. apply sbind_ok in E3 as (p4 & [] & E4 & E3). apply sbind_ok in E3 as (p5 & [] & E5 & E6). pose proof (fr_epoch_begin rnd svd _ _ _ E4) as (M4 & _). rewrite M in M4.
    assert (E5' : seach (do_step kind eigh inverse fsqrt enc dec show tok hash (with_bs b a)) steps p4 = (p5, Ok tt)).
    { clear - E5 M4. revert p4 M4 E5. induction steps as [|s steps IH]; intros p4 M4 E5; cbn [seach] in *; [exact E5|]. apply sbind_ok in E5 as (q1 & [] & Es & E5). unfold sbind. rewrite <- (step_bs kind eigh inverse fsqrt enc dec show tok hash b a s p4 M4), Es. apply IH; [|exact E5]. apply fr_do_step in Es as (Es & _). congruence. }
    unfold ModelTrainer.do_epoch, sbind. rewrite E4, E5'. exact E6.
  Qed.
  Theorem reopened_ekfac_any ms a p steps1 (p2 : tr) steps2 sids (M : tlog) p' r a2 epochs qids (Q : tlog) d p0 ls x1 ks :
    new_run "ekfac" ms a p -> first_epoch a p steps1 -> let cs := factor_calls kind a p steps1 in Forall call_ok cs ->
    do_epoch a steps1 (tr_set_mode p "log") = (p2, Ok tt) -> training ms a p2 steps2 sids M -> matrices ms M ->
    extract_log a [steps1; steps2] p = (p', Ok tt) -> reopened p' r -> ha_init a2 = true -> 0 < ha_bs a2 -> on_train_begin a2 (tr_set_mode r "influence") = (p0, Ok tt) ->
    Forall (fun l => l <> []) (concat epochs) -> trained a2 (lm_x (tr_lm p0)) (concat (concat epochs)) ls x1 -> map as_nest ls = batches 0 ks qids Q -> splits ks (length qids) ->
    uniform (length qids) Q -> ok_log Q -> (forall m, In m (dkeys Q) -> factored cs Q m) ->
    ha_imode a2 = "dot" -> ha_damping a2 = Some d -> fle f0 d -> d <> f0 -> eigh_contract eigh ->
    groups_ok (ha_groups a2) -> groups_hit (ha_groups a2) (dkeys Q) -> Q <> [] -> plain_log Cpu (length qids) Q -> within Q M -> (forall m, In m ms -> In m (dkeys Q)) ->
    exists pf o P C EC E, influence a2 epochs r = (pf, Ok (Some o)) /\ tr_scores pf = Some o /\
      saved (tr_ifn pf) (InfRes qids sids (final (fun l => score_matrix P M l (length qids) (length sids)) (ha_groups a2) (dkeys Q))) /\
      dkeys P = dkeys Q /\ ekfac_state (x_state (lm_x (tr_lm p'))) C EC E /\
      (forall m g n i j, grad_of Q m = Some (Cpu, g) -> shape g = [n; i; j] ->
         exists wf vf wb vb dm t e q, eigh (factor cs m "forward") = Ok (wf, vf) /\ eigh (factor cs m "backward") = Ok (wb, vb) /\ grad_of M m = Some (dm, t) /\
           dget m E = Some (e, mean_squares vb vf t) /\ grad_of P m = Some (Cpu, q) /\ shape q = shape g /\
           forall k, k < n -> eig_row (if dev_eqb e Cpu then fmul (fnat (S (step_of (step_sizes (map (@length _) (concat epochs)) ks) k))) d else d) vb vf (mean_squares vb vf t) (slice q k) (slice g k) i j).
  Proof.
    intros HN HE cs HC E1 HT HM EX RO AI AB. unfold cs in *. pose proof HN as (_ & Ei & _).
    destruct (first_run rnd svd kind wsize eigh inverse fsqrt enc dec show tok hash ms a p steps1 HN HE HC) as (q & Eq & Mo & _). rewrite E1 in Eq. injection Eq as <-.
    set (ab := with_bs (ha_bs a2) a). pose proof (epoch_bs (ha_bs a2) a steps1 (tr_set_mode p "log") p2 eq_refl E1) as E1b.
    assert (HEb : first_epoch ab p steps1). { destruct HE as (Z1 & Z2 & p1 & l1 & y1 & Z3 & Z4). split; [exact Z1|]. split; [exact Z2|]. exists p1, l1, y1. split; [exact Z3|]. apply trained_bs. exact Z4. }
    assert (EXb : extract_log ab [steps1; steps2] p = (p', Ok tt)).
    { assert (U : forall a0, ha_init a0 = false -> do_epoch a0 steps1 (tr_set_mode p "log") = (p2, Ok tt) -> extract_log a0 [steps1; steps2] p = match do_epoch a0 steps2 p2 with (z, Ok _) => (z, Ok tt) | (z, Err e) => (z, Err e) end).
      { intros a0 I0 X0. unfold ModelTrainer.extract_log, set_mode. erewrite sbind_run by reflexivity. unfold do_train, ModelTrainer.on_train_begin. rewrite I0. cbn [seach]. unfold sbind at 1. unfold sbind at 1. cbn [sget]. unfold sbind at 1. cbn. unfold sbind. rewrite X0. destruct (do_epoch a0 steps2 p2) as [z [[]|e]]; reflexivity. }
      rewrite (U a Ei E1) in EX. rewrite (U ab Ei E1b). destruct (do_epoch a steps2 p2) as [z [[]|e]] eqn:E2; [|discriminate EX]. unfold ab. rewrite (epoch_bs (ha_bs a2) a steps2 _ _ Mo E2). exact EX. }
    rewrite <- (calls_bs kind (ha_bs a2)) in *.
    exact (reopened_ekfac ms ab p steps1 p2 steps2 sids M p' r a2 epochs qids Q d p0 ls x1 ks HN HEb HC E1b (training_bs rnd svd kind eigh enc dec show tok hash _ _ _ _ _ _ _ AB HT) HM EXb RO AI eq_refl).
  Qed.
End P.
