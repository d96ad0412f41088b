(** Whole runs with corrected eigenvalues: the logging run and the influence run. *)
From Coq Require Import ZArith Permutation Lia.
From Verif Require Import Py PyStr Field Tensor ModelGrad Monad ModelState ModelMmap ModelSaver ModelLoader ModelLogger ModelModules ModelLora ModelScheduler ModelInfluence ModelUtils ModelTrainer SpecGrad SpecState SpecStore SpecLogger SpecInfluence SpecRows SpecTrainer SpecDisk SpecWhole SpecDrift SpecEkfac StateProofs1 StateProofs3 StateProofs4 StateProofs5 StateProofs7 GradProofs1 LogProofs1 LogProofs8 LogProofs9 InfProofs5 InfProofs10 TrainProofs1 TrainProofs2 TrainProofs3 TrainProofs4 WatchProofs2 ViewProofs ViewProofs2 DiskProofs1 DiskProofs2 DiskProofs3 WholeProofs1 WholeProofs2 WholeProofs3 WholeProofs4 WholeProofs5 WholeProofs6 DriftProofs3 EkfacProofs1 EkfacProofs2 EkfacProofs3.
Local Open Scope string_scope.
Local Open Scope list_scope.
Local Open Scope nat_scope.

Section P.
  Context {F : Type} `{OField F}.
  Add Field ek4field : f_theory.
  Notation tensor := (tensor F).
  Notation dten := (@dten F).
  Notation lx := (@lx F).
  Notation lstate := (@lstate F).
  Notation tlog := (@tlog F).
  Notation tr := (@tr F).
  Context (rnd : mid -> list nat -> F) (svd : tensor -> res tensor) (kind : mid -> mkind) (wsize : mid -> nat).
  Context (eigh : tensor -> res (tensor * tensor)) (inverse : tensor -> res tensor) (fsqrt : F -> F).
  Context (enc : dten -> array) (dec : array -> dten) (show : did -> string).
  Context (tok : option (ModelUtils.data -> res (list string))) (hash : string -> string).
  Notation trained := (trained kind eigh enc show tok hash).
  Notation reachable := (reachable kind wsize eigh enc).
  Notation do_epoch := (do_epoch rnd svd kind eigh inverse fsqrt enc dec show tok hash).
  Notation extract_log := (extract_log rnd svd kind eigh inverse fsqrt enc dec show tok hash).
  Notation influence := (influence rnd svd kind eigh inverse fsqrt enc dec show tok hash).
  Notation new_run := (new_run kind wsize eigh enc).
  Notation first_epoch := (first_epoch rnd svd kind eigh enc show tok hash).
  Notation training := (training rnd svd kind eigh enc dec show tok hash).
  Notation on_epoch_begin := (on_epoch_begin rnd svd).
  Notation on_train_begin := (on_train_begin rnd svd).

  Lemma begun2_reachable (x : lx) : reachable x -> reachable (begun2 x).
  Proof.
    intros HR. assert (R1 : reachable (with_saves x true (x_save_batch x))) by (apply (reachable_op kind wsize eigh enc (XSave true) x _ (Ok tt) HR); reflexivity).
    apply (reachable_op kind wsize eigh enc (XSetup [("forward", []); ("backward", []); ("grad", [AClass PLog; AClass PCorrectedEigval])]) _ _ (Ok tt) R1). reflexivity.
  Qed.
  Definition eig_facts (cs : list (@call F)) (ms : list string) (M C EC : tlog) (E : dict string dten) : Prop :=
    (forall m t, calls_for SCov m t cs = [] -> look C m t = None /\ look EC m t = None) /\
    (forall m t, calls_for SCov m t cs <> [] -> exists dv w v, look C m t = Some (dv, divided_again cs m t) /\ eigh (factor cs m t) = Ok (w, v) /\ look EC m t = Some (dv, v)) /\
    (forall m, In m ms -> exists dv vf vb d t, look EC m "forward" = Some vf /\ look EC m "backward" = Some vb /\ grad_of M m = Some (d, t) /\ dget m E = Some (dv, mean_squares (snd vb) (snd vf) t)) /\
    (forall m, ~ In m ms -> dget m E = None).
  Lemma second_run cs ms a (p2 : tr) steps sids (M : tlog) : tr_mode p2 = "log" -> tr_sched p2 = ekfac_sched 0 (skipn 1 ekfac_all) ->
    (let x := lm_x (tr_lm p2) in reachable x /\ fresh_dir (x_dir x) /\ (exists rank w thr, x_saver x = saver_init rank w thr (grad_paths ms) /\ (w <= 1)%Z) /\ factors cs (x_state x)) ->
    training ms a p2 steps sids M ->
    exists p' C EC E, do_epoch a steps p2 = (p', Ok tt) /\ tr_acc p' = tr_acc p2 /\ same_results p2 p' /\
      log_batches dec show (ha_bs a) (x_dir (lm_x (tr_lm p'))) = Ok (batches 0 (map (@length string) (chunks (ha_bs a) sids)) sids (regrad ms M)) /\
      ekfac_state (x_state (lm_x (tr_lm p'))) C EC E /\ eig_facts cs ms M C EC E.
  Proof.
    intros Mo Sc (HR & HF & (rank & w & thr & Es & Hw) & FA) (NE & ND & HI & HB & NDs & HO & (dt & e & exact & CD & ST) & p1 & ls & x1 & ks & EB & T1 & EL & SP).
    pose proof EB as E1. rewrite (second_begins rnd svd p2 Sc) in E1. injection E1 as E1. set (x0 := begun2 (lm_x (tr_lm p2))) in *.
    assert (X0 : lm_x (tr_lm p1) = x0) by (rewrite <- E1; reflexivity). rewrite X0 in T1.
    pose proof (batches_parts M ks 0 sids ls EL) as EP. destruct (trained_logged kind eigh enc show tok hash a x0 x1 _ ls T1 (parts 0 ks M) EP) as (bs & B1 & B2).
    assert (HR0 : reachable x0) by exact (begun2_reachable _ HR). pose proof (batch_own a _ _ B1 HO) as HW. destruct SP as (SP1 & SP2 & SP3).
    assert (HG : Forall good_grads (parts 0 ks M)) by (apply (parts_good exact ms (length sids) M ST HI); [exact SP2|lia]).
    destruct (logged_eig kind wsize eigh enc bs (parts 0 ks M) x0 x1 B2 HR0 eq_refl HW) as (HL & _ & HLen & HN).
    set (ecs := epoch_ecalls (x_offload x0) bs (parts 0 ks M)) in *.
    assert (NDM : NoDup (dkeys M)). { destruct ks as [|k ks]; [congruence|]. cbn [parts] in HN. apply Forall_inv in HN. rewrite part_keys in HN. exact HN. }
    assert (Lk : length bs = length ks). { rewrite <- HLen. clear. generalize 0. induction ks as [|k ks IH]; intros o; [reflexivity|]. cbn [parts length]. rewrite IH. reflexivity. }
    destruct ST as (U & U2 & ST).
    assert (ON : forall m, In m ms -> exists d t k rest, grad_of M m = Some (d, t) /\ shape t = length sids :: k :: rest /\ grads_for m ecs = samples t /\ on_module m ecs <> []).
    { intros m J. destruct (ST m J) as (d & t & k & rest & G & S & _ & _). exists d, t, k, rest. split; [exact G|]. split; [exact S|].
      destruct (epoch_on (x_offload x0) m M d t (length sids) (k :: rest) NDM G S ks bs 0 Lk ltac:(lia)) as [I1 I2]. split; [|exact (I2 SP1)]. unfold ecs. rewrite I1, SP3. unfold samples, batch_size. rewrite S. reflexivity. }
    assert (OFF : forall m, ~ In m ms -> on_module m ecs = []). { intros m J. apply epoch_off. intros Q. apply J, HI, Q. }
    destruct ecs as [|e0 es0] eqn:Ee. { exfalso. destruct ms as [|m ms']; [congruence|]. destruct (ON m (or_introl eq_refl)) as (? & ? & ? & ? & _ & _ & _ & Q). apply Q. reflexivity. }
    assert (GW : Forall grad_wf (e0 :: es0)) by (rewrite <- Ee; apply epoch_gwf; exact HG).
    destruct FA as [I5 FA]. change (x_state x0) with (x_state (lm_x (tr_lm p2))) in HL.
    destruct (ekfac_struct eigh (x_disk x1) _ e0 es0 _ I5 GW HL) as (s' & dk' & C & EC & E & Ef & KS & LC & LE & NO & YES).
    (* finalize of the saver *)
    assert (Sv : x_save x0 = true) by reflexivity. assert (Esx : x_saver x0 = saver_init rank w thr (grad_paths ms)) by exact Es.
    assert (SE0 : settle x0 = x_saver x0) by (apply settle_empty; rewrite Esx; reflexivity). assert (TD0 : two_deep (s_buffer (x_saver x0))) by (rewrite Esx; intros i b; discriminate).
    assert (Fi : exists x2, lx_finalize x1 = (x2, Ok tt) /\ x_state x2 = s').
    { destruct (trained_saves kind eigh enc show tok hash a _ _ _ _ Sv SE0 TD0 T1) as (gs & El & J & SB & _ & SE). rewrite El in EL. destruct (cut_ids enc show M ks gs sids EL) as (Q1 & Q2); [congruence|]. set (ids := concat (map fst gs)) in *.
      pose proof EL as EL2. rewrite Q1 in EL2. rewrite (written_batches enc show M ids ks 0 gs EL2 Q2) in SB. rewrite Esx in SB.
      assert (J2 : Forall json_id ids). { unfold ids. clear - J. induction J as [|g gs (sl & E) J IH]; [constructor|]. cbn [map concat]. rewrite E. apply Forall_app. split; [|exact IH]. apply Forall_forall. intros d I0. apply in_map_iff in I0. destruct I0 as (s & <- & _). exact Logic.I. }
      assert (Li : length ids = length sids) by (rewrite Q1, map_length; reflexivity).
      destruct (read_back dt e exact enc dec CD show ms (length sids) M (conj U (conj U2 ST)) rank w thr (x_dir x0) ks ids (ha_bs a) NE ND HF Hw J2) as (d' & sv' & R1 & R2); auto.
      { apply (nodup_map show). rewrite <- Q1. exact NDs. }
      unfold save_run in R1. rewrite SB in R1. unfold lx_finalize. unfold sbind at 1. rewrite Ef. cbv beta iota.
      match goal with |- context [settle ?z] => change (settle z) with (settle x1) end. rewrite SE. match goal with |- context [saver_finalize ?z _] => change z with (x_dir x1) end.
      rewrite R1. eexists. split; [reflexivity|]. reflexivity. }
    destruct Fi as (x2 & Fi & Sx2). rewrite (set_log p2 Mo) in EB.
    destruct (epoch_written rnd svd kind eigh inverse fsqrt enc dec show tok hash dt e exact ms (length sids) M a steps p2 p1 rank w thr ls x1 x2 ks sids) as (p' & K1 & K2 & K3 & K4 & K5); auto; try (rewrite X0; assumption). { exact (conj U (conj U2 ST)). }
    pose proof (finalize_trained rnd svd kind eigh inverse fsqrt enc dec show tok hash a p2 p1 steps ls x1 x2 Mo EB ltac:(rewrite X0; exact T1) Fi) as K6. rewrite K1 in K6. apply (f_equal fst) in K6. cbn [fst] in K6.
    exists p', C, EC, E. split; [exact K1|]. split; [rewrite K6, <- E1; reflexivity|]. split; [rewrite K6, <- E1; repeat split; reflexivity|]. rewrite K2. split; [exact K5|]. rewrite Sx2. split; [exact KS|].
    split; [|split; [|split]].
    - intros m t Nc. destruct (FA m t) as [FA1 _]. specialize (FA1 Nc). specialize (LC m t). specialize (LE m t). rewrite FA1 in LC, LE. split; [|exact LE]. destruct (look C m t); [discriminate LC|reflexivity].
    - intros m t Nc. destruct (FA m t) as [_ FA1]. destruct (FA1 Nc) as (dv & L1 & L2). specialize (LC m t). specialize (LE m t). rewrite L1 in LC, LE. rewrite L2 in LC. cbn [divide] in LC. destruct LE as (v & w' & Eg & LE). exists dv, v, w'. cbn [fst snd] in *. split; [|split; assumption].
      destruct (look C m t); [injection LC as ->; reflexivity|discriminate LC].
    - intros m J. destruct (ON m J) as (d & t & k & rest & G & S & Gs & No). destruct (YES m No) as (dv & df & db & u & v & k' & l & i & j & Lf & Lb & Su & Sv' & _ & De).
      exists dv, (df, v), (db, u), d, t. split; [exact Lf|]. split; [exact Lb|]. split; [exact G|]. rewrite De, Gs. unfold mean_squares. cbn [snd]. rewrite Su, Sv'. reflexivity.
    - intros m J. exact (NO m (OFF m J)).
  Qed.

  Theorem extract_ekfac ms a p steps1 (p2 : tr) steps2 sids (M : tlog) : new_run "ekfac" ms a p -> first_epoch a p steps1 -> let cs := factor_calls kind a p steps1 in Forall call_ok cs ->
    do_epoch a steps1 (tr_set_mode p "log") = (p2, Ok tt) -> training ms a p2 steps2 sids M ->
    exists p' C EC E, extract_log a [steps1; steps2] p = (p', Ok tt) /\ tr_acc p' = tr_acc p /\ same_results p p' /\
      log_batches dec show (ha_bs a) (x_dir (lm_x (tr_lm p'))) = Ok (batches 0 (map (@length string) (chunks (ha_bs a) sids)) sids (regrad ms M)) /\
      ekfac_state (x_state (lm_x (tr_lm p'))) C EC E /\ eig_facts cs ms M C EC E.
  Proof.
    intros HN HE cs HC E1 HT. destruct (first_run rnd svd kind wsize eigh inverse fsqrt enc dec show tok hash ms a p steps1 HN HE HC) as (q & Eq & Mo & Sc & A1 & S1 & HR & Dq & Sq & FA). rewrite E1 in Eq. injection Eq as <-.
    destruct HN as (_ & Ei & _ & _ & HF & SV). rewrite <- Dq in HF. rewrite <- Sq in SV.
    destruct (second_run cs ms a p2 steps2 sids M Mo Sc (conj HR (conj HF (conj SV FA))) HT) as (p' & C & EC & E & E2 & A2 & S2 & LB & KS & EF). exists p', C, EC, E.
    split. { unfold ModelTrainer.extract_log, set_mode. erewrite sbind_run by reflexivity. unfold do_train, on_train_begin. rewrite Ei. cbn [seach]. unfold sbind at 1. unfold sbind at 1. cbn [sget]. unfold sbind at 1. cbn. unfold sbind. rewrite E1, E2. reflexivity. }
    split; [congruence|]. split. { destruct S1 as (X1 & X2 & X3 & X4 & X5). destruct S2 as (Y1 & Y2 & Y3 & Y4 & Y5). repeat split; congruence. }
    split; [exact LB|]. split; assumption.
  Qed.
  Lemma lsum_squares {A} (f : A -> F) l : fle f0 (lsum (map (fun g => fmul (f g) (f g)) l)).
  Proof. induction l as [|y l IH]; [apply fle_refl|]. cbn [map]. unfold lsum in *. cbn [fold_right]. apply fadd_nonneg; [apply fsq_nonneg|exact IH]. Qed.

  Theorem influence_ekfac ms a p steps1 (p2 : tr) steps2 sids (M : tlog) p' epochs qids (Q : tlog) d p0 ls x1 ks :
    new_run "ekfac" ms a p -> first_epoch a p steps1 -> let cs := factor_calls kind a p steps1 in Forall call_ok cs ->
    do_epoch a steps1 (tr_set_mode p "log") = (p2, Ok tt) -> training ms a p2 steps2 sids M -> no_results p -> matrices ms M ->
    extract_log a [steps1; steps2] p = (p', Ok tt) -> on_train_begin a (tr_set_mode p' "influence") = (p0, Ok tt) ->
    Forall (fun l => l <> []) (concat epochs) -> trained a (lm_x (tr_lm p0)) (concat (concat epochs)) ls x1 -> map as_nest ls = batches 0 ks qids Q -> splits ks (length qids) ->
    uniform (length qids) Q -> ok_log Q -> (forall m, In m (dkeys Q) -> factored cs Q m) ->
    ha_imode a = "dot" -> ha_damping a = Some d -> fle f0 d -> d <> f0 -> eigh_contract eigh ->
    groups_ok (ha_groups a) -> groups_hit (ha_groups a) (dkeys Q) -> Q <> [] -> plain_log Cpu (length qids) Q -> within Q M -> (forall m, In m ms -> In m (dkeys Q)) ->
    exists pf o P C EC E, influence a epochs p' = (pf, Ok (Some o)) /\ tr_scores pf = Some o /\
      saved (tr_ifn pf) (InfRes qids sids (final (fun l => score_matrix P M l (length qids) (length sids)) (ha_groups a) (dkeys Q))) /\
      dkeys P = dkeys Q /\ ekfac_state (x_state (lm_x (tr_lm p'))) C EC E /\
      (forall m g n i j, grad_of Q m = Some (Cpu, g) -> shape g = [n; i; j] ->
         exists wf vf wb vb dm t e q, eigh (factor cs m "forward") = Ok (wf, vf) /\ eigh (factor cs m "backward") = Ok (wb, vb) /\ grad_of M m = Some (dm, t) /\
           dget m E = Some (e, mean_squares vb vf t) /\ grad_of P m = Some (Cpu, q) /\ shape q = shape g /\
           forall k, k < n -> eig_row (if dev_eqb e Cpu then fmul (fnat (S (step_of (step_sizes (map (@length _) (concat epochs)) ks) k))) d else d) vb vf (mean_squares vb vf t) (slice q k) (slice g k) i j).
  Proof.
    intros HN HE cs HC E1 HT NR HM EX EB HEp T1 EL SP UQ OQ FD Em Ed D0 D1 IC GO GH NQ PQ WI SUB.
    destruct (extract_ekfac ms a p steps1 p2 steps2 sids M HN HE HC E1 HT) as (q & C & EC & E & E2 & EA & ES & LB & KS & C0 & C1 & C2 & C3). rewrite EX in E2. injection E2 as <-. fold cs in C0, C1.
    destruct HT as (NE & ND & HI & HB & NDs & HO & (dt & e & exact & CD & ST) & _ & _ & _ & ks' & _ & _ & _ & SP'). pose proof (splits_ne ks' sids SP') as NS.
    destruct HN as (_ & Ei & _). destruct (begin_state rnd svd a p' p0 Ei EB) as [Bs Bd]. pose proof (acc_begin rnd svd a _ _ _ EB) as (_ & _ & _ & _ & A1 & A2). cbn [tr_set_mode tr_built tr_loader] in A1, A2.
    assert (NRp : no_results p'). { destruct NR as (N1 & N2 & N3 & N4). destruct ES as (Q1 & _ & _ & Q4 & Q5). repeat split; congruence. } destruct NRp as (R1 & R2 & R3 & R4).
    set (lds := map (@length string) (chunks (ha_bs a) sids)) in *.
    destruct (fresh_loader dec show a p0 (batches 0 lds sids (regrad ms M))) as (p3 & ED & _ & _); [congruence|congruence|rewrite Bd; exact LB|].
    assert (HG : forall m, In m ms -> exists x, grad_of M m = Some x) by (intros m I; destruct (HM m I) as (dd & t & n & i & j & G & _); eauto).
    pose proof (regrad_plain exact ms (length sids) M ND ST HM) as PB.
    assert (WB : within Q (regrad ms M)). { intros m x G. destruct (WI m x G) as ([dd t] & G2 & S2). assert (I : In m ms) by (apply HI; eapply look_in; exact G2). exists (Cpu, t). split; [apply (regrad_grad ms M m dd t I G2 ND)|exact S2]. }
    assert (GF : grad_first (regrad ms M)) by (destruct ms as [|m ms']; [congruence|reflexivity]).
    assert (SB : forall m, In m (dkeys (regrad ms M)) -> In m (dkeys Q)) by (intros m I; rewrite regrad_keys in I; exact (SUB m I)).
    pose proof (chunk_splits (ha_bs a) sids HB NS) as SC. fold lds in SC.
    assert (QM : forall m, In m (dkeys Q) -> In m ms). { intros m I. destruct PQ as (_ & PQ). destruct (PQ m I) as (x & i & j & G & _). destruct (WI m _ G) as (y & Gy & _). apply HI. eapply look_in. exact Gy. }
    assert (FF : forall m g n i j, grad_of Q m = Some (Cpu, g) -> shape g = [n; i; j] -> exists df wf vf db wb vb dm t e, look C m "forward" = Some (df, divided_again cs m "forward") /\ look EC m "forward" = Some (df, vf) /\ look EC m "backward" = Some (db, vb) /\ eigh (factor cs m "forward") = Ok (wf, vf) /\ eigh (factor cs m "backward") = Ok (wb, vb) /\
      orthogonal j vf /\ orthogonal i vb /\ grad_of M m = Some (dm, t) /\ dget m E = Some (e, mean_squares vb vf t) /\ In m (dkeys Q)).
    { intros m g n i j G S. assert (I : In m (dkeys Q)) by (eapply look_in; exact G). destruct (FD m I) as (dv & g' & n' & i' & j' & G' & S' & K). rewrite G in G'. injection G' as <- <-. rewrite S in S'. injection S' as <- <- <-.
      destruct (K "forward" j (or_introl eq_refl)) as (K1 & W1 & _). destruct (K "backward" i (or_intror (or_introl eq_refl))) as (K2 & W2 & _).
      destruct (C1 m "forward" K1) as (df & wf & vf & Lc & Ef & Le). destruct (C1 m "backward" K2) as (db & wb & vb & _ & Eb & Lb). destruct (C2 m (QM m I)) as (e2 & vf' & vb' & dm & t & L1 & L2 & GM & DE).
      rewrite Le in L1. injection L1 as <-. rewrite Lb in L2. injection L2 as <-. cbn [snd] in DE.
      assert (OO : forall n v c w, eigh c = Ok (w, v) -> symmetric n c -> orthogonal n v). { intros n0 v c w Ew SY. destruct (IC n0 c w v SY Ew) as (_ & Sv & _ & _ & O1 & O2 & _). split; [exact Sv|]. intros i0 j0 Li Lj. split; [apply O1; assumption|apply O2; assumption]. }
      exists df, wf, vf, db, wb, vb, dm, t, e2. split; [exact Lc|]. split; [exact Le|]. split; [exact Lb|]. split; [exact Ef|]. split; [exact Eb|]. split; [apply (OO j vf _ wf Ef); apply factor_facts; exact W1|]. split; [apply (OO i vb _ wb Eb); apply factor_facts; exact W2|]. auto. }
    assert (KD : forall m, In m (dkeys Q) -> ekfac_data Cpu EC E Q m).
    { intros m I. destruct PQ as (_ & PQ). destruct (PQ m I) as (g & i & j & G & S & W). destruct (FF m g (length qids) i j G S) as (df & wf & vf & db & wb & vb & dm & t & e2 & _ & Lf & Lb & _ & _ & Of & Ob & GM & DE & _).
      exists (length qids), i, j, g, (df, vf), (db, vb), (e2, mean_squares vb vf t). repeat (split; [assumption|]). cbn [snd]. unfold mean_squares. rewrite (proj1 Of), (proj1 Ob). cbn [nth]. split; [reflexivity|]. split; [apply tgen_wf|].
      intros i0 j0 Li Lj. rewrite mget_mgen by assumption. apply fdiv_nonneg; [apply (lsum_squares (fun g0 => project vb vf i0 j0 g0))|apply fnat_nonneg|].
      apply fnat_neq_0. destruct ST as (U & _ & ST). destruct (ST m (QM m I)) as (dd & t' & k & rest & G' & S' & _). unfold grad_of in GM. rewrite GM in G'. injection G' as <- <-. unfold samples, batch_size. rewrite map_length, seq_length, S'. cbn [hd]. destruct sids; [congruence|discriminate]. }
    assert (CV : covered C Q). { intros m I. destruct PQ as (_ & PQ). destruct (PQ m I) as (g & i & j & G & S & W). destruct (FF m g _ i j G S) as (? & ? & ? & ? & ? & ? & ? & ? & ? & L & _). eapply look_in. exact L. }
    assert (PK : picks_kfac "auto" C Q). { right. split; [reflexivity|]. split; [exact NQ|]. unfold auto_raw. destruct Q as [|[m x] Q']; [congruence|]. cbn [dkeys map fst].
      assert (Z : calls_for SCov m "grad" cs = []). { apply calls_for_none. intros c J. unfold cs, factor_calls in J. cbv zeta in J. revert J. generalize (x_heap (lm_x (tr_lm p))). induction (map (step_batch a) (concat steps1)) as [|b bs IH]; intros h J; [destruct J|]. cbn [epoch_calls] in J. apply in_app_or in J as [J|J]; [exact (stat_typ _ _ _ _ _ _ _ _ _ _ J)|exact (IH _ J)]. }
      destruct (C0 m "grad" Z) as [-> _]. reflexivity. }
    destruct (drift_run rnd svd kind eigh inverse fsqrt enc dec show tok hash Cpu C EC E d a epochs p' p0 p3 Q (regrad ms M) qids sids lds ls x1 ks EB ED SC R1 R2 Em Ed D0 D1 ltac:(rewrite Bs; exact KS) KD CV PK NQ PQ UQ OQ PB WB GF SB GO GH HEp T1 EL SP) as (pf & o & P & I1 & I2 & I3 & I4 & SOL).
    exists pf, o, P, C, EC, E. split; [exact I1|]. split; [exact I2|]. split.
    { replace (final (fun l => score_matrix P M l (length qids) (length sids)) (ha_groups a) (dkeys Q)) with (final (fun l => score_matrix P (regrad ms M) l (length qids) (length sids)) (ha_groups a) (dkeys Q)); [exact I3|].
      assert (X : forall l, score_matrix P (regrad ms M) l (length qids) (length sids) = score_matrix P M l (length qids) (length sids)).
      { intros l. unfold score_matrix. apply InfProofs1.mgen_ext. intros i j _ _. unfold score. f_equal. apply map_ext. intros m. apply gdot_regrad; assumption. }
      unfold final. destruct (ha_groups a) as [gs|]; [|rewrite X; reflexivity]. rewrite X. f_equal. f_equal. apply map_ext. intros g. rewrite X. reflexivity. }
    split; [exact I4|]. split; [exact KS|]. intros m g n i j G S. destruct (FF m g n i j G S) as (df & wf & vf & db & wb & vb & dm & t & e2 & _ & Lf & Lb & Ef & Eb & _ & _ & GM & DE & _).
    destruct (SOL m g _ _ e2 _ n i j G S Lf Lb DE) as (q & Gq & Sq & R). exists wf, vf, wb, vb, dm, t, e2, q. cbn [snd] in R. auto 10.
  Qed.
  Theorem factors_run ms a p steps : new_run "ekfac" ms a p -> first_epoch a p steps -> let cs := factor_calls kind a p steps in Forall call_ok cs ->
    exists p2, do_epoch a steps (tr_set_mode p "log") = (p2, Ok tt) /\ tr_acc p2 = tr_acc p /\ same_results p p2 /\
      (let x := lm_x (tr_lm p2) in x_dir x = x_dir (lm_x (tr_lm p)) /\ x_saver x = x_saver (lm_x (tr_lm p)) /\
       forall m t, let ccs := calls_for SCov m t cs in
         (ccs = [] -> stored (x_state x) SCov m t = None) /\
         (ccs <> [] -> stored (x_state x) SCov m t = Some (factor cs m t) /\ lookup2 (x_state x) "covariance_counter" m t = Some (VN (all_count ccs)))).
  Proof.
    intros HN HE cs HC. destruct (first_run rnd svd kind wsize eigh inverse fsqrt enc dec show tok hash ms a p steps HN HE HC) as (q & Eq & _ & _ & A1 & S1 & _ & Dq & Sq & _ & FA). fold cs in FA.
    exists q. split; [exact Eq|]. split; [exact A1|]. split; [exact S1|]. cbv zeta. split; [exact Dq|]. split; [exact Sq|]. intros m t. destruct (FA m t) as [F1 F2]. unfold stored. cbn [stat_name]. split.
    - intros Nc. rewrite (F1 Nc). reflexivity.
    - intros Nc. destruct (F2 Nc) as (dv & L1 & L2). rewrite L1. split; [reflexivity|exact L2].
  Qed.
End P.
