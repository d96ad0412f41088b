(** Influence runs in a process that starts from what an earlier one left on disk. *)
From Coq Require Import ZArith Permutation Lia.
From Verif Require Import Py PyStr Field Tensor ModelGrad Monad ModelState ModelMmap ModelSaver ModelLoader ModelLogger ModelModules ModelLora ModelScheduler ModelInfluence ModelUtils ModelTrainer SpecGrad SpecState SpecStore SpecLogger SpecInfluence SpecRows SpecTrainer SpecDisk SpecWhole StateProofs1 StateProofs3 StateProofs4 StateProofs5 GradProofs1 LogProofs1 LogProofs8 LogProofs9 InfProofs1 InfProofs2 InfProofs3 InfProofs4 InfProofs5 InfProofs6 InfProofs7 InfProofs8 InfProofs9 InfProofs10 TrainProofs1 TrainProofs2 TrainProofs3 TrainProofs4 WatchProofs2 ViewProofs ViewProofs2 DiskProofs1 DiskProofs2 DiskProofs3 WholeProofs1 WholeProofs2 WholeProofs3 WholeProofs4 WholeProofs5 WholeProofs6 SpecReopen StateProofs6 StateProofs10.
Local Open Scope string_scope.
Local Open Scope list_scope.
Local Open Scope nat_scope.

Section P.
  Context {F : Type} `{OField F}.
  Add Field rofield : f_theory.
  Notation tensor := (tensor F).
  Notation dten := (@dten F).
  Notation lx := (@lx F).
  Notation lstate := (@lstate F).
  Notation tlog := (@tlog F).
  Notation tr := (@tr F).
  Context (rnd : mid -> list nat -> F) (svd : tensor -> res tensor) (kind : mid -> mkind) (wsize : mid -> nat).
  Context (eigh : tensor -> res (tensor * tensor)) (inverse : tensor -> res tensor) (fsqrt : F -> F).
  Context (enc : dten -> array) (dec : array -> dten) (show : did -> string).
  Context (tok : option (ModelUtils.data -> res (list string))) (hash : string -> string).
  Notation extract_log := (extract_log rnd svd kind eigh inverse fsqrt enc dec show tok hash).
  Notation influence := (influence rnd svd kind eigh inverse fsqrt enc dec show tok hash).
  Notation new_run := (new_run kind wsize eigh enc).
  Notation training := (training rnd svd kind eigh enc dec show tok hash).
  Notation trained := (trained kind eigh enc show tok hash).
  Notation on_train_begin := (on_train_begin rnd svd).
  Notation do_epoch := (do_epoch rnd svd kind eigh inverse fsqrt enc dec show tok hash).
  Notation testing := (testing rnd svd kind eigh enc show tok hash).

  Lemma raw_at ms a (p' : tr) sids (M : tlog) epochs qids (Q : tlog) d exact C :
    ha_init a = false -> 0 < ha_bs a -> ms <> [] -> NoDup ms -> (forall m, In m (dkeys M) -> In m ms) -> sids <> [] -> storable exact ms (length sids) M -> no_results p' -> matrices ms M ->
    (let x := lm_x (tr_lm p') in
       log_batches dec show (ha_bs a) (x_dir x) = Ok (batches 0 (map (@length string) (chunks (ha_bs a) sids)) sids (regrad ms M)) /\
       plain_state (x_state x) /\ raw_ready inverse (x_state x) C (ha_damping a) /\
       (forall m, In m ms -> exists dv, look C m "grad" = Some (dv, second_moment M m)) /\
       (forall m t c, look C m t = Some c -> In m ms /\ t = "grad")) -> testing a p' epochs qids Q ->
    ha_imode a = "dot" -> ha_damping a = Some d -> fle f0 d -> d <> f0 -> inverse_contract inverse -> (forall m x, grad_of M m = Some x -> inverts inverse (prod (tl (shape (snd x))))) ->
    groups_ok (ha_groups a) -> groups_hit (ha_groups a) (dkeys Q) -> Q <> [] -> plain_log Cpu (length qids) Q -> within Q M -> (forall m, In m ms -> In m (dkeys Q)) ->
    exists pf o P, influence a epochs p' = (pf, Ok (Some o)) /\ tr_scores pf = Some o /\
      saved (tr_ifn pf) (InfRes qids sids (final (fun l => score_matrix P M l (length qids) (length sids)) (ha_groups a) (dkeys Q))) /\
      dkeys P = dkeys Q /\
      (forall m g, grad_of Q m = Some (Cpu, g) -> exists q, grad_of P m = Some (Cpu, q) /\ raw_solution d (second_moment M m) q g).
  Proof.
    intros Ei HB NE ND HI NS ST NRp HM (LB & PS & RR & C1 & C2) TE Em Ed D0 D1 IC IV GO GH NQ PQ WI SUB.
    assert (N0 : length sids <> 0) by (destruct sids; [congruence|discriminate]).
    assert (QM : forall m, In m (dkeys Q) -> In m ms). { intros m I. destruct PQ as (_ & PQ). destruct (PQ m I) as (x & i & j & G & _). destruct (WI m _ G) as (y & Gy & _). apply HI. eapply look_in. exact Gy. }
    assert (RD : forall m, In m (dkeys Q) -> raw_data C Q m).
    { intros m I. destruct PQ as (_ & PQ). destruct (PQ m I) as (x & i & j & G & S & W). destruct (C1 m (QM m I)) as (dv & L). exists Cpu, (length qids), [i; j], x, dv, (second_moment M m).
      destruct TE as (_ & _ & _ & _ & _ & _ & ks' & _ & _ & _ & SP'). pose proof (splits_ne ks' qids SP') as NQ'.
      repeat (split; [assumption || (destruct qids; [congruence|discriminate])|]). destruct (WI m _ G) as (y & Gy & Sy). cbn [snd] in Sy. rewrite S in Sy. unfold second_moment. rewrite Gy. rewrite Sy. reflexivity. }
    assert (INV : invertible inverse (ha_damping a) C).
    { intros m t c L. destruct (C2 m t c L) as (I & ->). destruct (C1 m I) as (dv & L'). rewrite L in L'. injection L' as ->. cbn [snd]. destruct (second_moment_facts exact ms (length sids) M m ST N0 I) as (d' & t' & k & G & Ek & SY & W & PD). exists k. split; [exact (proj1 SY)|].
      intros b Sb Wb Eb. specialize (IV m _ G). cbn [snd] in IV. rewrite <- Ek in IV. apply IV; [|exact Wb|].
      - split; [exact Sb|]. intros i j Li Lj. rewrite !Eb by assumption. f_equal; [exact (proj2 SY i j Li Lj)|]. unfold ident. rewrite (Nat.eqb_sym i j). reflexivity.
      - apply (damped_posdef k (second_moment M m) b d PD D0 D1). intros i j Li Lj. rewrite (Eb i j Li Lj), Ed. reflexivity. }
    assert (PK : picks_raw "auto" C Q). { right. split; [reflexivity|]. split; [exact NQ|]. unfold auto_raw. destruct Q as [|[m x] Q']; [congruence|]. cbn [dkeys map fst]. destruct (C1 m (QM m (or_introl eq_refl))) as (dv & ->). reflexivity. }
    destruct (raw_solves eigh inverse qids _ C Q (ha_damping a) "auto" IC RR INV (proj1 PQ) PK RD) as (s1 & P & EP & _ & KP & _ & _ & SOL).
    assert (SOL2 : forall m g, grad_of Q m = Some (Cpu, g) -> exists q, grad_of P m = Some (Cpu, q) /\ raw_solution d (second_moment M m) q g).
    { intros m g G. assert (I : In m (dkeys Q)) by (eapply look_in; exact G). destruct (C1 m (QM m I)) as (dv & L). destruct (SOL m Cpu g _ G L) as (q & Gq & Rq). exists q. split; [exact Gq|]. cbn [snd] in Rq. rewrite Ed in Rq. exact Rq. }
    assert (SS : same_sizes Q P). { intros m x y Gx Gy. assert (I : In m (dkeys Q)) by (eapply look_in; exact Gx). destruct PQ as (_ & PQ). destruct (PQ m I) as (x' & i & j & G & _). rewrite Gx in G. injection G as ->. destruct (SOL2 m x' Gx) as (q & Gq & n & rest & S1 & S2 & _). rewrite Gy in Gq. injection Gq as ->. cbn [snd]. congruence. }
    destruct (scores_run rnd svd kind eigh inverse fsqrt enc dec show tok hash a epochs p' exact ms sids qids Q M P s1) as (pf & o & I1 & I2 & _ & I4); auto.
    exists pf, o, P. auto.
  Qed.
  Lemma kfac_at cs ms a (p' : tr) sids (M : tlog) epochs qids (Q : tlog) d exact C :
    ha_init a = false -> 0 < ha_bs a -> ms <> [] -> NoDup ms -> (forall m, In m (dkeys M) -> In m ms) -> sids <> [] -> storable exact ms (length sids) M -> no_results p' -> matrices ms M ->
    (let x := lm_x (tr_lm p') in
       log_batches dec show (ha_bs a) (x_dir x) = Ok (batches 0 (map (@length string) (chunks (ha_bs a) sids)) sids (regrad ms M)) /\
       plain_state (x_state x) /\ kfac_ready eigh (x_state x) C /\
       (forall m t, t <> "grad" -> calls_for SCov m t cs <> [] -> exists dv, look C m t = Some (dv, factor cs m t)) /\
       (forall m t c, look C m t = Some c -> t <> "grad" /\ calls_for SCov m t cs <> [])) -> one_device (x_state (lm_x (tr_lm p'))) -> testing a p' epochs qids Q -> (forall m, In m (dkeys Q) -> factored cs Q m) ->
    ha_imode a = "dot" -> ha_damping a = Some d -> fle f0 d -> d <> f0 -> eigh_contract eigh -> decomposes eigh cs ->
    groups_ok (ha_groups a) -> groups_hit (ha_groups a) (dkeys Q) -> Q <> [] -> plain_log Cpu (length qids) Q -> within Q M -> (forall m, In m ms -> In m (dkeys Q)) ->
    exists pf o P, influence a epochs p' = (pf, Ok (Some o)) /\ tr_scores pf = Some o /\
      saved (tr_ifn pf) (InfRes qids sids (final (fun l => score_matrix P M l (length qids) (length sids)) (ha_groups a) (dkeys Q))) /\
      dkeys P = dkeys Q /\
      (forall m g, grad_of Q m = Some (Cpu, g) -> exists q, grad_of P m = Some (Cpu, q) /\ kron_solution d (factor cs m "backward") (factor cs m "forward") q g).
  Proof.
    intros Ei HB NE ND HI NS ST NRp HM (LB & PS & RR & C1 & C2) OD TE FD Em Ed D0 D1 IC DE GO GH NQ PQ WI SUB.
    assert (FF : forall m, In m (dkeys Q) -> exists ef eb, look C m "forward" = Some (ef, factor cs m "forward") /\ look C m "backward" = Some (eb, factor cs m "backward") /\ ef = eb).
    { intros m I. destruct (FD m I) as (dv & g & n & i & j & G & S & K). destruct (K "forward" j (or_introl eq_refl)) as (K1 & _). destruct (K "backward" i (or_intror (or_introl eq_refl))) as (K2 & _).
      destruct (C1 m "forward" ltac:(discriminate) K1) as (ef & L1). destruct (C1 m "backward" ltac:(discriminate) K2) as (eb & L2). exists ef, eb. split; [exact L1|]. split; [exact L2|]. exact (OD C (proj1 RR) m _ _ L1 L2). }
    assert (KD : forall m, In m (dkeys Q) -> kfac_data C Q m).
    { intros m I. destruct (FD m I) as (dv & g & n & i & j & G & S & K). destruct (FF m I) as (ef & eb & L1 & L2 & <-). destruct (K "forward" j (or_introl eq_refl)) as (_ & W1 & A1 & B1). destruct (K "backward" i (or_intror (or_introl eq_refl))) as (_ & W2 & A2 & B2).
      destruct (factor_facts cs m "forward" j W1) as (Y1 & _ & Z1). destruct (factor_facts cs m "backward" i W2) as (Y2 & _ & Z2).
      destruct PQ as (_ & PQ). destruct (PQ m I) as (x & i' & j' & G' & S' & W). rewrite G in G'. injection G' as -> ->.
      exists Cpu, n, i, j, x, ef, (factor cs m "forward"), (factor cs m "backward"). auto 15. }
    assert (SV : solvable eigh C).
    { intros m t c L. destruct (C2 m t c L) as (Nt & Nc). destruct (C1 m t Nt Nc) as (dv & L'). rewrite L in L'. injection L' as ->. cbn [snd]. exact (DE m t Nc). }
    assert (PK : picks_kfac "auto" C Q). { right. split; [reflexivity|]. split; [exact NQ|]. unfold auto_raw. destruct Q as [|[m x] Q']; [congruence|]. cbn [dkeys map fst]. destruct (look C m "grad") as [c|] eqn:L; [|reflexivity]. destruct (C2 m "grad" c L) as (Z & _). congruence. }
    destruct (kfac_solves eigh inverse qids _ C Q d "auto" IC RR SV (proj1 PQ) PK KD D0 D1) as (s1 & P & EP & _ & KP & _ & _ & SOL). rewrite <- Ed in EP.
    assert (SOL2 : forall m g, grad_of Q m = Some (Cpu, g) -> exists q, grad_of P m = Some (Cpu, q) /\ kron_solution d (factor cs m "backward") (factor cs m "forward") q g).
    { intros m g G. assert (I : In m (dkeys Q)) by (eapply look_in; exact G). destruct (FF m I) as (ef & eb & L1 & L2 & _). exact (SOL m Cpu g _ _ G L1 L2). }
    assert (SS : same_sizes Q P). { intros m x y Gx Gy. assert (I : In m (dkeys Q)) by (eapply look_in; exact Gx). destruct PQ as (_ & PQ). destruct (PQ m I) as (x' & i & j & G & _). rewrite Gx in G. injection G as ->. destruct (SOL2 m x' Gx) as (q & Gq & n & r1 & r2 & S1 & S2 & _). rewrite Gy in Gq. injection Gq as ->. cbn [snd]. congruence. }
    destruct (scores_run rnd svd kind eigh inverse fsqrt enc dec show tok hash a epochs p' exact ms sids qids Q M P s1) as (pf & o & I1 & I2 & _ & I4); auto.
    exists pf, o, P. auto.
  Qed.

  (** ---- what finalize leaves ---- *)
  Lemma finished a steps (p p' : tr) : extract_log a [steps] p = (p', Ok tt) ->
    (exists x1, lx_finalize x1 = (lm_x (tr_lm p'), Ok tt)) /\ exists c, lm_conf (tr_lm p') = Some c.
  Proof.
    intros E. unfold ModelTrainer.extract_log in E. apply sbind_ok in E as (p1 & [] & E1 & E). unfold set_mode in E1. injection E1 as <-. unfold ModelTrainer.do_train in E. apply sbind_ok in E as (p2 & [] & E2 & E).
    cbn [seach] in E. apply sbind_ok in E as (p3 & [] & E3 & E). injection E as <-. unfold ModelTrainer.do_epoch in E3. apply sbind_ok in E3 as (p4 & [] & E4 & E3). apply sbind_ok in E3 as (p5 & [] & E5 & E6).
    assert (M5 : tr_mode p5 = "log").
    { pose proof (fr_begin rnd svd a _ _ _ E2) as (M2 & _). pose proof (fr_epoch_begin rnd svd _ _ _ E4) as (M4 & _).
      assert (M : tr_mode p5 = tr_mode p4). { clear - E5. revert p4 E5. induction steps as [|s steps IH]; intros p4 E5; cbn [seach] in E5; [injection E5 as <-; reflexivity|]. apply sbind_ok in E5 as (q & [] & Es & E5). apply fr_do_step in Es as (Es & _). rewrite (IH q E5). exact Es. }
      rewrite M, M4, M2. reflexivity. }
    unfold on_epoch_end in E6. unfold sbind at 1 in E6. unfold sget at 1 in E6. rewrite M5 in E6. change (String.eqb "log" "log") with true in E6. cbv iota in E6. unfold on_tlm, lm_finalize, sbind, on_x in E6.
    destruct (lx_finalize (lm_x (tr_lm p5))) as [x2 [[]|e]] eqn:EF; [|discriminate E6]. injection E6 as <-. split; [exists (lm_x (tr_lm p5)); exact EF|eexists; reflexivity].
  Qed.
  Lemma finalize_saves (x1 x2 : lx) : lx_finalize x1 = (x2, Ok tt) -> exists dk0, save_state dk0 (x_state x2) = (x_state x2, Ok (x_disk x2)).
  Proof.
    intros E. unfold lx_finalize in E. apply sbind_ok in E as (y & [] & E1 & E). destruct (finalize (x_disk x1) (x_state x1)) as [s' [dk|e]] eqn:EF; [|discriminate E1]. injection E1 as <-.
    destruct (saver_finalize _ _) as [[d' sv] o]. injection E as <- _. cbn. unfold finalize in EF. apply sbind_ok in EF as (s2 & [] & _ & EF). exists (x_disk x1).
    assert (s2 = s') as <-; [|exact EF]. unfold save_state in EF. unfold sbind at 1 in EF. unfold sget at 1 in EF. unfold sbind, lift, sret in EF. destruct (foldM _ _ _); [|discriminate EF]. injection EF as -> _. reflexivity.
  Qed.
  Lemma load_keys dk : forall sv (s s1 : lstate), seach (fun a => match dget a (d_states dk) with Some x => set_attr a x | None => sfail FileNotFoundError end) sv s = (s1, Ok tt) ->
    (forall a, In a sv -> In a (dkeys (attrs s))) -> dkeys (attrs s1) = dkeys (attrs s).
  Proof.
    induction sv as [|a sv IH]; intros s s1 E I; cbn [seach] in E; [injection E as <-; reflexivity|]. apply sbind_ok in E as (s2 & [] & E2 & E). destruct (dget a (d_states dk)) as [x|]; [|discriminate E2]. unfold set_attr in E2. injection E2 as <-.
    assert (K : dkeys (dset a x (attrs s)) = dkeys (attrs s)) by (apply dkeys_dset_in; apply I; left; reflexivity). rewrite (IH _ _ E); cbn [attrs]; [exact K|]. intros b J. change (In b (dkeys (dset a x (attrs s)))). rewrite K. apply I. right. exact J.
  Qed.
  Lemma saved_known : forall a, In a (st_save (@state_init F)) -> In a (dkeys (attrs (@state_init F))).
  Proof. intros a I. vm_compute in I. vm_compute. intuition (subst; auto 20). Qed.
  Lemma reopened_state dk0 dk (s s0 : lstate) : registries s = registries (@state_init F) -> dkeys (attrs s) = dkeys (attrs (@state_init F)) -> save_state dk0 s = (s, Ok dk) -> pristine s0 ->
    exists s1, load_state dk s0 = (s1, Ok tt) /\ registries s1 = registries (@state_init F) /\ dkeys (attrs s1) = dkeys (attrs (@state_init F)) /\ dget "covariance_state" (attrs s1) = dget "covariance_state" (attrs s).
  Proof.
    intros R K SV (R0 & K0 & _). assert (RS : forall z : lstate, registries z = registries (@state_init F) -> st_save z = st_save (@state_init F) /\ st_states z = st_states (@state_init F) /\ st_sync z = st_sync (@state_init F) /\ st_norm z = st_norm (@state_init F) /\ st_noclear z = st_noclear (@state_init F)).
    { intros z. unfold registries. generalize (@state_init F). intros i E. injection E as -> -> -> -> ->. auto 10. }
    destruct (RS s R) as (S1 & S2 & S3 & S4 & S5). destruct (RS s0 R0) as (T1 & T2 & T3 & T4 & T5).
    destruct (save_load dk0 s s0) as (dk' & s1 & E1 & E2 & V1 & V2 & V3 & V4 & V5 & V6 & _).
    { intros a I. rewrite S1 in I. apply saved_known in I. rewrite <- K in I. apply dget_In_keys in I as (x & ->). discriminate. }
    rewrite SV in E1. injection E1 as <-. exists s1. split; [exact E2|]. split. { unfold registries. rewrite V1, V2, V3, V4, V5, S1, S3, S4, T2, T5. reflexivity. }
    split.
    - unfold load_state in E2. destruct (d_others dk) as [[[sy sv] no]|] eqn:DO; [|discriminate E2]. apply sbind_ok in E2 as (s2 & [] & Ea & Eb). injection Ea as <-. pose proof (load_keys dk sv _ _ Eb) as LK. cbn [attrs] in LK. rewrite LK; [exact K0|].
      assert (sv = st_save s) as ->. { unfold save_state in SV. unfold sbind at 1 in SV. unfold sget at 1 in SV. unfold sbind, lift, sret in SV. destruct (foldM _ _ _) as [z|]; [|discriminate SV]. injection SV as <-. cbn in DO. injection DO as _ <- _. reflexivity. }
      intros a I. rewrite K0. apply saved_known. rewrite <- S1. exact I.
    - apply V6. rewrite S1. vm_compute. auto 10.
  Qed.
  (** ---- on_train_begin with initialize_from_log ---- *)
  Definition no_init (a : @hfargs F) : @hfargs F := HA (ha_lora a) false (ha_nf a) (ha_tf a) (ha_bs a) (ha_damping a) (ha_imode a) (ha_groups a) (ha_logic a) (ha_ignore a).
  Definition with_lm (r : tr) (s : @lm F) : tr := tr_set_lm r (tr_sched r) s.
  Lemma begin_same a (r : tr) s1 : ha_init a = true -> init_from_log rnd svd (tr_lm r) = (s1, Ok tt) ->
    on_train_begin a (tr_set_mode r "influence") = on_train_begin (no_init a) (tr_set_mode (with_lm r s1) "influence").
  Proof.
    intros I E. unfold ModelTrainer.on_train_begin. rewrite I. change (ha_init (no_init a)) with false. unfold sbind, sget, on_tlm. change (tr_lm (tr_set_mode r "influence")) with (tr_lm r). rewrite E. reflexivity.
  Qed.
  Notation do_step := (do_step kind eigh inverse fsqrt enc dec show tok hash).
  Lemma seach_same {S A} (f g : A -> SM S unit) : (forall y s, f y s = g y s) -> forall l s, seach f l s = seach g l s.
  Proof. intros E l. induction l as [|y l IH]; intros s; cbn [seach]; [reflexivity|]. unfold sbind. rewrite (E y s). destruct (g y s) as [s' [[]|e]]; [apply IH|reflexivity]. Qed.
  Lemma step_same a : forall ms z, do_step a ms z = do_step (no_init a) ms z.
  Proof.
    induction ms as [|m ms IH]; intros z; [reflexivity|]. destruct ms as [|m' ms]; [destruct a; reflexivity|].
    change (sbind (on_tlm (on_x (training_step kind eigh enc tok hash a m))) (fun _ => sbind (on_substep_end show) (fun _ => do_step a (m' :: ms))) z = sbind (on_tlm (on_x (training_step kind eigh enc tok hash a m))) (fun _ => sbind (on_substep_end show) (fun _ => do_step (no_init a) (m' :: ms))) z).
    unfold sbind at 1 3. destruct (on_tlm _ z) as [z1 [[]|e]]; [|reflexivity]. unfold sbind. destruct (on_substep_end show z1) as [z2 [[]|e]]; [apply IH|reflexivity].
  Qed.
  Lemma influence_same a epochs (r : tr) s1 : ha_init a = true -> init_from_log rnd svd (tr_lm r) = (s1, Ok tt) -> influence a epochs r = influence (no_init a) epochs (with_lm r s1).
  Proof.
    intros I E. unfold ModelTrainer.influence, ModelTrainer.do_train. unfold sbind, set_mode. rewrite (begin_same a r s1 I E). destruct (on_train_begin (no_init a) _) as [q [[]|e]]; [|reflexivity].
    assert (D : forall es (z : tr), seach (do_epoch a) es z = seach (do_epoch (no_init a)) es z) by (intros es; apply seach_same; intros e z; unfold ModelTrainer.do_epoch, sbind; destruct (on_epoch_begin rnd svd z) as [z1 [[]|er]]; [|reflexivity]; rewrite (seach_same _ _ (step_same a)); reflexivity). rewrite D. reflexivity.
  Qed.
  Lemma trained_same a (x : lx) ms ls x1 : trained a x ms ls x1 -> trained (no_init a) x ms ls x1.
  Proof. intros T. induction T as [x|x m ms x1 ids l ls x2 E G T IH]; [constructor|]. econstructor; [destruct a; exact E|exact G|exact IH]. Qed.
  Lemma testing_same a (r : tr) s1 epochs qids (Q : tlog) : ha_init a = true -> init_from_log rnd svd (tr_lm r) = (s1, Ok tt) -> testing a r epochs qids Q -> testing (no_init a) (with_lm r s1) epochs qids Q.
  Proof.
    intros I E (U & O & HE & p0 & ls & x1 & ks & EB & T1 & EL & SP). split; [exact U|]. split; [exact O|]. split; [exact HE|]. exists p0, ls, x1, ks. rewrite <- (begin_same a r s1 I E). split; [exact EB|]. split; [apply trained_same; exact T1|]. split; assumption.
  Qed.
  Lemma reopened_init (p r : tr) s1 c : reopened p r -> lm_conf (tr_lm p) = Some c -> load_state (x_disk (lm_x (tr_lm p))) (x_state (lm_x (tr_lm r))) = (s1, Ok tt) ->
    exists l, init_from_log rnd svd (tr_lm r) = (l, Ok tt) /\ x_state (lm_x l) = s1 /\ x_dir (lm_x l) = x_dir (lm_x (tr_lm p)).
  Proof.
    intros (A1 & A2 & _ & A3 & A4 & _) E1 E2. unfold init_from_log, initialize_from_log. unfold sbind at 1. unfold sget at 1. rewrite A1, E1. unfold sbind at 1. unfold sbind at 1. unfold lora_from_log. unfold sbind at 1. unfold sget at 1.
    unfold stored_lora. match goal with |- context [lm_file ?z] => change (lm_file z) with (lm_file (tr_lm r)) end. rewrite A2. cbn [option_map]. unfold sret at 1. cbv beta iota. unfold on_x, lx_load, lx_load_from.
    match goal with |- context [lm_x ?z] => change (lm_x z) with (lm_x (tr_lm r)) end. rewrite A3, E2. eexists. split; [reflexivity|]. split; [reflexivity|]. exact A4.
  Qed.

  Theorem reopened_raw ms a p steps sids (M : tlog) p' r a2 epochs qids (Q : tlog) d :
    new_run "raw" ms a p -> training ms a p steps sids M -> matrices ms M -> extract_log a [steps] p = (p', Ok tt) -> reopened p' r ->
    ha_init a2 = true -> ha_bs a2 = ha_bs a -> testing a2 r epochs qids Q ->
    ha_imode a2 = "dot" -> ha_damping a2 = Some d -> fle f0 d -> d <> f0 -> inverse_contract inverse -> (forall m x, grad_of M m = Some x -> inverts inverse (prod (tl (shape (snd x))))) ->
    groups_ok (ha_groups a2) -> groups_hit (ha_groups a2) (dkeys Q) -> Q <> [] -> plain_log Cpu (length qids) Q -> within Q M -> (forall m, In m ms -> In m (dkeys Q)) ->
    exists pf o P, influence a2 epochs r = (pf, Ok (Some o)) /\ tr_scores pf = Some o /\
      saved (tr_ifn pf) (InfRes qids sids (final (fun l => score_matrix P M l (length qids) (length sids)) (ha_groups a2) (dkeys Q))) /\
      dkeys P = dkeys Q /\
      (forall m g, grad_of Q m = Some (Cpu, g) -> exists q, grad_of P m = Some (Cpu, q) /\ raw_solution d (second_moment M m) q g).
  Proof.
    intros HN HT HM EX RO AI AB TE Em Ed D0 D1 IC IV GO GH NQ PQ WI SUB. pose proof RO as (_ & _ & NR & _ & _ & PR).
    destruct (extract_raw rnd svd kind wsize eigh inverse fsqrt enc dec show tok hash ms a p steps sids M HN HT) as (p1 & C & E1 & EA & ES & LB & PS & RR & C1 & C2). rewrite EX in E1. injection E1 as <-.
    destruct (extract_run rnd svd kind wsize eigh inverse fsqrt enc dec show tok hash "raw" ms a p steps sids M (or_introl eq_refl) HN HT) as (p1 & ks1 & lc & s & E1 & _ & _ & _ & _ & _ & _ & R1 & R2 & dk & dk' & E5).
    { cbv zeta. change (x_opt (begun "raw" (lm_x (tr_lm p)))) with (Opts [] [] [PLog; PCovariance]). rewrite no_epoch_stats. constructor. }
    rewrite EX in E1. injection E1 as <-. destruct HN as (_ & _ & _ & HP & _). destruct (finalize_struct dk dk' lc _ _ _ HP R1 R2 E5) as (G1 & G2 & _).
    destruct (finished a steps p p' EX) as ((x1 & Fi) & c & EC). destruct (finalize_saves x1 _ Fi) as (dk0 & SV). destruct (reopened_state dk0 _ _ _ G1 G2 SV PR) as (s1 & LS & H1 & H2 & H3).
    destruct (reopened_init p' r s1 c RO EC LS) as (l & EI & X1 & X2). destruct (init_plain _ H1 H2) as (P1 & P2 & P3).
    rewrite (influence_same a2 epochs r l AI EI).
    destruct HT as (NE & ND & HI & HB & NDs & HO & (dt & e & exact & CD & ST) & _ & _ & _ & ks & _ & _ & _ & SP). pose proof (splits_ne ks sids SP) as NS.
    apply (raw_at ms (no_init a2) (with_lm r l) sids M epochs qids Q d exact C); try assumption; try reflexivity; [change (ha_bs (no_init a2)) with (ha_bs a2); rewrite AB; exact HB| |apply testing_same; assumption].
    cbv zeta. change (lm_x (tr_lm (with_lm r l))) with (lm_x l). change (ha_bs (no_init a2)) with (ha_bs a2). rewrite X1, X2, AB. split; [exact LB|]. split; [exact P1|]. split; [|split; assumption].
    destruct RR as [[RR1 RR2] _]. split; [split; [rewrite H3; exact RR1|exact RR2]|]. left. split; assumption.
  Qed.
  Theorem reopened_kfac ms a p steps sids (M : tlog) p' r a2 epochs qids (Q : tlog) d :
    new_run "kfac" ms a p -> training ms a p steps sids M -> let cs := factor_calls kind a p steps in Forall call_ok cs -> matrices ms M -> extract_log a [steps] p = (p', Ok tt) -> one_device (x_state (lm_x (tr_lm p'))) -> reopened p' r ->
    ha_init a2 = true -> ha_bs a2 = ha_bs a -> testing a2 r epochs qids Q -> (forall m, In m (dkeys Q) -> factored cs Q m) ->
    ha_imode a2 = "dot" -> ha_damping a2 = Some d -> fle f0 d -> d <> f0 -> eigh_contract eigh -> decomposes eigh cs ->
    groups_ok (ha_groups a2) -> groups_hit (ha_groups a2) (dkeys Q) -> Q <> [] -> plain_log Cpu (length qids) Q -> within Q M -> (forall m, In m ms -> In m (dkeys Q)) ->
    exists pf o P, influence a2 epochs r = (pf, Ok (Some o)) /\ tr_scores pf = Some o /\
      saved (tr_ifn pf) (InfRes qids sids (final (fun l => score_matrix P M l (length qids) (length sids)) (ha_groups a2) (dkeys Q))) /\
      dkeys P = dkeys Q /\
      (forall m g, grad_of Q m = Some (Cpu, g) -> exists q, grad_of P m = Some (Cpu, q) /\ kron_solution d (factor cs m "backward") (factor cs m "forward") q g).
  Proof.
    intros HN HT cs HC HM EX OD RO AI AB TE FD Em Ed D0 D1 IC DE GO GH NQ PQ WI SUB. pose proof RO as (_ & _ & NR & _ & _ & PR).
    destruct (extract_kfac rnd svd kind wsize eigh inverse fsqrt enc dec show tok hash ms a p steps sids M HN HT HC) as (p1 & C & E1 & EA & ES & LB & PS & RR & C1 & C2). fold cs in C1, C2. rewrite EX in E1. injection E1 as <-.
    destruct (extract_run rnd svd kind wsize eigh inverse fsqrt enc dec show tok hash "kfac" ms a p steps sids M (or_intror eq_refl) HN HT) as (p1 & ks1 & lc & s & E1 & _ & _ & _ & _ & _ & _ & R1 & R2 & dk & dk' & E5); [exact HC|].
    rewrite EX in E1. injection E1 as <-. destruct HN as (_ & _ & _ & HP & _). destruct (finalize_struct dk dk' lc _ _ _ HP R1 R2 E5) as (G1 & G2 & _).
    destruct (finished a steps p p' EX) as ((x1 & Fi) & c & EC). destruct (finalize_saves x1 _ Fi) as (dk0 & SV). destruct (reopened_state dk0 _ _ _ G1 G2 SV PR) as (s1 & LS & H1 & H2 & H3).
    destruct (reopened_init p' r s1 c RO EC LS) as (l & EI & X1 & X2). destruct (init_plain _ H1 H2) as (P1 & _ & _). destruct (init_caches _ H1 H2) as (X3' & X4' & X5' & X6' & X7').
    rewrite (influence_same a2 epochs r l AI EI).
    destruct HT as (NE & ND & HI & HB & NDs & HO & (dt & e & exact & CD & ST) & _ & _ & _ & ks & _ & _ & _ & SP). pose proof (splits_ne ks sids SP) as NS.
    apply (kfac_at cs ms (no_init a2) (with_lm r l) sids M epochs qids Q d exact C); try assumption; try reflexivity; [change (ha_bs (no_init a2)) with (ha_bs a2); rewrite AB; exact HB| | |apply testing_same; assumption].
    - cbv zeta. change (lm_x (tr_lm (with_lm r l))) with (lm_x l). change (ha_bs (no_init a2)) with (ha_bs a2). rewrite X1, X2, AB. split; [exact LB|]. split; [exact P1|]. split; [|split; assumption].
      destruct RR as [[RR1 RR2] _]. split; [split; [rewrite H3; exact RR1|exact RR2]|]. split; [exact X3'|]. left. auto.
    - change (lm_x (tr_lm (with_lm r l))) with (lm_x l). rewrite X1. intros C' (K1 & K2). apply (OD C'). split; [rewrite <- H3; exact K1|exact K2].
  Qed.
  (** ---- without initialize_from_log ---- *)
  Theorem forgotten hes ms a p steps sids (M : tlog) p' r a2 epochs qids (Q : tlog) :
    hes = "raw" \/ hes = "kfac" -> new_run hes ms a p -> training ms a p steps sids M -> (hes = "kfac" -> Forall call_ok (factor_calls kind a p steps)) -> matrices ms M -> extract_log a [steps] p = (p', Ok tt) -> reopened p' r ->
    ha_init a2 = false -> ha_bs a2 = ha_bs a -> testing a2 r epochs qids Q -> ha_imode a2 = "dot" ->
    groups_ok (ha_groups a2) -> groups_hit (ha_groups a2) (dkeys Q) -> Q <> [] -> plain_log Cpu (length qids) Q -> within Q M -> (forall m, In m ms -> In m (dkeys Q)) ->
    exists pf o, influence a2 epochs r = (pf, Ok (Some o)) /\ tr_scores pf = Some o /\
      saved (tr_ifn pf) (InfRes qids sids (final (fun l => score_matrix Q M l (length qids) (length sids)) (ha_groups a2) (dkeys Q))).
  Proof.
    intros Hh HN HT HC HM EX RO AI AB TE Em GO GH NQ PQ WI SUB. pose proof RO as (_ & _ & NR & _ & RD & PR).
    assert (LB : log_batches dec show (ha_bs a) (x_dir (lm_x (tr_lm p'))) = Ok (batches 0 (map (@length string) (chunks (ha_bs a) sids)) sids (regrad ms M))).
    { destruct Hh as [-> | ->].
      - destruct (extract_raw rnd svd kind wsize eigh inverse fsqrt enc dec show tok hash ms a p steps sids M HN HT) as (p1 & C & E1 & EA & ES & LB & _). rewrite EX in E1. injection E1 as <-. exact LB.
      - destruct (extract_kfac rnd svd kind wsize eigh inverse fsqrt enc dec show tok hash ms a p steps sids M HN HT (HC eq_refl)) as (p1 & C & E1 & EA & ES & LB & _). rewrite EX in E1. injection E1 as <-. exact LB. }
    destruct HT as (NE & ND & HI & HB & NDs & HO & (dt & e & exact & CD & ST) & _ & _ & _ & ks & _ & _ & _ & SP). pose proof (splits_ne ks sids SP) as NS.
    destruct PR as (K1 & K2 & K3). destruct (init_plain _ K1 K2) as (PS & _ & _).
    assert (EP : precondition eigh inverse (qids, Nest (log_nd Q)) (ha_damping a2) "auto" (x_state (lm_x (tr_lm r))) = (x_state (lm_x (tr_lm r)), Ok (qids, Nest (log_nd Q)))).
    { unfold precondition. change (mem "auto" ["auto"; "kfac"; "raw"]) with true. cbv iota. destruct (K3 SCov) as (K4 & _). change (dget "covariance_state" (attrs (x_state (lm_x (tr_lm r)))) = Some (Node [])) in K4. unfold attr. unfold sbind at 1. rewrite K4. cbn [snd].
      destruct Q as [|[m e0] Q']; [congruence|]. reflexivity. }
    destruct (scores_run rnd svd kind eigh inverse fsqrt enc dec show tok hash a2 epochs r exact ms sids qids Q M Q _ AI Em ltac:(rewrite AB; exact HB) NE ND NS HI ST HM NR TE PS ltac:(rewrite AB, RD; exact LB) NQ PQ WI SUB GO GH EP) as (pf & o & X1 & X2 & _ & X3).
    { intros m x y E1 E2. congruence. }
    exists pf, o. auto.
  Qed.
  (** ---- another batch size ---- *)
  Definition with_bs (b : nat) (a : @hfargs F) : @hfargs F := HA (ha_lora a) (ha_init a) (ha_nf a) (ha_tf a) b (ha_damping a) (ha_imode a) (ha_groups a) (ha_logic a) (ha_ignore a).
  Lemma step_bs b a : forall ms z, tr_mode z = "log" -> do_step a ms z = do_step (with_bs b a) ms z.
  Proof.
    assert (T : forall m z z1 o, on_tlm (on_x (training_step kind eigh enc tok hash a m)) z = (z1, o) -> tr_mode z1 = tr_mode z).
    { intros m z z1 o E. unfold on_tlm in E. destruct (on_x _ _) as [l o1]. injection E as <- _. reflexivity. }
    induction ms as [|m ms IH]; intros z Mz; [reflexivity|]. destruct ms as [|m' ms].
    - change (sbind (on_tlm (on_x (training_step kind eigh enc tok hash a m))) (fun _ => on_step_end eigh inverse fsqrt dec show a) z = sbind (on_tlm (on_x (training_step kind eigh enc tok hash a m))) (fun _ => on_step_end eigh inverse fsqrt dec show (with_bs b a)) z).
      unfold sbind. destruct (on_tlm _ z) as [z1 [[]|e]] eqn:E1; [|reflexivity]. apply T in E1. rewrite Mz in E1. assert (S1 : forall a', on_step_end eigh inverse fsqrt dec show a' z1 = (z1, Ok tt)) by (intros a'; unfold on_step_end; unfold sbind at 1; unfold sget at 1; rewrite E1; reflexivity). rewrite !S1. reflexivity.
    - change (sbind (on_tlm (on_x (training_step kind eigh enc tok hash a m))) (fun _ => sbind (on_substep_end show) (fun _ => do_step a (m' :: ms))) z = sbind (on_tlm (on_x (training_step kind eigh enc tok hash a m))) (fun _ => sbind (on_substep_end show) (fun _ => do_step (with_bs b a) (m' :: ms))) z).
      unfold sbind at 1 3. destruct (on_tlm _ z) as [z1 [[]|e]] eqn:E1; [|reflexivity]. apply T in E1. rewrite Mz in E1.
      assert (S1 : on_substep_end show z1 = (z1, Ok tt)) by (unfold on_substep_end, sbind, sget; rewrite E1; reflexivity). unfold sbind. rewrite S1. apply IH. exact E1.
  Qed.
  Lemma extract_bs b a steps (p p' : tr) : extract_log a [steps] p = (p', Ok tt) -> extract_log (with_bs b a) [steps] p = (p', Ok tt).
  Proof.
    intros E. unfold ModelTrainer.extract_log in E. apply sbind_ok in E as (p1 & [] & E1 & E). unfold set_mode in E1. injection E1 as <-. unfold ModelTrainer.do_train in E. apply sbind_ok in E as (p2 & [] & E2 & E).
    cbn [seach] in E. apply sbind_ok in E as (p3 & [] & E3 & E). unfold ModelTrainer.do_epoch in E3. apply sbind_ok in E3 as (p4 & [] & E4 & E3). apply sbind_ok in E3 as (p5 & [] & E5 & E6).
    assert (M4 : tr_mode p4 = "log").
    { pose proof (fr_begin rnd svd a _ _ _ E2) as (M2 & _). pose proof (fr_epoch_begin rnd svd _ _ _ E4) as (M4 & _). rewrite M4, M2. reflexivity. }
    assert (E5' : seach (do_step (with_bs b a)) steps p4 = (p5, Ok tt)).
    { clear - E5 M4. revert p4 M4 E5. induction steps as [|s steps IH]; intros p4 M4 E5; cbn [seach] in *; [exact E5|]. apply sbind_ok in E5 as (q1 & [] & Es & E5). unfold sbind. rewrite <- (step_bs b a s p4 M4), Es. apply IH; [|exact E5]. apply fr_do_step in Es as (Es & _). congruence. }
    unfold ModelTrainer.extract_log, ModelTrainer.do_train, ModelTrainer.do_epoch. cbn [seach]. unfold sbind, set_mode. assert (E2' : on_train_begin (with_bs b a) (tr_set_mode p "log") = (p2, Ok tt)) by (destruct a; exact E2). rewrite E2', E4, E5', E6. exact E.
  Qed.
  Lemma trained_bs b a (x : lx) ms ls x1 : trained a x ms ls x1 -> trained (with_bs b a) x ms ls x1.
  Proof. intros T. induction T as [x|x m ms x1 ids l ls x2 E G T IH]; [constructor|]. econstructor; [destruct a; exact E|exact G|exact IH]. Qed.
  Lemma training_bs b ms a p steps sids (M : tlog) : 0 < b -> training ms a p steps sids M -> training ms (with_bs b a) p steps sids M.
  Proof.
    intros Hb (H1 & H2 & H3 & _ & H5 & H6 & H7 & p1 & ls & x1 & ks & E1 & E2 & E3). split; [exact H1|]. split; [exact H2|]. split; [exact H3|]. split; [exact Hb|]. split; [exact H5|]. split; [exact H6|]. split; [exact H7|].
    exists p1, ls, x1, ks. split; [exact E1|]. split; [apply trained_bs; exact E2|exact E3].
  Qed.
  Lemma calls_bs b a p steps : factor_calls kind (with_bs b a) p steps = factor_calls kind a p steps.
  Proof. destruct a. reflexivity. Qed.
  Theorem reopened_raw_any ms a p steps sids (M : tlog) p' r a2 epochs qids (Q : tlog) d :
    new_run "raw" ms a p -> training ms a p steps sids M -> matrices ms M -> extract_log a [steps] p = (p', Ok tt) -> reopened p' r ->
    ha_init a2 = true -> 0 < ha_bs a2 -> testing a2 r epochs qids Q ->
    ha_imode a2 = "dot" -> ha_damping a2 = Some d -> fle f0 d -> d <> f0 -> inverse_contract inverse -> (forall m x, grad_of M m = Some x -> inverts inverse (prod (tl (shape (snd x))))) ->
    groups_ok (ha_groups a2) -> groups_hit (ha_groups a2) (dkeys Q) -> Q <> [] -> plain_log Cpu (length qids) Q -> within Q M -> (forall m, In m ms -> In m (dkeys Q)) ->
    exists pf o P, influence a2 epochs r = (pf, Ok (Some o)) /\ tr_scores pf = Some o /\
      saved (tr_ifn pf) (InfRes qids sids (final (fun l => score_matrix P M l (length qids) (length sids)) (ha_groups a2) (dkeys Q))) /\
      dkeys P = dkeys Q /\
      (forall m g, grad_of Q m = Some (Cpu, g) -> exists q, grad_of P m = Some (Cpu, q) /\ raw_solution d (second_moment M m) q g).
  Proof.
    intros HN HT HM EX RO AI AB. exact (reopened_raw ms (with_bs (ha_bs a2) a) p steps sids M p' r a2 epochs qids Q d HN (training_bs _ _ _ _ _ _ _ AB HT) HM (extract_bs _ _ _ _ _ EX) RO AI eq_refl).
  Qed.
  Theorem reopened_kfac_any ms a p steps sids (M : tlog) p' r a2 epochs qids (Q : tlog) d :
    new_run "kfac" ms a p -> training ms a p steps sids M -> let cs := factor_calls kind a p steps in Forall call_ok cs -> matrices ms M -> extract_log a [steps] p = (p', Ok tt) -> one_device (x_state (lm_x (tr_lm p'))) -> reopened p' r ->
    ha_init a2 = true -> 0 < ha_bs a2 -> testing a2 r epochs qids Q -> (forall m, In m (dkeys Q) -> factored cs Q m) ->
    ha_imode a2 = "dot" -> ha_damping a2 = Some d -> fle f0 d -> d <> f0 -> eigh_contract eigh -> decomposes eigh cs ->
    groups_ok (ha_groups a2) -> groups_hit (ha_groups a2) (dkeys Q) -> Q <> [] -> plain_log Cpu (length qids) Q -> within Q M -> (forall m, In m ms -> In m (dkeys Q)) ->
    exists pf o P, influence a2 epochs r = (pf, Ok (Some o)) /\ tr_scores pf = Some o /\
      saved (tr_ifn pf) (InfRes qids sids (final (fun l => score_matrix P M l (length qids) (length sids)) (ha_groups a2) (dkeys Q))) /\
      dkeys P = dkeys Q /\
      (forall m g, grad_of Q m = Some (Cpu, g) -> exists q, grad_of P m = Some (Cpu, q) /\ kron_solution d (factor cs m "backward") (factor cs m "forward") q g).
  Proof.
    intros HN HT cs HC HM EX OD RO AI AB. unfold cs in *. rewrite <- (calls_bs (ha_bs a2)) in *. exact (reopened_kfac ms (with_bs (ha_bs a2) a) p steps sids M p' r a2 epochs qids Q d HN (training_bs _ _ _ _ _ _ _ AB HT) HC HM (extract_bs _ _ _ _ _ EX) OD RO AI eq_refl).
  Qed.
  Theorem forgotten_any hes ms a p steps sids (M : tlog) p' r a2 epochs qids (Q : tlog) :
    hes = "raw" \/ hes = "kfac" -> new_run hes ms a p -> training ms a p steps sids M -> (hes = "kfac" -> Forall call_ok (factor_calls kind a p steps)) -> matrices ms M -> extract_log a [steps] p = (p', Ok tt) -> reopened p' r ->
    ha_init a2 = false -> 0 < ha_bs a2 -> testing a2 r epochs qids Q -> ha_imode a2 = "dot" ->
    groups_ok (ha_groups a2) -> groups_hit (ha_groups a2) (dkeys Q) -> Q <> [] -> plain_log Cpu (length qids) Q -> within Q M -> (forall m, In m ms -> In m (dkeys Q)) ->
    exists pf o, influence a2 epochs r = (pf, Ok (Some o)) /\ tr_scores pf = Some o /\
      saved (tr_ifn pf) (InfRes qids sids (final (fun l => score_matrix Q M l (length qids) (length sids)) (ha_groups a2) (dkeys Q))).
  Proof.
    intros Hh HN HT HC HM EX RO AI AB. rewrite <- (calls_bs (ha_bs a2)) in HC. exact (forgotten hes ms (with_bs (ha_bs a2) a) p steps sids M p' r a2 epochs qids Q Hh HN (training_bs _ _ _ _ _ _ _ AB HT) HC HM (extract_bs _ _ _ _ _ EX) RO AI eq_refl).
  Qed.
End P.
