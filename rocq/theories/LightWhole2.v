(** A logging run of the Lightning trainer and the influence run that follows. *)
From Coq Require Import ZArith Permutation Lia.
From Verif Require Import Py PyStr Field Tensor ModelGrad Monad ModelState ModelMmap ModelSaver ModelLoader ModelLogger ModelModules ModelLora ModelScheduler ModelInfluence ModelUtils ModelTrainer ModelLightning SpecGrad SpecState SpecStore SpecLogger SpecInfluence SpecRows SpecTrainer SpecLightning SpecDisk SpecWhole SpecLightWhole StateProofs1 StateProofs3 StateProofs4 StateProofs5 GradProofs1 LogProofs1 LogProofs8 LogProofs9 InfProofs1 InfProofs2 InfProofs3 InfProofs4 InfProofs5 InfProofs6 InfProofs7 InfProofs8 InfProofs9 InfProofs10 TrainProofs1 TrainProofs2 TrainProofs3 TrainProofs4 WatchProofs2 ViewProofs ViewProofs2 DiskProofs1 DiskProofs2 DiskProofs3 WholeProofs1 WholeProofs2 WholeProofs3 WholeProofs4 WholeProofs5 WholeProofs6 LightProofs1 LightWhole1.
Local Open Scope string_scope.
Local Open Scope list_scope.
Local Open Scope nat_scope.

Section P.
  Context {F : Type} `{OField F}.
  Notation tensor := (tensor F).
  Notation dten := (@dten F).
  Notation lx := (@lx F).
  Notation lstate := (@lstate F).
  Notation tlog := (@tlog F).
  Context (rnd : mid -> list nat -> F) (svd : tensor -> res tensor) (kind : mid -> mkind) (wsize : mid -> nat).
  Context (eigh : tensor -> res (tensor * tensor)) (inverse : tensor -> res tensor) (fsqrt : F -> F).
  Context (enc : dten -> array) (dec : array -> dten) (show : did -> string).
  Context {B X : Type} (extract : B -> SM X (list did)) (mask : option (B -> res (option dten))) (body : B -> list (@ev F)).
  Notation pl := (@pl F X).
  Notation pl_extract := (pl_extract rnd svd kind eigh inverse fsqrt enc dec show extract mask body).
  Notation pl_influence := (pl_influence rnd svd kind eigh inverse fsqrt enc dec show extract mask body).
  Notation precondition := (precondition eigh inverse).
  Notation new_light := (new_light kind wsize eigh enc).
  Notation light_training := (light_training rnd svd kind eigh enc dec show extract mask body).
  Notation light_testing := (light_testing kind eigh enc show extract mask body).
  Notation state_of q := (x_state (lm_x (tr_lm (pl_t q)))).

  Theorem light_raw ms a (q : pl) bs es sids (M : tlog) : new_light "raw" ms q -> light_training ms a q bs sids M ->
    exists q' C, pl_extract a (bs :: es) q = (q', Ok tt) /\ same_results (pl_t q) (pl_t q') /\ pl_epoch q' = S (pl_epoch q) /\
      (let x := lm_x (tr_lm (pl_t q')) in
       log_batches dec show (pa_bs a) (x_dir x) = Ok (batches 0 (map (@length string) (chunks (pa_bs a) sids)) sids (regrad ms M)) /\
       plain_state (x_state x) /\ raw_ready inverse (x_state x) C (pa_damping a) /\
       (forall m, In m ms -> exists dv, look C m "grad" = Some (dv, second_moment M m)) /\
       (forall m t c, look C m t = Some c -> In m ms /\ t = "grad")).
  Proof.
    intros HN HT. destruct (light_extract_run rnd svd kind wsize eigh inverse fsqrt enc dec show extract mask body "raw" ms a q bs es sids M (or_introl eq_refl) HN HT) as (q' & ks & lc & s & E1 & E2 & E3 & SP & E4 & HF & R1 & R2 & dk & dk' & E5).
    { cbv zeta. change (x_opt (begun "raw" (lm_x (tr_lm (pl_t q))))) with (Opts [] [] [PLog; PCovariance]). rewrite no_epoch_stats. constructor. }
    destruct HN as (_ & HN). cbv zeta in HN. destruct HN as (_ & HP & _). destruct HT as (_ & ND & HI & _ & _ & _ & _ & (dt & e & exact & CD & ST) & _).
    destruct (finalize_struct dk dk' lc _ _ _ HP R1 R2 E5) as (G1 & G2 & C & HC). destruct (init_plain _ G1 G2) as (P1 & P2 & P3).
    exists q', C. split; [exact E1|]. split; [exact E2|]. split; [exact E3|]. cbv zeta. split; [exact E4|]. split; [exact P1|]. split; [split; [exact HC|left; split; assumption]|].
    destruct HF as [HF1 HF2]. cbv zeta in HF2. change (x_opt (begun "raw" (lm_x (tr_lm (pl_t q))))) with (Opts [] [] [PLog; PCovariance]) in *. rewrite no_epoch_stats in HF2.
    destruct HC as [HC _]. split.
    - intros m I. destruct ST as (U & _ & ST). destruct (ST m I) as (d & t & k & rest & G & S & _ & _). destruct (U m "grad" _ G) as (r & S' & W). cbn [snd] in *. rewrite S in S'. injection S' as <-.
      destruct (parts_moment m M d t (length sids) (k :: rest) ks SCov G S W SP) as (NG & EM). destruct (HF1 SCov m) as [HF3 _]. specialize (HF3 ltac:(cbn; auto) NG). rewrite EM in HF3.
      destruct (look_some _ C m "grad" _ HC HF3) as (dv & L). exists dv. rewrite L. unfold second_moment, grad_of. rewrite G. cbn [snd]. unfold batch_size. rewrite S. reflexivity.
    - intros m t c L. assert (Xt : t = "grad"). { destruct (string_dec t "grad") as [|Ne]; [assumption|]. destruct (HF2 SCov m t Ne) as [Z _]. rewrite (look_none _ C m t HC (Z eq_refl)) in L. discriminate L. }
      split; [|exact Xt]. subst t. destruct (in_dec string_dec m ms) as [|Ni]; [assumption|]. exfalso. destruct (HF1 SCov m) as [_ Z].
      assert (GN : grad_of M m = None). { unfold grad_of, look. assert (D : dget m M = None) by (apply dget_None_keys; intros J; apply Ni, HI, J). rewrite D. reflexivity. }
      rewrite (look_none _ C m "grad" HC (Z (or_intror (parts_none m M GN ks 0)))) in L. discriminate L.
  Qed.
  Theorem light_kfac ms a (q : pl) bs es sids (M : tlog) : new_light "kfac" ms q -> light_training ms a q bs sids M -> let cs := light_calls kind mask body q bs in Forall call_ok cs ->
    exists q' C, pl_extract a (bs :: es) q = (q', Ok tt) /\ same_results (pl_t q) (pl_t q') /\ pl_epoch q' = S (pl_epoch q) /\
      (let x := lm_x (tr_lm (pl_t q')) in
       log_batches dec show (pa_bs a) (x_dir x) = Ok (batches 0 (map (@length string) (chunks (pa_bs a) sids)) sids (regrad ms M)) /\
       plain_state (x_state x) /\ kfac_ready eigh (x_state x) C /\
       (forall m t, t <> "grad" -> calls_for SCov m t cs <> [] -> exists dv, look C m t = Some (dv, factor cs m t)) /\
       (forall m t c, look C m t = Some c -> t <> "grad" /\ calls_for SCov m t cs <> [])).
  Proof.
    intros HN HT cs HC0. destruct (light_extract_run rnd svd kind wsize eigh inverse fsqrt enc dec show extract mask body "kfac" ms a q bs es sids M (or_intror eq_refl) HN HT HC0) as (q' & ks & lc & s & E1 & E2 & E3 & SP & E4 & HF & R1 & R2 & dk & dk' & E5).
    destruct HN as (_ & HN). cbv zeta in HN. destruct HN as (_ & HP & _).
    destruct (finalize_struct dk dk' lc _ _ _ HP R1 R2 E5) as (G1 & G2 & C & HC). destruct (init_plain _ G1 G2) as (P1 & _ & _). destruct (init_caches _ G1 G2) as (X1 & X2 & X3 & X4 & X5).
    exists q', C. split; [exact E1|]. split; [exact E2|]. split; [exact E3|]. cbv zeta. split; [exact E4|]. split; [exact P1|]. split; [split; [exact HC|split; [exact X1|left; auto]]|].
    destruct HF as [HF1 HF2]. cbv zeta in HF2. change (x_opt (begun "kfac" (lm_x (tr_lm (pl_t q))))) with (Opts [PCovariance] [PCovariance] [PLog]) in HF1. 
    destruct HC as [HC _]. split.
    - intros m t Nt Nc. destruct (HF2 SCov m t Nt) as [_ Z]. exact (look_some _ C m t _ HC (Z Nc)).
    - intros m t c L. assert (Xt : t <> "grad"). { intros ->. destruct (HF1 SCov m) as [_ Z]. rewrite (look_none _ C m "grad" HC (Z (or_introl (fun q => q)))) in L. discriminate L. }
      split; [exact Xt|]. intros Z. destruct (HF2 SCov m t Xt) as [Z1 _]. rewrite (look_none _ C m t HC (Z1 Z)) in L. discriminate L.
  Qed.
  Lemma light_scores a bs es (q : pl) exact ms sids qids (Q M P : tlog) s1 :
    pa_imode a = "dot" -> 0 < pa_bs a -> ms <> [] -> NoDup ms -> sids <> [] -> (forall m, In m (dkeys M) -> In m ms) -> storable exact ms (length sids) M -> matrices ms M ->
    tr_scores (pl_t q) = None -> tr_built (pl_t q) = None -> light_testing q bs qids Q -> plain_state (state_of q) ->
    log_batches dec show (pa_bs a) (pl_dir q) = Ok (batches 0 (map (@length string) (chunks (pa_bs a) sids)) sids (regrad ms M)) ->
    Q <> [] -> plain_log Cpu (length qids) Q -> within Q M -> (forall m, In m ms -> In m (dkeys Q)) ->
    precondition (qids, Nest (log_nd Q)) (pa_damping a) "auto" (state_of q) = (s1, Ok (qids, Nest (log_nd P))) -> same_sizes Q P ->
    exists qf o, pl_influence a (bs :: es) q = (qf, Ok (Some o)) /\ tr_scores (pl_t qf) = Some o /\ state_of qf = s1 /\
      saved (tr_ifn (pl_t qf)) (InfRes qids sids (final (fun l => score_matrix P M l (length qids) (length sids)) None (dkeys Q))).
  Proof.
    intros Em HB NE N NS HI ST HM R1 R3 (UQ & x0 & ls & x1 & e1 & ks & EB & T1 & EL & SP) PS LB NQ PQ WI SUB EP SS.
    assert (GO : groups_ok None) by exact Logic.I. assert (GH : groups_hit None (dkeys Q)) by exact Logic.I.
    set (lds := map (@length string) (chunks (pa_bs a) sids)) in *.
    assert (ED : exists t2, build_loader dec show a (pl_t q) = (t2, Ok (batches 0 lds sids (regrad ms M)))). { unfold build_loader. rewrite R3. unfold pl_dir in LB. rewrite LB. eexists. reflexivity. }
    destruct ED as (t2 & ED).
    assert (HG : forall m, In m ms -> exists x, grad_of M m = Some x) by (intros m I; destruct (HM m I) as (d & t & n & i & j & G & _); eauto).
    pose proof (regrad_plain exact ms (length sids) M N ST HM) as PB.
    assert (WB : within Q (regrad ms M)). { intros m x G. destruct (WI m x G) as ([d t] & G2 & S2). assert (I : In m ms) by (apply HI; eapply look_in; exact G2). exists (Cpu, t). split; [apply (regrad_grad ms M m d t I G2 N)|exact S2]. }
    assert (GF : grad_first (regrad ms M)) by (destruct ms as [|m ms']; [congruence|reflexivity]).
    assert (SB : forall m, In m (dkeys (regrad ms M)) -> In m (dkeys Q)) by (intros m I; rewrite regrad_keys in I; exact (SUB m I)).
    pose proof (chunk_splits (pa_bs a) sids HB NS) as SC. fold lds in SC.
    pose proof (batches_dot eigh inverse fsqrt Cpu Q (regrad ms M) true "auto" None (pa_damping a) (state_of q) qids sids lds NQ PQ PB WB (keeps_of _ _ _ _ _ _ EP SS) GF SB GO GH SC) as BD.
    rewrite (influence_prec eigh inverse fsqrt Q (Nest (log_nd (regrad ms M))) "dot" true "auto" None (pa_damping a) _ s1 qids sids P eq_refl EP) in BD.
    destruct (prec_twins eigh inverse qids Cpu (length qids) Q P true (pa_damping a) "auto" _ s1 PQ EP SS) as (K & TW).
    assert (NP : P <> []) by (intros ->; apply NQ; destruct Q; [reflexivity|discriminate K]). pose proof GH as GH2. rewrite <- K in GH2.
    rewrite (influence_dot eigh inverse fsqrt Cpu P (regrad ms M) qids sids None "auto" (pa_damping a) s1 NP GO GH2) in BD; [|intros m I; rewrite K in I; eapply within_paired; eauto|exact (head_prec Cpu (length qids) Q P (regrad ms M) PQ TW GF SB)]. cbn [bind] in BD.
    destruct (light_influence rnd svd kind eigh inverse fsqrt enc dec show extract mask body a bs es q x0 t2 _ ls x1 e1 ks (length qids) qids Q s1 _ EB ED R1 PS T1 EL UQ eq_refl SP ltac:(rewrite Em; exact BD)) as (qf & o & I1 & I2 & I3 & I4 & I5 & I6 & I7).
    exists qf, o. split; [exact I1|]. split; [exact I2|]. split; [rewrite I6; reflexivity|].
    replace (final (fun l => score_matrix P M l (length qids) (length sids)) None (dkeys Q)) with (final (fun l => score_matrix P (regrad ms M) l (length qids) (length sids)) None (dkeys P)); [exact I3|].
    rewrite K. assert (Y : forall l, score_matrix P (regrad ms M) l (length qids) (length sids) = score_matrix P M l (length qids) (length sids)).
    { intros l. unfold score_matrix. apply mgen_ext. intros i j _ _. unfold score. f_equal. apply map_ext. intros m. apply gdot_regrad; assumption. }
    unfold final. rewrite Y. reflexivity.
  Qed.

  Theorem light_influence_raw ms a (q : pl) bs es sids (M : tlog) q' bs2 es2 qids (Q : tlog) d :
    new_light "raw" ms q -> light_training ms a q bs sids M -> tr_scores (pl_t q) = None -> tr_built (pl_t q) = None -> matrices ms M ->
    pl_extract a (bs :: es) q = (q', Ok tt) -> light_testing q' bs2 qids Q ->
    pa_imode a = "dot" -> pa_damping a = Some d -> fle f0 d -> d <> f0 -> inverse_contract inverse -> (forall m x, grad_of M m = Some x -> inverts inverse (prod (tl (shape (snd x))))) ->
    Q <> [] -> plain_log Cpu (length qids) Q -> within Q M -> (forall m, In m ms -> In m (dkeys Q)) ->
    exists qf o P, pl_influence a (bs2 :: es2) q' = (qf, Ok (Some o)) /\ tr_scores (pl_t qf) = Some o /\
      saved (tr_ifn (pl_t qf)) (InfRes qids sids (final (fun l => score_matrix P M l (length qids) (length sids)) None (dkeys Q))) /\
      dkeys P = dkeys Q /\
      (forall m g, grad_of Q m = Some (Cpu, g) -> exists v, grad_of P m = Some (Cpu, v) /\ raw_solution d (second_moment M m) v g).
  Proof.
    intros HN HT NR NB HM EX TE Em Ed D0 D1 IC IV NQ PQ WI SUB.
    destruct (light_raw ms a q bs es sids M HN HT) as (p1 & C & E1 & ES & EA & LB & PS & RR & C1 & C2). rewrite EX in E1. injection E1 as <-.
    destruct HT as (NE & ND & HI & HB & NDs & HO & _ & (dt & e & exact & CD & ST) & _ & _ & _ & _ & ks & _ & _ & _ & SP). pose proof (splits_ne ks sids SP) as NS.
    assert (N0 : length sids <> 0) by (destruct sids; [congruence|discriminate]).
    assert (QM : forall m, In m (dkeys Q) -> In m ms). { intros m I. destruct PQ as (_ & PQ). destruct (PQ m I) as (x & i & j & G & _). destruct (WI m _ G) as (y & Gy & _). apply HI. eapply look_in. exact Gy. }
    assert (RD : forall m, In m (dkeys Q) -> raw_data C Q m).
    { intros m I. destruct PQ as (_ & PQ). destruct (PQ m I) as (x & i & j & G & S & W). destruct (C1 m (QM m I)) as (dv & L). exists Cpu, (length qids), [i; j], x, dv, (second_moment M m).
      destruct TE as (_ & _ & _ & _ & _ & ks' & _ & _ & _ & SP'). pose proof (splits_ne ks' qids SP') as NQ'.
      repeat (split; [assumption || (destruct qids; [congruence|discriminate])|]). destruct (WI m _ G) as (y & Gy & Sy). cbn [snd] in Sy. rewrite S in Sy. unfold second_moment. rewrite Gy. rewrite Sy. reflexivity. }
    assert (INV : invertible inverse (pa_damping a) C).
    { intros m t c L. destruct (C2 m t c L) as (I & ->). destruct (C1 m I) as (dv & L'). rewrite L in L'. injection L' as ->. cbn [snd]. destruct (second_moment_facts exact ms (length sids) M m ST N0 I) as (d' & t' & k & G & Ek & SY & W & PD). exists k. split; [exact (proj1 SY)|].
      intros b Sb Wb Eb. specialize (IV m _ G). cbn [snd] in IV. rewrite <- Ek in IV. apply IV; [|exact Wb|].
      - split; [exact Sb|]. intros i j Li Lj. rewrite !Eb by assumption. f_equal; [exact (proj2 SY i j Li Lj)|]. unfold ident. rewrite (Nat.eqb_sym i j). reflexivity.
      - apply (damped_posdef k (second_moment M m) b d PD D0 D1). intros i j Li Lj. rewrite (Eb i j Li Lj), Ed. reflexivity. }
    assert (PK : picks_raw "auto" C Q). { right. split; [reflexivity|]. split; [exact NQ|]. unfold auto_raw. destruct Q as [|[m x] Q']; [congruence|]. cbn [dkeys map fst]. destruct (C1 m (QM m (or_introl eq_refl))) as (dv & ->). reflexivity. }
    destruct (raw_solves eigh inverse qids _ C Q (pa_damping a) "auto" IC RR INV (proj1 PQ) PK RD) as (s1 & P & EP & _ & KP & _ & _ & SOL).
    assert (SOL2 : forall m g, grad_of Q m = Some (Cpu, g) -> exists v, grad_of P m = Some (Cpu, v) /\ raw_solution d (second_moment M m) v g).
    { intros m g G. assert (I : In m (dkeys Q)) by (eapply look_in; exact G). destruct (C1 m (QM m I)) as (dv & L). destruct (SOL m Cpu g _ G L) as (v & Gq & Rq). exists v. split; [exact Gq|]. cbn [snd] in Rq. rewrite Ed in Rq. exact Rq. }
    assert (SS : same_sizes Q P). { intros m x y Gx Gy. assert (I : In m (dkeys Q)) by (eapply look_in; exact Gx). destruct PQ as (_ & PQ). destruct (PQ m I) as (x' & i & j & G & _). rewrite Gx in G. injection G as ->. destruct (SOL2 m x' Gx) as (v & Gq & n & rest & S1 & S2 & _). rewrite Gy in Gq. injection Gq as ->. cbn [snd]. congruence. }
    destruct ES as (Q1 & _ & _ & Q4 & _).
    destruct (light_scores a bs2 es2 q' exact ms sids qids Q M P s1) as (qf & o & I1 & I2 & _ & I4); auto; try congruence.
    exists qf, o, P. auto.
  Qed.

  Theorem light_influence_kfac ms a (q : pl) bs es sids (M : tlog) q' bs2 es2 qids (Q : tlog) d :
    new_light "kfac" ms q -> light_training ms a q bs sids M -> let cs := light_calls kind mask body q bs in Forall call_ok cs -> tr_scores (pl_t q) = None -> tr_built (pl_t q) = None -> matrices ms M ->
    pl_extract a (bs :: es) q = (q', Ok tt) -> one_device (state_of q') -> light_testing q' bs2 qids Q -> (forall m, In m (dkeys Q) -> factored cs Q m) ->
    pa_imode a = "dot" -> pa_damping a = Some d -> fle f0 d -> d <> f0 -> eigh_contract eigh -> decomposes eigh cs ->
    Q <> [] -> plain_log Cpu (length qids) Q -> within Q M -> (forall m, In m ms -> In m (dkeys Q)) ->
    exists qf o P, pl_influence a (bs2 :: es2) q' = (qf, Ok (Some o)) /\ tr_scores (pl_t qf) = Some o /\
      saved (tr_ifn (pl_t qf)) (InfRes qids sids (final (fun l => score_matrix P M l (length qids) (length sids)) None (dkeys Q))) /\
      dkeys P = dkeys Q /\
      (forall m g, grad_of Q m = Some (Cpu, g) -> exists v, grad_of P m = Some (Cpu, v) /\ kron_solution d (factor cs m "backward") (factor cs m "forward") v g).
  Proof.
    intros HN HT cs HC NR NB HM EX OD TE FD Em Ed D0 D1 IC DE NQ PQ WI SUB.
    destruct (light_kfac ms a q bs es sids M HN HT HC) as (p1 & C & E1 & ES & EA & LB & PS & RR & C1 & C2). fold cs in C1, C2. rewrite EX in E1. injection E1 as <-.
    destruct HT as (NE & ND & HI & HB & NDs & HO & _ & (dt & e & exact & CD & ST) & _ & _ & _ & _ & ks & _ & _ & _ & SP). pose proof (splits_ne ks sids SP) as NS.
    assert (FF : forall m, In m (dkeys Q) -> exists ef eb, look C m "forward" = Some (ef, factor cs m "forward") /\ look C m "backward" = Some (eb, factor cs m "backward") /\ ef = eb).
    { intros m I. destruct (FD m I) as (dv & g & n & i & j & G & S & K). destruct (K "forward" j (or_introl eq_refl)) as (K1 & _). destruct (K "backward" i (or_intror (or_introl eq_refl))) as (K2 & _).
      destruct (C1 m "forward" ltac:(discriminate) K1) as (ef & L1). destruct (C1 m "backward" ltac:(discriminate) K2) as (eb & L2). exists ef, eb. split; [exact L1|]. split; [exact L2|]. exact (OD C (proj1 RR) m _ _ L1 L2). }
    assert (KD : forall m, In m (dkeys Q) -> kfac_data C Q m).
    { intros m I. destruct (FD m I) as (dv & g & n & i & j & G & S & K). destruct (FF m I) as (ef & eb & L1 & L2 & <-). destruct (K "forward" j (or_introl eq_refl)) as (_ & W1 & A1 & B1). destruct (K "backward" i (or_intror (or_introl eq_refl))) as (_ & W2 & A2 & B2).
      destruct (factor_facts cs m "forward" j W1) as (Y1 & _ & Z1). destruct (factor_facts cs m "backward" i W2) as (Y2 & _ & Z2).
      destruct PQ as (_ & PQ). destruct (PQ m I) as (x & i' & j' & G' & S' & W). rewrite G in G'. injection G' as -> ->.
      exists Cpu, n, i, j, x, ef, (factor cs m "forward"), (factor cs m "backward"). auto 15. }
    assert (SV : solvable eigh C).
    { intros m t c L. destruct (C2 m t c L) as (Nt & Nc). destruct (C1 m t Nt Nc) as (dv & L'). rewrite L in L'. injection L' as ->. cbn [snd]. exact (DE m t Nc). }
    assert (PK : picks_kfac "auto" C Q). { right. split; [reflexivity|]. split; [exact NQ|]. unfold auto_raw. destruct Q as [|[m x] Q']; [congruence|]. cbn [dkeys map fst]. destruct (look C m "grad") as [c|] eqn:L; [|reflexivity]. destruct (C2 m "grad" c L) as (Z & _). congruence. }
    destruct (kfac_solves eigh inverse qids _ C Q d "auto" IC RR SV (proj1 PQ) PK KD D0 D1) as (s1 & P & EP & _ & KP & _ & _ & SOL). rewrite <- Ed in EP.
    assert (SOL2 : forall m g, grad_of Q m = Some (Cpu, g) -> exists v, grad_of P m = Some (Cpu, v) /\ kron_solution d (factor cs m "backward") (factor cs m "forward") v g).
    { intros m g G. assert (I : In m (dkeys Q)) by (eapply look_in; exact G). destruct (FF m I) as (ef & eb & L1 & L2 & _). exact (SOL m Cpu g _ _ G L1 L2). }
    assert (SS : same_sizes Q P). { intros m x y Gx Gy. assert (I : In m (dkeys Q)) by (eapply look_in; exact Gx). destruct PQ as (_ & PQ). destruct (PQ m I) as (x' & i & j & G & _). rewrite Gx in G. injection G as ->. destruct (SOL2 m x' Gx) as (v & Gq & n & r1 & r2 & S1 & S2 & _). rewrite Gy in Gq. injection Gq as ->. cbn [snd]. congruence. }
    destruct ES as (Q1 & _ & _ & Q4 & _).
    destruct (light_scores a bs2 es2 q' exact ms sids qids Q M P s1) as (qf & o & I1 & I2 & _ & I4); auto; try congruence.
    exists qf, o, P. auto.
  Qed.
End P.
