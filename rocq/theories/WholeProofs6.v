(** Whole runs: influence scores with damped second moments, and with Kronecker factors. *)
From Coq Require Import ZArith Permutation Lia.
From Verif Require Import Py PyStr Field Tensor ModelGrad Monad ModelState ModelMmap ModelSaver ModelLoader ModelLogger ModelModules ModelLora ModelScheduler ModelInfluence ModelUtils ModelTrainer SpecGrad SpecState SpecStore SpecLogger SpecInfluence SpecRows SpecTrainer SpecDisk SpecWhole StateProofs1 StateProofs3 StateProofs4 StateProofs5 GradProofs1 LogProofs1 LogProofs8 LogProofs9 InfProofs1 InfProofs2 InfProofs3 InfProofs4 InfProofs5 InfProofs6 InfProofs7 InfProofs8 InfProofs9 InfProofs10 TrainProofs1 TrainProofs2 TrainProofs3 TrainProofs4 WatchProofs2 ViewProofs ViewProofs2 DiskProofs1 DiskProofs2 DiskProofs3 WholeProofs1 WholeProofs2 WholeProofs3 WholeProofs4 WholeProofs5.
Local Open Scope string_scope.
Local Open Scope list_scope.
Local Open Scope nat_scope.

Section P.
  Context {F : Type} `{OField F}.
  Add Field wp6field : f_theory.
  Notation tensor := (tensor F).
  Notation dten := (@dten F).
  Notation lx := (@lx F).
  Notation lstate := (@lstate F).
  Notation tlog := (@tlog F).
  Notation tr := (@tr F).
  Context (rnd : mid -> list nat -> F) (svd : tensor -> res tensor) (kind : mid -> mkind) (wsize : mid -> nat).
  Context (eigh : tensor -> res (tensor * tensor)) (inverse : tensor -> res tensor) (fsqrt : F -> F).
  Context (enc : dten -> array) (dec : array -> dten) (show : did -> string).
  Context (tok : option (ModelUtils.data -> res (list string))) (hash : string -> string).
  Notation extract_log := (extract_log rnd svd kind eigh inverse fsqrt enc dec show tok hash).
  Notation influence := (influence rnd svd kind eigh inverse fsqrt enc dec show tok hash).
  Notation new_run := (new_run kind wsize eigh enc).
  Notation training := (training rnd svd kind eigh enc dec show tok hash).
  Notation testing := (testing rnd svd kind eigh enc show tok hash).

  Lemma no_stats mods names mask off g : forall es h cs, stat_calls kind mods names (Opts [] [] g) mask off h cs es = [].
  Proof.
    assert (R : forall m t d, reaches kind mods names mask off m [] t d = []). { intros m t d. unfold reaches. cbn [map concat]. induction (times m mods) as [|n IH]; [reflexivity|exact IH]. }
    induction es as [|e es IH]; intros h cs; [reflexivity|]. destruct e; cbn [stat_calls o_forward o_backward]; try apply IH.
    - destruct ins as [|i [|]]; cbn [app]; rewrite ?R; apply IH.
    - destruct (dget c cs); [|apply IH]. destruct gs as [|i [|]]; cbn [app]; rewrite ?R; apply IH.
  Qed.
  Lemma no_epoch_stats mods names off g : forall bs h, epoch_calls kind mods names (Opts [] [] g) off h bs = [].
  Proof. induction bs as [|b bs IH]; intros h; [reflexivity|]. cbn [epoch_calls]. rewrite no_stats, IH. reflexivity. Qed.
  Lemma look_some (s : lstate) (C : tlog) m t x : dget "covariance_state" (attrs s) = Some (log_nd C) -> stored s SCov m t = Some x -> exists dv, look C m t = Some (dv, x).
  Proof. intros E S. rewrite (look_stored s C SCov m t E) in S. destruct (look C m t) as [[dv y]|]; [|discriminate S]. injection S as ->. eauto. Qed.
  Lemma look_none (s : lstate) (C : tlog) m t : dget "covariance_state" (attrs s) = Some (log_nd C) -> stored s SCov m t = None -> look C m t = None.
  Proof. intros E S. rewrite (look_stored s C SCov m t E) in S. destruct (look C m t); [discriminate S|reflexivity]. Qed.
  Lemma nil_length {A} (l : list A) : splits [length l] (length l) \/ l = [].
  Proof. destruct l; [right; reflexivity|left]. split; [discriminate|]. split; [repeat constructor; discriminate|]. cbn. lia. Qed.
  Lemma splits_ne {A} ks (l : list A) : splits ks (length l) -> l <> [].
  Proof. intros (A1 & A2 & A3) ->. destruct ks as [|k ks]; [congruence|]. apply Forall_inv in A2. cbn in A3. lia. Qed.

  (** ---- the logging run ---- *)
  Theorem extract_raw ms a p steps sids (M : tlog) : new_run "raw" ms a p -> training ms a p steps sids M ->
    exists p' C, extract_log a [steps] p = (p', Ok tt) /\ tr_acc p' = tr_acc p /\ same_results p p' /\
      (let x := lm_x (tr_lm p') in
       log_batches dec show (ha_bs a) (x_dir x) = Ok (batches 0 (map (@length string) (chunks (ha_bs a) sids)) sids (regrad ms M)) /\
       plain_state (x_state x) /\ raw_ready inverse (x_state x) C (ha_damping a) /\
       (forall m, In m ms -> exists dv, look C m "grad" = Some (dv, second_moment M m)) /\
       (forall m t c, look C m t = Some c -> In m ms /\ t = "grad")).
  Proof.
    intros HN HT. destruct (extract_run rnd svd kind wsize eigh inverse fsqrt enc dec show tok hash "raw" ms a p steps sids M (or_introl eq_refl) HN HT) as (p' & ks & lc & s & E1 & E2 & E3 & SP & EO & E4 & HF & R1 & R2 & dk & dk' & E5).
    { cbv zeta. change (x_opt (begun "raw" (lm_x (tr_lm p)))) with (Opts [] [] [PLog; PCovariance]). rewrite no_epoch_stats. constructor. }
    destruct HN as (_ & _ & HN). cbv zeta in HN. destruct HN as (_ & HP & _). destruct HT as (_ & ND & HI & _ & _ & _ & (dt & e & exact & CD & ST) & _).
    destruct (finalize_struct dk dk' lc _ _ _ HP R1 R2 E5) as (G1 & G2 & C & HC). destruct (init_plain _ G1 G2) as (P1 & P2 & P3).
    exists p', C. split; [exact E1|]. split; [exact E2|]. split; [exact E3|]. cbv zeta. split; [exact E4|]. split; [exact P1|]. split; [split; [exact HC|left; split; assumption]|].
    destruct HF as [HF1 HF2]. cbv zeta in HF2. rewrite EO in *. change (run_opts "raw") with (Opts [] [] [PLog; PCovariance]) in *. rewrite no_epoch_stats in HF2.
    destruct HC as [HC _]. split.
    - intros m I. destruct ST as (U & _ & ST). destruct (ST m I) as (d & t & k & rest & G & S & _ & _). destruct (U m "grad" _ G) as (r & S' & W). cbn [snd] in *. rewrite S in S'. injection S' as <-.
      destruct (parts_moment m M d t (length sids) (k :: rest) ks SCov G S W SP) as (NG & EM). destruct (HF1 SCov m) as [HF3 _]. specialize (HF3 ltac:(cbn; auto) NG). rewrite EM in HF3.
      destruct (look_some _ C m "grad" _ HC HF3) as (dv & L). exists dv. rewrite L. unfold second_moment, grad_of. rewrite G. cbn [snd]. unfold batch_size. rewrite S. reflexivity.
    - intros m t c L. assert (X : t = "grad"). { destruct (string_dec t "grad") as [|Ne]; [assumption|]. destruct (HF2 SCov m t Ne) as [Z _]. rewrite (look_none _ C m t HC (Z eq_refl)) in L. discriminate L. }
      split; [|exact X]. subst t. destruct (in_dec string_dec m ms) as [|Ni]; [assumption|]. exfalso. destruct (HF1 SCov m) as [_ Z].
      assert (GN : grad_of M m = None). { unfold grad_of, look. assert (D : dget m M = None) by (apply dget_None_keys; intros J; apply Ni, HI, J). rewrite D. reflexivity. }
      rewrite (look_none _ C m "grad" HC (Z (or_intror (parts_none m M GN ks 0)))) in L. discriminate L.
  Qed.
  Lemma second_moment_facts exact ms n (M : tlog) m : storable exact ms n M -> n <> 0 -> In m ms ->
    exists d t k, grad_of M m = Some (d, t) /\ k = prod (tl (shape t)) /\ symmetric k (second_moment M m) /\ twf (second_moment M m) /\ psd k (second_moment M m).
  Proof.
    intros (U & _ & ST) N0 I. destruct (ST m I) as (d & t & k & rest & G & S & _ & _). exists d, t, (prod (tl (shape t))). split; [exact G|]. split; [reflexivity|].
    unfold second_moment, grad_of. rewrite G. cbn [snd]. split; [split; [reflexivity|intros i j Li Lj; apply moment_sym; assumption]|]. split; [apply tgen_wf|].
    intros v. apply moment_psd; [apply fnat_nonneg|apply fnat_neq_0]. unfold batch_size. rewrite S. exact N0.
  Qed.

  Theorem influence_raw ms a p steps sids (M : tlog) p' epochs qids (Q : tlog) d :
    new_run "raw" ms a p -> training ms a p steps sids M -> no_results p -> matrices ms M ->
    extract_log a [steps] p = (p', Ok tt) -> testing a p' epochs qids Q ->
    ha_imode a = "dot" -> ha_damping a = Some d -> fle f0 d -> d <> f0 -> inverse_contract inverse -> (forall m x, grad_of M m = Some x -> inverts inverse (prod (tl (shape (snd x))))) ->
    groups_ok (ha_groups a) -> groups_hit (ha_groups a) (dkeys Q) -> Q <> [] -> plain_log Cpu (length qids) Q -> within Q M -> (forall m, In m ms -> In m (dkeys Q)) ->
    exists pf o P, influence a epochs p' = (pf, Ok (Some o)) /\ tr_scores pf = Some o /\
      saved (tr_ifn pf) (InfRes qids sids (final (fun l => score_matrix P M l (length qids) (length sids)) (ha_groups a) (dkeys Q))) /\
      dkeys P = dkeys Q /\
      (forall m g, grad_of Q m = Some (Cpu, g) -> exists q, grad_of P m = Some (Cpu, q) /\ raw_solution d (second_moment M m) q g).
  Proof.
    intros HN HT NR HM EX TE Em Ed D0 D1 IC IV GO GH NQ PQ WI SUB.
    destruct (extract_raw ms a p steps sids M HN HT) as (p1 & C & E1 & EA & ES & LB & PS & RR & C1 & C2). rewrite EX in E1. injection E1 as <-.
    destruct HT as (NE & ND & HI & HB & NDs & HO & (dt & e & exact & CD & ST) & _ & _ & _ & ks & _ & _ & _ & SP). pose proof (splits_ne ks sids SP) as NS.
    assert (N0 : length sids <> 0) by (destruct sids; [congruence|discriminate]).
    assert (QM : forall m, In m (dkeys Q) -> In m ms). { intros m I. destruct PQ as (_ & PQ). destruct (PQ m I) as (x & i & j & G & _). destruct (WI m _ G) as (y & Gy & _). apply HI. eapply look_in. exact Gy. }
    assert (RD : forall m, In m (dkeys Q) -> raw_data C Q m).
    { intros m I. destruct PQ as (_ & PQ). destruct (PQ m I) as (x & i & j & G & S & W). destruct (C1 m (QM m I)) as (dv & L). exists Cpu, (length qids), [i; j], x, dv, (second_moment M m).
      destruct TE as (_ & _ & _ & _ & _ & _ & ks' & _ & _ & _ & SP'). pose proof (splits_ne ks' qids SP') as NQ'.
      repeat (split; [assumption || (destruct qids; [congruence|discriminate])|]). destruct (WI m _ G) as (y & Gy & Sy). cbn [snd] in Sy. rewrite S in Sy. unfold second_moment. rewrite Gy. rewrite Sy. reflexivity. }
    assert (INV : invertible inverse (ha_damping a) C).
    { intros m t c L. destruct (C2 m t c L) as (I & ->). destruct (C1 m I) as (dv & L'). rewrite L in L'. injection L' as ->. cbn [snd]. destruct (second_moment_facts exact ms (length sids) M m ST N0 I) as (d' & t' & k & G & Ek & SY & W & PD). exists k. split; [exact (proj1 SY)|].
      intros b Sb Wb Eb. specialize (IV m _ G). cbn [snd] in IV. rewrite <- Ek in IV. apply IV; [|exact Wb|].
      - split; [exact Sb|]. intros i j Li Lj. rewrite !Eb by assumption. f_equal; [exact (proj2 SY i j Li Lj)|]. unfold ident. rewrite (Nat.eqb_sym i j). reflexivity.
      - apply (damped_posdef k (second_moment M m) b d PD D0 D1). intros i j Li Lj. rewrite (Eb i j Li Lj), Ed. reflexivity. }
    assert (PK : picks_raw "auto" C Q). { right. split; [reflexivity|]. split; [exact NQ|]. unfold auto_raw. destruct Q as [|[m x] Q']; [congruence|]. cbn [dkeys map fst]. destruct (C1 m (QM m (or_introl eq_refl))) as (dv & ->). reflexivity. }
    destruct (raw_solves eigh inverse qids _ C Q (ha_damping a) "auto" IC RR INV (proj1 PQ) PK RD) as (s1 & P & EP & _ & KP & _ & _ & SOL).
    assert (SOL2 : forall m g, grad_of Q m = Some (Cpu, g) -> exists q, grad_of P m = Some (Cpu, q) /\ raw_solution d (second_moment M m) q g).
    { intros m g G. assert (I : In m (dkeys Q)) by (eapply look_in; exact G). destruct (C1 m (QM m I)) as (dv & L). destruct (SOL m Cpu g _ G L) as (q & Gq & Rq). exists q. split; [exact Gq|]. cbn [snd] in Rq. rewrite Ed in Rq. exact Rq. }
    assert (SS : same_sizes Q P). { intros m x y Gx Gy. assert (I : In m (dkeys Q)) by (eapply look_in; exact Gx). destruct PQ as (_ & PQ). destruct (PQ m I) as (x' & i & j & G & _). rewrite Gx in G. injection G as ->. destruct (SOL2 m x' Gx) as (q & Gq & n & rest & S1 & S2 & _). rewrite Gy in Gq. injection Gq as ->. cbn [snd]. congruence. }
    assert (NRp : no_results p'). { destruct NR as (N1 & N2 & N3 & N4). destruct ES as (Q1 & _ & _ & Q4 & Q5). repeat split; congruence. }
    destruct HN as (_ & Ei & _).
    destruct (scores_run rnd svd kind eigh inverse fsqrt enc dec show tok hash a epochs p' exact ms sids qids Q M P s1) as (pf & o & I1 & I2 & _ & I4); auto.
    exists pf, o, P. auto.
  Qed.

  (** ---- Kronecker factors ---- *)
  Theorem extract_kfac ms a p steps sids (M : tlog) : new_run "kfac" ms a p -> training ms a p steps sids M -> let cs := factor_calls kind a p steps in Forall call_ok cs ->
    exists p' C, extract_log a [steps] p = (p', Ok tt) /\ tr_acc p' = tr_acc p /\ same_results p p' /\
      (let x := lm_x (tr_lm p') in
       log_batches dec show (ha_bs a) (x_dir x) = Ok (batches 0 (map (@length string) (chunks (ha_bs a) sids)) sids (regrad ms M)) /\
       plain_state (x_state x) /\ kfac_ready eigh (x_state x) C /\
       (forall m t, t <> "grad" -> calls_for SCov m t cs <> [] -> exists dv, look C m t = Some (dv, factor cs m t)) /\
       (forall m t c, look C m t = Some c -> t <> "grad" /\ calls_for SCov m t cs <> [])).
  Proof.
    intros HN HT cs HC0. destruct (extract_run rnd svd kind wsize eigh inverse fsqrt enc dec show tok hash "kfac" ms a p steps sids M (or_intror eq_refl) HN HT HC0) as (p' & ks & lc & s & E1 & E2 & E3 & SP & EO & E4 & HF & R1 & R2 & dk & dk' & E5).
    destruct HN as (_ & _ & HN). cbv zeta in HN. destruct HN as (_ & HP & _).
    destruct (finalize_struct dk dk' lc _ _ _ HP R1 R2 E5) as (G1 & G2 & C & HC). destruct (init_plain _ G1 G2) as (P1 & _ & _). destruct (init_caches _ G1 G2) as (X1 & X2 & X3 & X4 & X5).
    exists p', C. split; [exact E1|]. split; [exact E2|]. split; [exact E3|]. cbv zeta. split; [exact E4|]. split; [exact P1|]. split; [split; [exact HC|split; [exact X1|left; auto]]|].
    destruct HF as [HF1 HF2]. cbv zeta in HF2. rewrite EO in HF1. change (run_opts "kfac") with (Opts [PCovariance] [PCovariance] [PLog]) in HF1. 
    destruct HC as [HC _]. split.
    - intros m t Nt Nc. destruct (HF2 SCov m t Nt) as [_ Z]. exact (look_some _ C m t _ HC (Z Nc)).
    - intros m t c L. assert (X : t <> "grad"). { intros ->. destruct (HF1 SCov m) as [_ Z]. rewrite (look_none _ C m "grad" HC (Z (or_introl (fun q => q)))) in L. discriminate L. }
      split; [exact X|]. intros Z. destruct (HF2 SCov m t X) as [Z1 _]. rewrite (look_none _ C m t HC (Z1 Z)) in L. discriminate L.
  Qed.
  Lemma factor_facts cs m t k : let ccs := calls_for (F:=F) SCov m t cs in width (all_rows ccs) = k -> symmetric k (factor cs m t) /\ twf (factor cs m t) /\ (fle f0 (all_count ccs) -> all_count ccs <> f0 -> psd k (factor cs m t)).
  Proof.
    intros ccs E. unfold factor. fold ccs. rewrite E. split; [split; [reflexivity|intros i j Li Lj; apply moment_sym; assumption]|]. split; [apply tgen_wf|]. intros P0 P1 v. apply moment_psd; assumption.
  Qed.
  Theorem influence_kfac ms a p steps sids (M : tlog) p' epochs qids (Q : tlog) d :
    new_run "kfac" ms a p -> training ms a p steps sids M -> let cs := factor_calls kind a p steps in Forall call_ok cs -> no_results p -> matrices ms M ->
    extract_log a [steps] p = (p', Ok tt) -> one_device (x_state (lm_x (tr_lm p'))) -> testing a p' epochs qids Q -> (forall m, In m (dkeys Q) -> factored cs Q m) ->
    ha_imode a = "dot" -> ha_damping a = Some d -> fle f0 d -> d <> f0 -> eigh_contract eigh -> decomposes eigh cs ->
    groups_ok (ha_groups a) -> groups_hit (ha_groups a) (dkeys Q) -> Q <> [] -> plain_log Cpu (length qids) Q -> within Q M -> (forall m, In m ms -> In m (dkeys Q)) ->
    exists pf o P, influence a epochs p' = (pf, Ok (Some o)) /\ tr_scores pf = Some o /\
      saved (tr_ifn pf) (InfRes qids sids (final (fun l => score_matrix P M l (length qids) (length sids)) (ha_groups a) (dkeys Q))) /\
      dkeys P = dkeys Q /\
      (forall m g, grad_of Q m = Some (Cpu, g) -> exists q, grad_of P m = Some (Cpu, q) /\ kron_solution d (factor cs m "backward") (factor cs m "forward") q g).
  Proof.
    intros HN HT cs HC NR HM EX OD TE FD Em Ed D0 D1 IC DE GO GH NQ PQ WI SUB.
    destruct (extract_kfac ms a p steps sids M HN HT HC) as (p1 & C & E1 & EA & ES & LB & PS & RR & C1 & C2). fold cs in C1, C2. rewrite EX in E1. injection E1 as <-.
    destruct HT as (NE & ND & HI & HB & NDs & HO & (dt & e & exact & CD & ST) & _ & _ & _ & ks & _ & _ & _ & SP). pose proof (splits_ne ks sids SP) as NS.
    assert (FF : forall m, In m (dkeys Q) -> exists ef eb, look C m "forward" = Some (ef, factor cs m "forward") /\ look C m "backward" = Some (eb, factor cs m "backward") /\ ef = eb).
    { intros m I. destruct (FD m I) as (dv & g & n & i & j & G & S & K). destruct (K "forward" j (or_introl eq_refl)) as (K1 & _). destruct (K "backward" i (or_intror (or_introl eq_refl))) as (K2 & _).
      destruct (C1 m "forward" ltac:(discriminate) K1) as (ef & L1). destruct (C1 m "backward" ltac:(discriminate) K2) as (eb & L2). exists ef, eb. split; [exact L1|]. split; [exact L2|]. exact (OD C (proj1 RR) m _ _ L1 L2). }
    assert (KD : forall m, In m (dkeys Q) -> kfac_data C Q m).
    { intros m I. destruct (FD m I) as (dv & g & n & i & j & G & S & K). destruct (FF m I) as (ef & eb & L1 & L2 & <-). destruct (K "forward" j (or_introl eq_refl)) as (_ & W1 & A1 & B1). destruct (K "backward" i (or_intror (or_introl eq_refl))) as (_ & W2 & A2 & B2).
      destruct (factor_facts cs m "forward" j W1) as (Y1 & _ & Z1). destruct (factor_facts cs m "backward" i W2) as (Y2 & _ & Z2).
      destruct PQ as (_ & PQ). destruct (PQ m I) as (x & i' & j' & G' & S' & W). rewrite G in G'. injection G' as -> ->.
      exists Cpu, n, i, j, x, ef, (factor cs m "forward"), (factor cs m "backward"). auto 15. }
    assert (SV : solvable eigh C).
    { intros m t c L. destruct (C2 m t c L) as (Nt & Nc). destruct (C1 m t Nt Nc) as (dv & L'). rewrite L in L'. injection L' as ->. cbn [snd]. exact (DE m t Nc). }
    assert (PK : picks_kfac "auto" C Q). { right. split; [reflexivity|]. split; [exact NQ|]. unfold auto_raw. destruct Q as [|[m x] Q']; [congruence|]. cbn [dkeys map fst]. destruct (look C m "grad") as [c|] eqn:L; [|reflexivity]. destruct (C2 m "grad" c L) as (Z & _). congruence. }
    destruct (kfac_solves eigh inverse qids _ C Q d "auto" IC RR SV (proj1 PQ) PK KD D0 D1) as (s1 & P & EP & _ & KP & _ & _ & SOL). rewrite <- Ed in EP.
    assert (SOL2 : forall m g, grad_of Q m = Some (Cpu, g) -> exists q, grad_of P m = Some (Cpu, q) /\ kron_solution d (factor cs m "backward") (factor cs m "forward") q g).
    { intros m g G. assert (I : In m (dkeys Q)) by (eapply look_in; exact G). destruct (FF m I) as (ef & eb & L1 & L2 & _). exact (SOL m Cpu g _ _ G L1 L2). }
    assert (SS : same_sizes Q P). { intros m x y Gx Gy. assert (I : In m (dkeys Q)) by (eapply look_in; exact Gx). destruct PQ as (_ & PQ). destruct (PQ m I) as (x' & i & j & G & _). rewrite Gx in G. injection G as ->. destruct (SOL2 m x' Gx) as (q & Gq & n & r1 & r2 & S1 & S2 & _). rewrite Gy in Gq. injection Gq as ->. cbn [snd]. congruence. }
    assert (NRp : no_results p'). { destruct NR as (N1 & N2 & N3 & N4). destruct ES as (Q1 & _ & _ & Q4 & Q5). repeat split; congruence. }
    destruct HN as (_ & Ei & _).
    destruct (scores_run rnd svd kind eigh inverse fsqrt enc dec show tok hash a epochs p' exact ms sids qids Q M P s1) as (pf & o & I1 & I2 & _ & I4); auto.
    exists pf, o, P. auto.
  Qed.
End P.
