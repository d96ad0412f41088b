(** Whole runs: scores of an influence run after a logging run. *)
From Coq Require Import ZArith Permutation Lia.
From Verif Require Import Py PyStr Field Tensor ModelGrad Monad ModelState ModelMmap ModelSaver ModelLoader ModelLogger ModelModules ModelLora ModelScheduler ModelInfluence ModelUtils ModelTrainer SpecGrad SpecState SpecStore SpecLogger SpecInfluence SpecRows SpecTrainer SpecDisk SpecWhole StateProofs1 StateProofs3 StateProofs4 StateProofs5 GradProofs1 LogProofs1 LogProofs8 LogProofs9 InfProofs1 InfProofs2 InfProofs3 InfProofs4 InfProofs5 InfProofs6 InfProofs7 InfProofs8 InfProofs9 InfProofs10 TrainProofs1 TrainProofs2 TrainProofs3 TrainProofs4 WatchProofs2 ViewProofs ViewProofs2 DiskProofs1 DiskProofs2 DiskProofs3 WholeProofs1 WholeProofs2 WholeProofs3 WholeProofs4.
Local Open Scope string_scope.
Local Open Scope list_scope.
Local Open Scope nat_scope.

Section P.
  Context {F : Type} `{OField F}.
  Add Field wp5field : f_theory.
  Notation tensor := (tensor F).
  Notation dten := (@dten F).
  Notation lx := (@lx F).
  Notation lstate := (@lstate F).
  Notation tlog := (@tlog F).
  Notation tr := (@tr F).
  Context (rnd : mid -> list nat -> F) (svd : tensor -> res tensor) (kind : mid -> mkind) (wsize : mid -> nat).
  Context (eigh : tensor -> res (tensor * tensor)) (inverse : tensor -> res tensor) (fsqrt : F -> F).
  Context (enc : dten -> array) (dec : array -> dten) (show : did -> string).
  Context (tok : option (ModelUtils.data -> res (list string))) (hash : string -> string).
  Notation extract_log := (extract_log rnd svd kind eigh inverse fsqrt enc dec show tok hash).
  Notation influence := (influence rnd svd kind eigh inverse fsqrt enc dec show tok hash).
  Notation precondition := (precondition eigh inverse).
  Notation new_run := (new_run kind wsize eigh enc).
  Notation training := (training rnd svd kind eigh enc dec show tok hash).
  Notation testing := (testing rnd svd kind eigh enc show tok hash).

  Lemma chunk_splits {A} b (l : list A) : 0 < b -> l <> [] -> splits (map (@length A) (chunks b l)) (length l).
  Proof.
    intros B N. unfold chunks. assert (K : forall f (l : list A), length l <= f -> Forall (fun k => k <> 0) (map (@length A) (chunks_fuel f b l)) /\ fold_right Nat.add 0 (map (@length A) (chunks_fuel f b l)) = length l).
    { induction f as [|f IH]; intros r L; [destruct r; [split; [constructor|reflexivity]|cbn in L; lia]|]. destruct r as [|y r]; [split; [constructor|reflexivity]|].
      change (chunks_fuel (S f) b (y :: r)) with (firstn b (y :: r) :: chunks_fuel f b (skipn b (y :: r))). cbn [map fold_right].
      assert (L2 : length (skipn b (y :: r)) <= f) by (rewrite skipn_length; cbn [length] in *; lia). destruct (IH _ L2) as [I1 I2]. rewrite I2, skipn_length, firstn_length.
      split; [constructor; [cbn [length]; lia|exact I1]|]. cbn [length] in *. lia. }
    destruct (K (length l) l (le_n _)) as [K1 K2]. split; [|split; assumption]. destruct l as [|y r]; [congruence|]. cbn [length]. destruct b; [lia|]. discriminate.
  Qed.
  Lemma begin_state a (p p0 : tr) : ha_init a = false -> on_train_begin rnd svd a (tr_set_mode p "influence") = (p0, Ok tt) ->
    x_state (lm_x (tr_lm p0)) = x_state (lm_x (tr_lm p)) /\ x_dir (lm_x (tr_lm p0)) = x_dir (lm_x (tr_lm p)).
  Proof.
    intros Ei E. unfold on_train_begin in E. rewrite Ei in E. unfold sbind at 1 in E. unfold sget at 1 in E. apply sbind_ok in E as (q & [] & Eq & E). injection Eq as <-. cbn [tr_set_mode tr_mode] in E.
    change (mem "influence" ["influence"; "self_influence"]) with true in E. apply sbind_ok in E as (q1 & [] & E1 & E). unfold on_tlm, on_x, lx_setup in E1. remember (opt_setup [("grad", [AStr "log"])]) as z eqn:Ez. vm_compute in Ez. subst z. injection E1 as <-.
    unfold on_tlm, on_x, lx_eval, lx_save in E. injection E as <-. split; reflexivity.
  Qed.
  (** ---- what is read back ---- *)
  Lemma regrad_grad ms (M : tlog) m d t : In m ms -> grad_of M m = Some (d, t) -> NoDup ms -> grad_of (regrad ms M) m = Some (Cpu, t).
  Proof.
    intros I G N. unfold grad_of, look in *. unfold regrad. induction ms as [|m' ms IH]; [destruct I|]. cbn [map dget fst]. destruct (eqb_spec m m') as [->|Ne].
    - unfold look. rewrite G. reflexivity.
    - destruct I as [->|I]; [congruence|]. inversion N; subst. apply IH; assumption.
  Qed.
  Lemma regrad_keys ms (M : tlog) : dkeys (regrad ms M) = ms.
  Proof. unfold regrad, dkeys. rewrite map_map. apply map_id. Qed.
  Lemma gdot_regrad ms (P M : tlog) i j m : NoDup ms -> (forall m, In m (dkeys M) -> In m ms) -> (forall m, In m ms -> exists x, grad_of M m = Some x) -> gdot P (regrad ms M) i j m = gdot P M i j m.
  Proof.
    intros N HI HG. unfold gdot. destruct (in_dec string_dec m ms) as [I|I].
    - destruct (HG m I) as ([d t] & G). rewrite G, (regrad_grad ms M m d t I G N). reflexivity.
    - assert (K1 : grad_of (regrad ms M) m = None). { unfold grad_of, look. assert (D : dget m (regrad ms M) = None) by (apply dget_None_keys; rewrite regrad_keys; exact I). rewrite D. reflexivity. }
      assert (K2 : grad_of M m = None). { unfold grad_of, look. assert (D : dget m M = None) by (apply dget_None_keys; intros J; apply I, HI, J). rewrite D. reflexivity. }
      rewrite K1, K2. reflexivity.
  Qed.
  Lemma regrad_plain exact ms n (M : tlog) : NoDup ms -> storable exact ms n M -> matrices ms M -> plain_log Cpu n (regrad ms M).
  Proof.
    intros N (U & _ & _) HM. split; [rewrite regrad_keys; exact N|]. intros m I. rewrite regrad_keys in I. destruct (HM m I) as (d & t & n' & i & j & G & S). exists t, i, j. rewrite (regrad_grad ms M m d t I G N). destruct (U m "grad" _ G) as (r & S' & W). cbn [snd] in *.
    rewrite S in S'. injection S' as -> <-. auto.
  Qed.

  Lemma scores_run a epochs (p : tr) exact ms sids qids (Q M P : tlog) s1 :
    ha_init a = false -> ha_imode a = "dot" -> 0 < ha_bs a -> ms <> [] -> NoDup ms -> sids <> [] -> (forall m, In m (dkeys M) -> In m ms) -> storable exact ms (length sids) M -> matrices ms M ->
    no_results p -> testing a p epochs qids Q -> plain_state (x_state (lm_x (tr_lm p))) ->
    log_batches dec show (ha_bs a) (x_dir (lm_x (tr_lm p))) = Ok (batches 0 (map (@length string) (chunks (ha_bs a) sids)) sids (regrad ms M)) ->
    Q <> [] -> plain_log Cpu (length qids) Q -> within Q M -> (forall m, In m ms -> In m (dkeys Q)) -> groups_ok (ha_groups a) -> groups_hit (ha_groups a) (dkeys Q) ->
    precondition (qids, Nest (log_nd Q)) (ha_damping a) "auto" (x_state (lm_x (tr_lm p))) = (s1, Ok (qids, Nest (log_nd P))) -> same_sizes Q P ->
    exists pf o, influence a epochs p = (pf, Ok (Some o)) /\ tr_scores pf = Some o /\ x_state (lm_x (tr_lm pf)) = s1 /\
      saved (tr_ifn pf) (InfRes qids sids (final (fun l => score_matrix P M l (length qids) (length sids)) (ha_groups a) (dkeys Q))).
  Proof.
    intros Ei Em HB NE N NS HI ST HM (R1 & R2 & R3 & R4) (UQ & OQ & HE & p0 & ls & x1 & ks & EB & T1 & EL & SP) PS LB NQ PQ WI SUB GO GH EP SS.
    destruct (begin_state a p p0 Ei EB) as [Bs Bd]. pose proof (acc_begin rnd svd a _ _ _ EB) as (_ & _ & _ & _ & A1 & A2). cbn [tr_set_mode tr_built tr_loader] in A1, A2.
    set (lds := map (@length string) (chunks (ha_bs a) sids)) in *.
    destruct (fresh_loader dec show a p0 (batches 0 lds sids (regrad ms M))) as (p2 & ED & _ & _); [congruence|congruence|rewrite Bd; exact LB|].
    assert (HG : forall m, In m ms -> exists x, grad_of M m = Some x) by (intros m I; destruct (HM m I) as (d & t & n & i & j & G & _); eauto).
    pose proof (regrad_plain exact ms (length sids) M N ST HM) as PB.
    assert (WB : within Q (regrad ms M)). { intros m x G. destruct (WI m x G) as ([d t] & G2 & S2). assert (I : In m ms) by (apply HI; eapply look_in; exact G2). exists (Cpu, t). split; [apply (regrad_grad ms M m d t I G2 N)|exact S2]. }
    assert (GF : grad_first (regrad ms M)) by (destruct ms as [|m ms']; [congruence|reflexivity]).
    assert (SB : forall m, In m (dkeys (regrad ms M)) -> In m (dkeys Q)) by (intros m I; rewrite regrad_keys in I; exact (SUB m I)).
    pose proof (chunk_splits (ha_bs a) sids HB NS) as SC. fold lds in SC.
    pose proof (batches_dot eigh inverse fsqrt Cpu Q (regrad ms M) true "auto" (ha_groups a) (ha_damping a) (x_state (lm_x (tr_lm p))) qids sids lds NQ PQ PB WB (keeps_of _ _ _ _ _ _ EP SS) GF SB GO GH SC) as BD.
    rewrite (influence_prec eigh inverse fsqrt Q (Nest (log_nd (regrad ms M))) "dot" true "auto" (ha_groups a) (ha_damping a) _ s1 qids sids P eq_refl EP) in BD.
    destruct (prec_twins eigh inverse qids Cpu (length qids) Q P true (ha_damping a) "auto" _ s1 PQ EP SS) as (K & TW).
    assert (NP : P <> []) by (intros ->; apply NQ; destruct Q; [reflexivity|discriminate K]). pose proof GH as GH2. rewrite <- K in GH2.
    rewrite (influence_dot eigh inverse fsqrt Cpu P (regrad ms M) qids sids (ha_groups a) "auto" (ha_damping a) s1 NP GO GH2) in BD; [|intros m I; rewrite K in I; eapply within_paired; eauto|exact (head_prec Cpu (length qids) Q P (regrad ms M) PQ TW GF SB)]. cbn [bind] in BD.
    destruct (influence_run rnd svd kind eigh inverse fsqrt enc dec show tok hash a epochs p p0 p2 _ ls x1 ks (length qids) qids Q s1 _ EB ED R1 R2 ltac:(rewrite Bs; exact PS) HE T1 EL UQ OQ eq_refl SP ltac:(rewrite Em, Bs; exact BD)) as (pf & o & I1 & I2 & I3 & I4 & I5 & I6).
    exists pf, o. split; [exact I1|]. split; [exact I2|]. split; [rewrite I5; reflexivity|].
    replace (final (fun l => score_matrix P M l (length qids) (length sids)) (ha_groups a) (dkeys Q)) with (final (fun l => score_matrix P (regrad ms M) l (length qids) (length sids)) (ha_groups a) (dkeys P)); [exact I3|].
    rewrite K. assert (X : forall l, score_matrix P (regrad ms M) l (length qids) (length sids) = score_matrix P M l (length qids) (length sids)).
    { intros l. unfold score_matrix. apply mgen_ext. intros i j _ _. unfold score. f_equal. apply map_ext. intros m. apply gdot_regrad; assumption. }
    unfold final. destruct (ha_groups a) as [gs|]; [|rewrite X; reflexivity]. rewrite X. f_equal. f_equal. apply map_ext. intros g. rewrite X. reflexivity.
  Qed.

  (** ---- the damped second moments ---- *)
  Lemma damped_posdef n (c a : tensor) d : psd n c -> fle f0 d -> d <> f0 -> (forall i j, i < n -> j < n -> mget a i j = fadd (mget c i j) (fmul d (ident i j))) -> posdef n a.
  Proof.
    intros PC D0 D1 E v (i0 & L0 & V0). cbv zeta.
    assert (Q : sum n (fun i => sum n (fun j => fmul (fmul (v i) (mget a i j)) (v j))) = fadd (sum n (fun i => sum n (fun j => fmul (fmul (v i) (mget c i j)) (v j)))) (fmul d (sum n (fun i => fmul (v i) (v i))))).
    { rewrite <- sum_mul_l, <- sum_add. apply sum_ext. intros i Li. transitivity (sum n (fun j => fadd (fmul (fmul (v i) (mget c i j)) (v j)) (if j =? i then fmul d (fmul (v i) (v j)) else f0))).
      - apply sum_ext. intros j Lj. rewrite E by assumption. unfold ident. rewrite (Nat.eqb_sym i j). destruct (j =? i); ring.
      - rewrite sum_add. f_equal. apply (sum_delta n i (fun j => fmul d (fmul (v i) (v j))) Li). }
    rewrite Q. assert (S0 : fle f0 (sum n (fun i => fmul (v i) (v i)))) by (apply sum_nonneg; intros i _; apply fsq_nonneg).
    assert (S1 : sum n (fun i => fmul (v i) (v i)) <> f0). { intros Z. apply V0. apply fsq_0. exact (sum_nonneg_0 n (fun i => fmul (v i) (v i)) (fun i _ => fsq_nonneg (v i)) Z i0 L0). }
    specialize (PC v). assert (DS : fle f0 (fmul d (sum n (fun i => fmul (v i) (v i))))) by (apply fle_mul; assumption). split; [apply fadd_nonneg; assumption|]. intros Z.
    apply (fadd_0 _ _ PC DS) in Z as [_ Z]. apply S1. apply (fmul_0 d); assumption.
  Qed.
End P.
