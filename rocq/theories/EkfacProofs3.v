(** Whole runs with corrected eigenvalues: the epoch for the factors. *)
From Coq Require Import ZArith Permutation Lia.
From Verif Require Import Py PyStr Field Tensor ModelGrad Monad ModelState ModelMmap ModelSaver ModelLoader ModelLogger ModelModules ModelLora ModelScheduler ModelInfluence ModelUtils ModelTrainer SpecGrad SpecState SpecStore SpecLogger SpecInfluence SpecRows SpecTrainer SpecDisk SpecWhole SpecEkfac StateProofs1 StateProofs3 StateProofs4 StateProofs5 GradProofs1 LogProofs1 LogProofs8 LogProofs9 InfProofs10 TrainProofs2 ViewProofs ViewProofs2 DiskProofs1 DiskProofs2 DiskProofs3 WholeProofs1 WholeProofs2 WholeProofs3 WholeProofs4 WholeProofs6 EkfacProofs1 EkfacProofs2.
Local Open Scope string_scope.
Local Open Scope list_scope.
Local Open Scope nat_scope.

Section P.
  Context {F : Type} `{OField F}.
  Add Field ek3field : f_theory.
  Notation tensor := (tensor F).
  Notation dten := (@dten F).
  Notation lx := (@lx F).
  Notation lstate := (@lstate F).
  Notation tlog := (@tlog F).
  Notation tr := (@tr F).
  Context (rnd : mid -> list nat -> F) (svd : tensor -> res tensor) (kind : mid -> mkind) (wsize : mid -> nat).
  Context (eigh : tensor -> res (tensor * tensor)) (inverse : tensor -> res tensor) (fsqrt : F -> F).
  Context (enc : dten -> array) (dec : array -> dten) (show : did -> string).
  Context (tok : option (ModelUtils.data -> res (list string))) (hash : string -> string).
  Notation trained := (trained kind eigh enc show tok hash).
  Notation training_step := (training_step kind eigh enc tok hash).
  Notation reachable := (reachable kind wsize eigh enc).
  Notation do_epoch := (do_epoch rnd svd kind eigh inverse fsqrt enc dec show tok hash).
  Notation new_run := (new_run kind wsize eigh enc).
  Notation first_epoch := (first_epoch rnd svd kind eigh enc show tok hash).
  Notation on_epoch_begin := (on_epoch_begin rnd svd).

  (** ---- the directory of an epoch without saving ---- *)
  Definition unsaved (x x' : lx) : Prop := x_dir x' = x_dir x /\ x_saver x' = x_saver x /\ x_save x' = false.
  Lemma step_unsaved a m (x x' : lx) : x_save x = false -> s_buffer (x_saver x) = [] -> training_step a m x = (x', Ok tt) -> unsaved x x'.
  Proof.
    intros S1 SB E. pose proof (settle_empty x SB) as SE. unfold ModelTrainer.training_step in E. unfold sbind at 1, lift at 1 in E. destruct (get_data_id _ _ _ _) as [ids|e]; [|discriminate E].
    unfold sbind at 1, lift at 1 in E. destruct (get_sum_scale _ _) as [sc|e]; [|discriminate E].
    assert (G : forall y, x_dir y = x_dir x -> x_saver y = settle x -> x_save y = false -> x_save_batch y = false -> (lx_enter ;; finish eigh enc (run_evs kind eigh (mi_body m sc))) y = (x', Ok tt) -> unsaved x x').
    { intros y Y1 Y0 Y2 Y3 EY. unfold sbind in EY. destruct (lx_enter y) as [z o] eqn:EZ. apply enter_dirs in EZ. destruct EZ as (Z1 & _ & Z0 & Z2 & Z3).
      destruct o as [u|e]; [|discriminate EY]. apply finish_dirs in EY; [|congruence|congruence]. destruct EY as (W1 & _ & W0 & W2 & _). repeat split; congruence. }
    unfold block in E. destruct ids as [ids|].
    - unfold with_block, lx_call, binfo_clear in E. unfold sbind at 1 in E. unfold sbind at 1 in E. revert E. apply G; try reflexivity. exact S1.
    - unfold sbind at 1 in E. revert E. apply G; try reflexivity. exact S1.
  Qed.
  Lemma trained_unsaved a (x : lx) ms ls x1 : x_save x = false -> s_buffer (x_saver x) = [] -> trained a x ms ls x1 -> unsaved x x1.
  Proof.
    intros S1 SB T1. induction T1 as [x|x m ms x1 ids l ls x2 E G T1 IH]; [repeat split; exact S1|]. apply step_unsaved in E as (A1 & A2 & A3); [|assumption|assumption]. rewrite A2 in IH. destruct (IH A3 SB) as (B1 & B2 & B3). repeat split; congruence.
  Qed.
  (** ---- the copies of the log ---- *)
  Lemma copy_log (x : lx) ids l : lx_get_log true x = (x, Ok (GCopy ids l)) -> exists L : tlog, leaf_map VT l = log_nd L.
  Proof.
    intros E. unfold lx_get_log in E. destruct (forallb _ _); [|discriminate E]. injection E as _ <-. rewrite log_nd_vt. exists (map (fun p => (fst p, map (fun q => (fst q, u_d (deref (x_heap x) (snd q)))) (snd p))) (x_log x)).
    unfold ModelLogger.log_nd, log_nd. rewrite map_map. f_equal. apply map_ext. intros [m e]. cbn [fst snd]. rewrite map_map. reflexivity.
  Qed.
  Lemma trained_copies a (x : lx) ms ls x1 : trained a x ms ls x1 -> exists Ls : list tlog, map snd ls = map log_nd Ls.
  Proof.
    induction 1 as [x|x m ms x1 ids l ls x2 E G T1 IH]; [exists []; reflexivity|]. destruct IH as (Ls & IH). destruct (copy_log x1 _ l G) as (L & EL). exists (L :: Ls). cbn [map snd]. rewrite EL, IH. reflexivity.
  Qed.
  (** ---- the calls ---- *)
  Definition fopts : opts := Opts [PCovariance] [PCovariance] [].
  Lemma stats_grad mods names fw bw g g' mask off : forall es h cs, stat_calls (F:=F) kind mods names (Opts fw bw g) mask off h cs es = stat_calls kind mods names (Opts fw bw g') mask off h cs es.
  Proof. induction es as [|e es IH]; intros h cs; [reflexivity|]. destruct e; cbn [stat_calls o_forward o_backward]; rewrite IH; reflexivity. Qed.
  Lemma epoch_grad mods names fw bw g g' off : forall bs h, epoch_calls (F:=F) kind mods names (Opts fw bw g) off h bs = epoch_calls kind mods names (Opts fw bw g') off h bs.
  Proof. induction bs as [|b bs IH]; intros h; [reflexivity|]. cbn [epoch_calls]. rewrite IH, (stats_grad mods names fw bw g g'). reflexivity. Qed.
  Lemma lcalls_nograd mods names fw bw off : forall bs Ls h, length Ls = length bs -> lcalls (F:=F) kind mods names (Opts fw bw []) off h bs Ls = epoch_calls kind mods names (Opts fw bw []) off h bs.
  Proof.
    induction bs as [|b bs IH]; intros [|L Ls] h E; try discriminate E; [reflexivity|]. cbn [WholeProofs1.lcalls epoch_calls o_grad skipn]. rewrite IH by (cbn in E; lia). unfold gcalls. cbn [map concat]. rewrite app_nil_r. reflexivity.
  Qed.
  Lemma fopts_moments : all_moments fopts.
  Proof. split; [intros p [J|J]; cbn in J; intuition|]. split; [constructor|intros p []]. Qed.

  (** ---- the schedule ---- *)
  Definition ekfac_all : list okwargs := [[("forward", [AClass PCovariance]); ("backward", [AClass PCovariance])]; [("forward", []); ("backward", []); ("grad", [AClass PLog; AClass PCorrectedEigval])]].
  Definition ekfac_sched (k : Z) (r : list okwargs) : sched := Sched "none" "ekfac" "grad" k ekfac_all r.
  Lemma first_begins (p : tr) : new_sched "none" "ekfac" "grad" = Ok (tr_sched p) ->
    on_epoch_begin (tr_set_mode p "log") = (tr_set_lm (tr_set_mode p "log") (ekfac_sched 0 (skipn 1 ekfac_all)) (lm_set_x (tr_lm p) (with_opt (lm_x (tr_lm p)) fopts)), Ok tt).
  Proof. destruct p as [c s l1 l2 sc mo ac bu lo]. cbn [tr_sched]. intros Ec. injection Ec as <-. destruct s; reflexivity. Qed.
  Definition begun2 (x : lx) : lx := with_opt (with_saves x true (x_save_batch x)) eopts.
  Lemma second_begins (p : tr) : tr_sched p = ekfac_sched 0 (skipn 1 ekfac_all) ->
    on_epoch_begin (tr_set_mode p "log") = (tr_set_lm (tr_set_mode p "log") (ekfac_sched 1 []) (lm_set_x (tr_lm p) (begun2 (lm_x (tr_lm p)))), Ok tt).
  Proof. destruct p as [c s l1 l2 sc mo ac bu lo]. cbn [tr_sched]. intros ->. destruct s; reflexivity. Qed.
  Lemma set_log (p : tr) : tr_mode p = "log" -> tr_set_mode p "log" = p.
  Proof. destruct p. cbn. intros ->. reflexivity. Qed.

  (** ---- the state after the first epoch ---- *)
  Definition factors (cs : list (@call F)) (s : lstate) : Prop :=
    inv5 s /\ forall m t, let ccs := calls_for SCov m t cs in
      (ccs = [] -> lookup2 s "covariance_state" m t = None) /\
      (ccs <> [] -> exists dv, lookup2 s "covariance_state" m t = Some (VT (dv, factor cs m t)) /\ lookup2 s "covariance_counter" m t = Some (VN (all_count ccs))).
  Lemma factors_of dk cs (s0 s : lstate) : pristine s0 -> run_calls cs s0 = (s, Ok tt) -> Forall call_ok cs -> exists s' dk', finalize dk s = (s', Ok dk') /\ factors cs s'.
  Proof.
    intros P E O. destruct (phase_step dk s0 cs s (pristine_inv5 s0 P) E O) as (s' & dk' & E2 & I2 & V). destruct (finalize_pristine dk cs s0 s P E O) as (s3 & dk3 & E3 & V3). rewrite E2 in E3. injection E3 as <- <-.
    exists s', dk'. split; [exact E2|]. split; [exact I2|]. intros m t ccs. destruct (V3 SCov m t) as [V4 V5]. fold ccs in V4, V5. destruct (V SCov m t) as [Cn V6]. fold ccs in Cn, V6. destruct I2 as (_ & _ & _ & KI). specialize (KI SCov m t). unfold key_inv in KI. split.
    - intros Nc. specialize (V4 Nc). unfold stored in V4. cbn [stat_name] in *. destruct V6 as [(-> & _)|(dv & x & k & L & _)]; [reflexivity|]. rewrite L in V4. discriminate V4.
    - intros Nc. destruct (V5 Nc) as (_ & _ & V7). unfold stored in V7. cbn [stat_name counter_name] in *. destruct V6 as [(_ & _ & Q)|(dv & x & k & L & _)]; [contradiction|]. rewrite L in V7. injection V7 as V7. exists dv.
      split; [rewrite L; cbn [snd] in V7; subst x; reflexivity|]. destruct KI as [(_ & _ & Q & _)|(? & ? & ? & _ & _ & _ & _ & _ & _ & _ & L2)]; [rewrite L in Q; discriminate Q|]. rewrite L2. f_equal. f_equal.
      unfold cnt_of in Cn. cbn [counter_name] in Cn. rewrite L2 in Cn. rewrite Cn. assert (Z : lookup2 s0 "covariance_counter" m t = None). { destruct P as (_ & _ & P). destruct (P SCov) as [_ P2]. cbn [counter_name] in P2. unfold lookup2. rewrite P2. reflexivity. }
      rewrite Z. ring.
  Qed.

  Lemma first_run ms a p steps : new_run "ekfac" ms a p -> first_epoch a p steps -> let cs := factor_calls kind a p steps in Forall call_ok cs ->
    exists p2, do_epoch a steps (tr_set_mode p "log") = (p2, Ok tt) /\ tr_mode p2 = "log" /\ tr_sched p2 = ekfac_sched 0 (skipn 1 ekfac_all) /\ tr_acc p2 = tr_acc p /\ same_results p p2 /\
      (let x := lm_x (tr_lm p2) in reachable x /\ x_dir x = x_dir (lm_x (tr_lm p)) /\ x_saver x = x_saver (lm_x (tr_lm p)) /\ factors cs (x_state x)).
  Proof.
    intros (Ec & Ei & HR & HP & HF & rank & w & thr & Es & Hw) (S0 & HO & p1 & ls & x1 & EB & T1) cs HC. pose proof EB as EB2. rewrite (first_begins p Ec) in EB2. injection EB2 as <-.
    set (x0 := with_opt (lm_x (tr_lm p)) fopts) in *. change (lm_x (tr_lm (tr_set_lm (tr_set_mode p "log") (ekfac_sched 0 (skipn 1 ekfac_all)) (lm_set_x (tr_lm p) x0)))) with x0 in T1.
    assert (HR0 : reachable x0). { apply (reachable_op kind wsize eigh enc (XSetup [("forward", [AClass PCovariance]); ("backward", [AClass PCovariance])]) _ _ (Ok tt) HR). reflexivity. }
    destruct (trained_copies a x0 _ ls x1 T1) as (Ls & EL). destruct (trained_logged kind eigh enc show tok hash a x0 x1 _ ls T1 Ls EL) as (bs & B1 & B2). pose proof (batch_own a _ _ B1 HO) as HW.
    destruct (logged_run kind wsize eigh enc bs Ls x0 x1 B2 HR0 fopts_moments HW) as (HL & HR1 & HLen & _).
    change (x_opt x0) with fopts in HL. unfold fopts in HL. rewrite lcalls_nograd in HL by exact HLen. rewrite (batch_evs kind _ _ _ _ a _ _ _ B1), (epoch_grad _ _ _ _ [] [PLog]) in HL. change (run_calls cs (x_state (lm_x (tr_lm p))) = (x_state x1, Ok tt)) in HL.
    destruct (factors_of (x_disk x1) cs _ _ HP HL HC) as (s' & dk' & Ef & FA).
    destruct (trained_unsaved a x0 _ ls x1 S0 ltac:(change (x_saver x0) with (x_saver (lm_x (tr_lm p))); rewrite Es; reflexivity) T1) as (U1 & U2 & U3).
    assert (Fi : exists x2, lx_finalize x1 = (x2, Ok tt) /\ x_state x2 = s' /\ x_dir x2 = x_dir x1 /\ x_saver x2 = x_saver x1).
    { assert (SE : settle x1 = x_saver x1) by (apply settle_empty; rewrite U2; change (x_saver x0) with (x_saver (lm_x (tr_lm p))); rewrite Es; reflexivity).
      unfold lx_finalize. unfold sbind at 1. rewrite Ef. cbv beta iota. match goal with |- context [settle ?z] => change (settle z) with (settle x1) end. rewrite SE. match goal with |- context [saver_finalize ?z _] => change z with (x_dir x1) end.
      unfold saver_finalize, flush_serialized. assert (SB : s_buffer (x_saver x1) = []) by (rewrite U2; change (x_saver x0) with (x_saver (lm_x (tr_lm p))); rewrite Es; reflexivity). rewrite SB. eexists. split; [reflexivity|]. repeat split; reflexivity. }
    destruct Fi as (x2 & Fi & F1 & F2 & F3).
    pose proof (finalize_trained rnd svd kind eigh inverse fsqrt enc dec show tok hash a (tr_set_mode p "log") _ steps ls x1 x2 eq_refl EB T1 Fi) as K6.
    eexists. split; [exact K6|]. split; [reflexivity|]. split; [reflexivity|]. split; [reflexivity|]. split; [repeat split; reflexivity|]. cbv zeta.
    match goal with |- reachable ?z /\ _ => change z with x2 end. split; [exact (reachable_op kind wsize eigh enc XFinalize x1 x2 _ HR1 Fi)|]. split; [rewrite F2, U1; reflexivity|]. split; [rewrite F3, U2; reflexivity|]. rewrite F1. exact FA.
  Qed.
End P.
