(** Lightning runs with corrected eigenvalues: the logging run. *)
From Coq Require Import ZArith Permutation Lia.
From Verif Require Import Py PyStr Field Tensor ModelGrad Monad ModelState ModelMmap ModelSaver ModelLoader ModelLogger ModelModules ModelLora ModelScheduler ModelInfluence ModelUtils ModelTrainer ModelLightning SpecGrad SpecState SpecStore SpecLogger SpecInfluence SpecRows SpecTrainer SpecLightning SpecDisk SpecWhole SpecLightWhole SpecDrift SpecEkfac SpecLightEkfac StateProofs1 StateProofs3 StateProofs4 StateProofs5 StateProofs7 GradProofs1 LogProofs1 LogProofs8 LogProofs9 InfProofs5 InfProofs10 TrainProofs1 TrainProofs2 TrainProofs3 TrainProofs4 WatchProofs2 ViewProofs ViewProofs2 DiskProofs1 DiskProofs2 DiskProofs3 WholeProofs1 WholeProofs2 WholeProofs3 WholeProofs4 WholeProofs5 WholeProofs6 EkfacProofs1 EkfacProofs2 EkfacProofs3 EkfacProofs4 LightProofs1 LightWhole1.
Local Open Scope string_scope.
Local Open Scope list_scope.
Local Open Scope nat_scope.

Section P.
  Context {F : Type} `{OField F}.
  Notation tensor := (tensor F).
  Notation dten := (@dten F).
  Notation lx := (@lx F).
  Notation tlog := (@tlog F).
  Notation tr := (@tr F).
  Context (rnd : mid -> list nat -> F) (svd : tensor -> res tensor) (kind : mid -> mkind) (wsize : mid -> nat).
  Context (eigh : tensor -> res (tensor * tensor)) (inverse : tensor -> res tensor) (fsqrt : F -> F).
  Context (enc : dten -> array) (dec : array -> dten) (show : did -> string).
  Context {B X : Type} (extract : B -> SM X (list did)) (mask : option (B -> res (option dten))) (body : B -> list (@ev F)).
  Notation pl := (@pl F X).
  Notation logged := (logged kind eigh enc show extract mask body).
  Notation step_of := (LightProofs1.step_of kind eigh enc body).
  Notation pl_batch := (pl_batch kind eigh inverse fsqrt enc dec show extract mask body).
  Notation pl_do_epoch := (pl_do_epoch rnd svd kind eigh inverse fsqrt enc dec show extract mask body).
  Notation pl_extract := (pl_extract rnd svd kind eigh inverse fsqrt enc dec show extract mask body).
  Notation reachable := (reachable kind wsize eigh enc).
  Notation new_light := (new_light kind wsize eigh enc).
  Notation light_training := (light_training rnd svd kind eigh enc dec show extract mask body).
  Notation light_first := (light_first rnd svd kind eigh enc show extract mask body).
  Notation pl_epoch_start := (pl_epoch_start rnd svd).

  (** ---- an epoch without saving ---- *)
  Lemma bstep_unsaved ids m b (x x' : lx) : x_save x = false -> s_buffer (x_saver x) = [] -> step_of ids m b x = (x', Ok tt) -> unsaved x x'.
  Proof.
    intros S1 SB E. pose proof (settle_empty x SB) as SE. unfold LightProofs1.step_of in E. apply sbind_ok in E as (z & [] & EZ & E). apply sbind_ok in E as (v & [] & EV & E).
    unfold lx_start, binfo_clear in EZ. unfold sbind at 1 in EZ. unfold sbind at 1 in EZ. match type of EZ with _ ?y0 = _ => set (y := y0) in EZ end. change (lx_enter y = (z, Ok tt)) in EZ.
    apply enter_dirs in EZ. destruct EZ as (Z1 & _ & Z2 & Z3 & Z4). apply evs_dirs in EV. destruct EV as (V1 & _ & V2 & V3 & V4).
    assert (Y1 : x_dir y = x_dir x) by reflexivity. assert (Y2 : x_saver y = settle x) by reflexivity. assert (Y3 : x_save y = false) by exact S1.
    assert (Sv : x_save v = false) by congruence.
    unfold lx_end, sbind at 1, sget in E. rewrite Sv in E. cbn [orb] in E. apply update_nosave in E. rewrite E. unfold unsaved. cbn [with_state x_dir x_saver x_save]. repeat split; congruence.
  Qed.
  Lemma logged_unsaved (x : lx) e bs ls x1 e1 : logged x e bs ls x1 e1 -> x_save x = false -> s_buffer (x_saver x) = [] -> unsaved x x1.
  Proof.
    induction 1 as [x e|x e b bs e1 ids m x1 ids' l ls x2 e2 EX EM ES RG T1 IH]; intros S1 SB; [repeat split; exact S1|]. destruct (bstep_unsaved ids m b x x1 S1 SB ES) as (A1 & A2 & A3). rewrite A2 in IH. destruct (IH A3 SB) as (B1 & B2 & B3). repeat split; congruence.
  Qed.
  Lemma view_log (x : lx) ids l : read_got x (GView (x_ids x)) = (ids, l) -> exists L : tlog, leaf_map VT l = log_nd L.
  Proof.
    intros E. unfold read_got in E. injection E as _ <-. rewrite log_nd_vt. exists (map (fun p => (fst p, map (fun q => (fst q, u_d (deref (x_heap x) (snd q)))) (snd p))) (x_log x)).
    unfold ModelLogger.log_nd, log_nd. rewrite map_map. f_equal. apply map_ext. intros [m e]. cbn [fst snd]. rewrite map_map. reflexivity.
  Qed.
  Lemma logged_copies (x : lx) e bs ls x1 e1 : logged x e bs ls x1 e1 -> exists Ls : list tlog, map snd ls = map log_nd Ls.
  Proof.
    induction 1 as [x e|x e b bs e1 ids m x1 ids' l ls x2 e2 EX EM ES RG T1 IH]; [exists []; reflexivity|]. destruct IH as (Ls & IH). destruct (view_log x1 _ l RG) as (L & EL). exists (L :: Ls). cbn [map snd]. rewrite EL, IH. reflexivity.
  Qed.

  (** ---- the schedule ---- *)
  Lemma lfirst_begins (q : pl) : new_sched "none" "ekfac" "grad" = Ok (tr_sched (pl_t q)) ->
    pl_epoch_start (log_fit q) = (PL (tr_set_lm (tr_set_mode (pl_t q) "log") (ekfac_sched 0 (skipn 1 ekfac_all)) (lm_set_x (tr_lm (pl_t q)) (with_opt (lm_x (tr_lm (pl_t q))) fopts))) (pl_ext q) (pl_epoch q) false, Ok tt).
  Proof. destruct q as [[c s l1 l2 sc mo ac bu lo] e n st]. cbn [tr_sched pl_t]. intros Ec. injection Ec as <-. destruct s; reflexivity. Qed.
  Lemma lsecond_begins (q : pl) : tr_sched (pl_t q) = ekfac_sched 0 (skipn 1 ekfac_all) ->
    pl_epoch_start (log_fit q) = (PL (tr_set_lm (tr_set_mode (pl_t q) "log") (ekfac_sched 1 []) (lm_set_x (tr_lm (pl_t q)) (begun2 (lm_x (tr_lm (pl_t q)))))) (pl_ext q) (pl_epoch q) false, Ok tt).
  Proof. destruct q as [[c s l1 l2 sc mo ac bu lo] e n st]. cbn [tr_sched pl_t]. intros ->. destruct s; reflexivity. Qed.
  Lemma lfit_same (q : pl) : pl_mode q = "log" -> pl_stop q = false -> log_fit q = q.
  Proof. destruct q as [[c s l1 l2 sc mo ac bu lo] e n st]. unfold pl_mode. cbn. intros -> ->. reflexivity. Qed.
  (** an epoch of a logging run, given the object before and after its batches and after finalize *)
  Lemma log_epoch a (q q1 : pl) bs ls x1 x2 e1 : pl_mode q1 = "log" -> pl_epoch_start q = (q1, Ok tt) -> logged (lm_x (tr_lm (pl_t q1))) (pl_ext q1) bs ls x1 e1 -> lx_finalize x1 = (x2, Ok tt) ->
    pl_do_epoch a bs q = (PL (put_done (pl_t q1) x2) e1 (S (pl_epoch q1)) (if length (sc_all (tr_sched (pl_t q1))) - 1 <=? pl_epoch q1 then true else pl_stop q1), Ok tt).
  Proof.
    intros M1 EB T1 Fi.
    assert (ER : seach (pl_batch a) bs q1 = (lput q1 x1 e1, Ok tt)). { rewrite <- (lput_id q1) at 1. apply (light_log_batches kind eigh inverse fsqrt enc dec show extract mask body a q1 M1 _ (pl_ext q1) bs ls x1 e1 T1). }
    set (st := if length (sc_all (tr_sched (pl_t q1))) - 1 <=? pl_epoch q1 then true else pl_stop q1).
    assert (EE : pl_epoch_end (lput q1 x1 e1) = (PL (put_done (pl_t q1) x2) e1 (pl_epoch q1) st, Ok tt)).
    { unfold pl_epoch_end. unfold sbind at 1. unfold sget at 1. change (pl_mode (lput q1 x1 e1)) with (pl_mode q1). rewrite M1. change (String.eqb "log" "log") with true. cbv iota.
      unfold sbind at 1. unfold on_t at 1, on_tlm, lm_finalize, sbind, on_x. change (lm_x (tr_lm (pl_t (lput q1 x1 e1)))) with x1. rewrite Fi. cbv iota beta. unfold st. destruct q1 as [[c s l1 l2 sc mo ac bu lo] e n stq]. unfold pl_mode in *. cbn -[Nat.leb length Nat.sub] in *. subst mo. cbn -[Nat.leb length Nat.sub]. reflexivity. }
    unfold ModelLightning.pl_do_epoch. rewrite (sbind_run _ _ _ _ _ EB), (sbind_run _ _ _ _ _ ER), (sbind_run _ _ _ _ _ EE). reflexivity.
  Qed.

  Lemma light_first_run ms a (q : pl) bs : new_light "ekfac" ms q -> light_first q bs -> let cs := light_calls kind mask body q bs in Forall call_ok cs ->
    exists q2, pl_do_epoch a bs (log_fit q) = (q2, Ok tt) /\ pl_mode q2 = "log" /\ tr_sched (pl_t q2) = ekfac_sched 0 (skipn 1 ekfac_all) /\ pl_epoch q2 = S (pl_epoch q) /\ (pl_epoch q = 0 -> pl_stop q2 = false) /\ (pl_epoch q <> 0 -> pl_stop q2 = true) /\ same_results (pl_t q) (pl_t q2) /\
      (let x := lm_x (tr_lm (pl_t q2)) in reachable x /\ x_dir x = x_dir (lm_x (tr_lm (pl_t q))) /\ x_saver x = x_saver (lm_x (tr_lm (pl_t q))) /\ factors cs (x_state x)).
  Proof.
    intros (Ec & HR & HP & HF & rank & w & thr & Es & Hw) (S0 & HO & q1 & ls & x1 & e1 & EB & T1) cs HC. pose proof EB as EB2. rewrite (lfirst_begins q Ec) in EB2. injection EB2 as EB2.
    set (x0 := with_opt (lm_x (tr_lm (pl_t q))) fopts) in *. assert (X0 : lm_x (tr_lm (pl_t q1)) = x0) by (rewrite <- EB2; reflexivity). pose proof T1 as T0. rewrite X0 in T1.
    assert (HR0 : reachable x0). { apply (reachable_op kind wsize eigh enc (XSetup [("forward", [AClass PCovariance]); ("backward", [AClass PCovariance])]) _ _ (Ok tt) HR). reflexivity. }
    destruct (logged_copies x0 _ _ ls x1 e1 T1) as (Ls & EL). destruct (logged_is_epoch kind eigh enc show extract mask body x0 _ _ ls x1 e1 T1 Ls EL) as (bs' & B1 & B2). pose proof (of_own mask body _ _ B1 HO) as HW.
    destruct (logged_run kind wsize eigh enc bs' Ls x0 x1 B2 HR0 fopts_moments HW) as (HL & HR1 & HLen & _).
    change (x_opt x0) with fopts in HL. unfold fopts in HL. rewrite lcalls_nograd in HL by exact HLen. rewrite (of_evs kind mask body _ _ _ _ _ _ _ B1), (epoch_grad kind _ _ _ _ [] [PLog]) in HL. change (run_calls cs (x_state (lm_x (tr_lm (pl_t q)))) = (x_state x1, Ok tt)) in HL.
    destruct (factors_of (x_disk x1) cs _ _ HP HL HC) as (s' & dk' & Ef & FA).
    destruct (logged_unsaved x0 _ _ ls x1 e1 T1 S0 ltac:(change (x_saver x0) with (x_saver (lm_x (tr_lm (pl_t q)))); rewrite Es; reflexivity)) as (U1 & U2 & U3).
    assert (Fi : exists x2, lx_finalize x1 = (x2, Ok tt) /\ x_state x2 = s' /\ x_dir x2 = x_dir x1 /\ x_saver x2 = x_saver x1).
    { assert (SE : settle x1 = x_saver x1) by (apply settle_empty; rewrite U2; change (x_saver x0) with (x_saver (lm_x (tr_lm (pl_t q)))); rewrite Es; reflexivity).
      unfold lx_finalize. unfold sbind at 1. rewrite Ef. cbv beta iota. match goal with |- context [settle ?z] => change (settle z) with (settle x1) end. rewrite SE. match goal with |- context [saver_finalize ?z _] => change z with (x_dir x1) end.
      unfold saver_finalize, flush_serialized. assert (SB : s_buffer (x_saver x1) = []) by (rewrite U2; change (x_saver x0) with (x_saver (lm_x (tr_lm (pl_t q)))); rewrite Es; reflexivity). rewrite SB. eexists. split; [reflexivity|]. repeat split; reflexivity. }
    destruct Fi as (x2 & Fi & F1 & F2 & F3).
    assert (M1 : pl_mode q1 = "log") by (rewrite <- EB2; reflexivity).
    pose proof (log_epoch a _ q1 bs ls x1 x2 e1 M1 EB T0 Fi) as K6.
    eexists. split; [exact K6|]. rewrite <- EB2. split; [reflexivity|]. split; [reflexivity|]. split; [reflexivity|].
    split. { cbn -[Nat.leb]. intros ->. reflexivity. } split. { cbn -[Nat.leb]. destruct (pl_epoch q); [congruence|reflexivity]. }
    split; [repeat split; reflexivity|]. cbv zeta.
    match goal with |- reachable ?z /\ _ => change z with x2 end. split; [exact (reachable_op kind wsize eigh enc XFinalize x1 x2 _ HR1 Fi)|]. split; [rewrite F2, U1; reflexivity|]. split; [rewrite F3, U2; reflexivity|]. rewrite F1. exact FA.
  Qed.

  Lemma light_second_run cs ms a (q2 : pl) bs sids (M : tlog) : pl_mode q2 = "log" -> pl_stop q2 = false -> 0 < pl_epoch q2 -> tr_sched (pl_t q2) = ekfac_sched 0 (skipn 1 ekfac_all) ->
    (let x := lm_x (tr_lm (pl_t q2)) in reachable x /\ fresh_dir (x_dir x) /\ (exists rank w thr, x_saver x = saver_init rank w thr (grad_paths ms) /\ (w <= 1)%Z) /\ factors cs (x_state x)) ->
    light_training ms a q2 bs sids M ->
    exists q' C EC E, pl_do_epoch a bs q2 = (q', Ok tt) /\ pl_stop q' = true /\ pl_epoch q' = S (pl_epoch q2) /\ same_results (pl_t q2) (pl_t q') /\
      log_batches dec show (pa_bs a) (x_dir (lm_x (tr_lm (pl_t q')))) = Ok (batches 0 (map (@length string) (chunks (pa_bs a) sids)) sids (regrad ms M)) /\
      ekfac_state (x_state (lm_x (tr_lm (pl_t q')))) C EC E /\ eig_facts eigh cs ms M C EC E.
  Proof.
    intros Mo Hst Hep Sc (HR & HF & (rank & w & thr & Es & Hw) & FA) (NE & ND & HI & HB & NDs & HO & JS & (dt & e & exact & CD & ST) & q1 & ls & x1 & e1 & ks & EB & T1 & EL & SP).
    change (pl_epoch_start (log_fit q2) = (q1, Ok tt)) in EB. pose proof EB as E1. rewrite (lsecond_begins q2 Sc) in E1. injection E1 as E1. set (x0 := begun2 (lm_x (tr_lm (pl_t q2)))) in *.
    assert (X0 : lm_x (tr_lm (pl_t q1)) = x0) by (rewrite <- E1; reflexivity). pose proof T1 as T0. rewrite X0 in T1.
    pose proof (batches_parts M ks 0 sids ls EL) as EP. destruct (logged_is_epoch kind eigh enc show extract mask body x0 _ _ ls x1 e1 T1 (parts 0 ks M) EP) as (bs' & B1 & B2).
    assert (HR0 : reachable x0) by exact (begun2_reachable kind wsize eigh enc _ HR). pose proof (of_own mask body _ _ B1 HO) as HW. destruct SP as (SP1 & SP2 & SP3).
    assert (HG : Forall good_grads (parts 0 ks M)) by (apply (parts_good exact ms (length sids) M ST HI); [exact SP2|lia]).
    destruct (logged_eig kind wsize eigh enc bs' (parts 0 ks M) x0 x1 B2 HR0 eq_refl HW) as (HL & _ & HLen & HN).
    set (ecs := epoch_ecalls (x_offload x0) bs' (parts 0 ks M)) in *.
    assert (NDM : NoDup (dkeys M)). { destruct ks as [|k ks]; [congruence|]. cbn [parts] in HN. apply Forall_inv in HN. rewrite part_keys in HN. exact HN. }
    assert (Lk : length bs' = length ks). { rewrite <- HLen. clear. generalize 0. induction ks as [|k ks IH]; intros o; [reflexivity|]. cbn [parts length]. rewrite IH. reflexivity. }
    destruct ST as (U & U2 & ST).
    assert (ON : forall m, In m ms -> exists d t k rest, grad_of M m = Some (d, t) /\ shape t = length sids :: k :: rest /\ grads_for m ecs = samples t /\ on_module m ecs <> []).
    { intros m J. destruct (ST m J) as (d & t & k & rest & G & S & _ & _). exists d, t, k, rest. split; [exact G|]. split; [exact S|].
      destruct (epoch_on (x_offload x0) m M d t (length sids) (k :: rest) NDM G S ks bs' 0 Lk ltac:(lia)) as [I1 I2]. split; [|exact (I2 SP1)]. unfold ecs. rewrite I1, SP3. unfold samples, batch_size. rewrite S. reflexivity. }
    assert (OFF : forall m, ~ In m ms -> on_module m ecs = []). { intros m J. apply epoch_off. intros Q. apply J, HI, Q. }
    destruct ecs as [|e0 es0] eqn:Ee. { exfalso. destruct ms as [|m ms']; [congruence|]. destruct (ON m (or_introl eq_refl)) as (? & ? & ? & ? & _ & _ & _ & Q). apply Q. reflexivity. }
    assert (GW : Forall grad_wf (e0 :: es0)) by (rewrite <- Ee; apply epoch_gwf; exact HG).
    destruct FA as [I5 FA]. change (x_state x0) with (x_state (lm_x (tr_lm (pl_t q2)))) in HL.
    destruct (ekfac_struct eigh (x_disk x1) _ e0 es0 _ I5 GW HL) as (s' & dk' & C & EC & E & Ef & KS & LC & LE & NO & YES).
    assert (Sv : x_save x0 = true) by reflexivity. assert (Esx : x_saver x0 = saver_init rank w thr (grad_paths ms)) by exact Es.
    assert (SE0 : settle x0 = x_saver x0) by (apply settle_empty; rewrite Esx; reflexivity). assert (TD0 : two_deep (s_buffer (x_saver x0))) by (rewrite Esx; intros i b; discriminate).
    assert (Fi : exists x2, lx_finalize x1 = (x2, Ok tt) /\ x_state x2 = s' /\ log_batches dec show (pa_bs a) (x_dir x2) = Ok (batches 0 (map (@length string) (chunks (pa_bs a) sids)) sids (regrad ms M))).
    { destruct (logged_writes kind eigh enc show extract mask body x0 _ bs ls x1 e1 T1 Sv SE0 TD0 JS) as (gs & El & J & SB & SE). rewrite El in EL. destruct (cut_ids enc show M ks gs sids EL) as (Q1 & Q2); [congruence|]. set (ids := concat (map fst gs)) in *.
      pose proof EL as EL2. rewrite Q1 in EL2. rewrite (written_batches enc show M ids ks 0 gs EL2 Q2) in SB. rewrite Esx in SB.
      assert (J2 : Forall json_id ids). { unfold ids. clear - J. induction J as [|g gs E J IH]; [constructor|]. cbn [map concat]. apply Forall_app. split; [exact E|exact IH]. }
      assert (Li : length ids = length sids) by (rewrite Q1, map_length; reflexivity).
      destruct (read_back dt e exact enc dec CD show ms (length sids) M (conj U (conj U2 ST)) rank w thr (x_dir x0) ks ids (pa_bs a) NE ND HF Hw J2) as (d' & sv' & R1 & R2); auto.
      { apply (nodup_map show). rewrite <- Q1. exact NDs. }
      unfold save_run in R1. rewrite SB in R1. unfold lx_finalize. unfold sbind at 1. rewrite Ef. cbv beta iota.
      match goal with |- context [settle ?z] => change (settle z) with (settle x1) end. rewrite SE. match goal with |- context [saver_finalize ?z _] => change z with (x_dir x1) end.
      rewrite R1. eexists. split; [reflexivity|]. split; [reflexivity|]. match goal with |- context [x_dir ?z] => change (x_dir z) with d' end. rewrite R2, Q1. f_equal. f_equal. unfold chunks. rewrite map_length. clear. generalize (length ids) as f. intros f. generalize ids. induction f as [|f IH]; intros l; [reflexivity|].
      destruct l as [|d r] eqn:D; [reflexivity|]. rewrite <- D.
      replace (chunks_fuel (S f) (pa_bs a) l) with (firstn (pa_bs a) l :: chunks_fuel f (pa_bs a) (skipn (pa_bs a) l)) by (rewrite D; reflexivity).
      replace (chunks_fuel (S f) (pa_bs a) (map show l)) with (firstn (pa_bs a) (map show l) :: chunks_fuel f (pa_bs a) (skipn (pa_bs a) (map show l))) by (rewrite D; reflexivity).
      cbn [map]. rewrite skipn_map, <- IH, firstn_map, map_length. reflexivity. }
    destruct Fi as (x2 & Fi & Sx2 & LB).
    assert (M1 : pl_mode q1 = "log") by (rewrite <- E1; reflexivity). rewrite (lfit_same q2 Mo Hst) in EB.
    pose proof (log_epoch a q2 q1 bs ls x1 x2 e1 M1 EB T0 Fi) as K6.
    eexists. exists C, EC, E. split; [exact K6|]. rewrite <- E1. split. { cbn -[Nat.leb]. destruct (pl_epoch q2); [lia|reflexivity]. } split; [reflexivity|]. split; [repeat split; reflexivity|].
    match goal with |- log_batches _ _ _ (x_dir ?z) = _ /\ _ => change z with x2 end. split; [exact LB|]. rewrite Sx2. split; [exact KS|].
    split; [|split; [|split]].
    - intros m t Nc. destruct (FA m t) as [FA1 _]. specialize (FA1 Nc). specialize (LC m t). specialize (LE m t). rewrite FA1 in LC, LE. split; [|exact LE]. destruct (look C m t); [discriminate LC|reflexivity].
    - intros m t Nc. destruct (FA m t) as [_ FA1]. destruct (FA1 Nc) as (dv & L1 & L2). specialize (LC m t). specialize (LE m t). rewrite L1 in LC, LE. rewrite L2 in LC. cbn [divide] in LC. destruct LE as (v & w' & Eg & LE). exists dv, v, w'. cbn [fst snd] in *. split; [|split; assumption].
      destruct (look C m t); [injection LC as ->; reflexivity|discriminate LC].
    - intros m J. destruct (ON m J) as (d & t & k & rest & G & S & Gs & No). destruct (YES m No) as (dv & df & db & u & v & k' & l & i & j & Lf & Lb & Su & Sv' & _ & De).
      exists dv, (df, v), (db, u), d, t. split; [exact Lf|]. split; [exact Lb|]. split; [exact G|]. rewrite De, Gs. unfold mean_squares. cbn [snd]. rewrite Su, Sv'. reflexivity.
    - intros m J. exact (NO m (OFF m J)).
  Qed.

  Theorem light_ekfac ms a (q : pl) bs1 (q2 : pl) bs2 es sids (M : tlog) : new_light "ekfac" ms q -> pl_epoch q = 0 -> light_first q bs1 -> let cs := light_calls kind mask body q bs1 in Forall call_ok cs ->
    pl_do_epoch a bs1 (log_fit q) = (q2, Ok tt) -> light_training ms a q2 bs2 sids M ->
    exists q' C EC E, pl_extract a (bs1 :: bs2 :: es) q = (q', Ok tt) /\ pl_epoch q' = 2 /\ same_results (pl_t q) (pl_t q') /\
      log_batches dec show (pa_bs a) (x_dir (lm_x (tr_lm (pl_t q')))) = Ok (batches 0 (map (@length string) (chunks (pa_bs a) sids)) sids (regrad ms M)) /\
      ekfac_state (x_state (lm_x (tr_lm (pl_t q')))) C EC E /\ eig_facts eigh cs ms M C EC E.
  Proof.
    intros HN Z HE cs HC E1 HT. destruct (light_first_run ms a q bs1 HN HE HC) as (q2' & Eq & Mo & Sc & Ep & St & _ & S1 & HR & Dq & Sq & FA). rewrite E1 in Eq. injection Eq as <-. specialize (St Z). rewrite Z in Ep.
    destruct HN as (_ & _ & _ & HF & SV). rewrite <- Dq in HF. rewrite <- Sq in SV.
    destruct (light_second_run cs ms a q2 bs2 sids M Mo St ltac:(lia) Sc (conj HR (conj HF (conj SV FA))) HT) as (q' & C & EC & E & E2 & St2 & Ep2 & S2 & LB & KS & EF). exists q', C, EC, E.
    split. { unfold ModelLightning.pl_extract, pl_set_mode, fit. unfold sbind at 1. unfold on_t, set_mode. cbn [pl_t pl_ext pl_epoch pl_stop]. unfold sbind at 1. cbn [pl_t pl_ext pl_epoch pl_stop]. fold (log_fit q). cbn [fit_epochs]. rewrite (sbind_run _ _ _ _ _ E1). unfold sbind at 1. unfold sget at 1. rewrite St. rewrite (sbind_run _ _ _ _ _ E2). unfold sbind at 1. unfold sget at 1. rewrite St2. reflexivity. }
    split; [congruence|]. split. { destruct S1 as (X1 & X2 & X3 & X4 & X5). destruct S2 as (Y1 & Y2 & Y3 & Y4 & Y5). repeat split; congruence. }
    split; [exact LB|]. split; assumption.
  Qed.
  (** A trainer that has already trained an epoch stops after the factors. *)
  Theorem light_ekfac_short ms a (q : pl) bs1 es : new_light "ekfac" ms q -> pl_epoch q <> 0 -> light_first q bs1 -> let cs := light_calls kind mask body q bs1 in Forall call_ok cs ->
    exists q', pl_extract a (bs1 :: es) q = (q', Ok tt) /\ pl_epoch q' = S (pl_epoch q) /\ same_results (pl_t q) (pl_t q') /\ x_dir (lm_x (tr_lm (pl_t q'))) = x_dir (lm_x (tr_lm (pl_t q))) /\ x_saver (lm_x (tr_lm (pl_t q'))) = x_saver (lm_x (tr_lm (pl_t q))).
  Proof.
    intros HN Z HE cs HC. destruct (light_first_run ms a q bs1 HN HE HC) as (q2 & E1 & Mo & Sc & Ep & _ & St & S1 & HR & Dq & Sq & FA). specialize (St Z). exists q2.
    split. { unfold ModelLightning.pl_extract, pl_set_mode, fit. unfold sbind at 1. unfold on_t, set_mode. cbn [pl_t pl_ext pl_epoch pl_stop]. unfold sbind at 1. cbn [pl_t pl_ext pl_epoch pl_stop]. fold (log_fit q). cbn [fit_epochs]. rewrite (sbind_run _ _ _ _ _ E1). unfold sbind at 1. unfold sget at 1. rewrite St. reflexivity. }
    split; [exact Ep|]. split; [exact S1|]. split; assumption.
  Qed.
End P.
