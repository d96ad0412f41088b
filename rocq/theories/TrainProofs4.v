(** Influence runs as a whole; what the other runs leave alone; failed steps; the schedule. *)
From Coq Require Import ZArith Lia.
From Verif Require Import Py PyStr Field Tensor ModelGrad Monad ModelState ModelMmap ModelSaver ModelLoader ModelLogger ModelModules ModelLora ModelScheduler ModelInfluence ModelUtils ModelTrainer SpecGrad SpecState SpecInfluence SpecRows SpecTrainer LogProofs1 InfProofs14 InfProofs19 TrainProofs1 TrainProofs2 TrainProofs3.
Local Open Scope string_scope.
Local Open Scope list_scope.
Local Open Scope nat_scope.

Section Proofs.
  Context {F : Type} `{OField F}.
  Notation tensor := (tensor F).
  Notation lx := (@lx F).
  Notation sval := (@sval F).
  Notation tlog := (@tlog F).
  Notation glog := (@glog F).
  Notation ifn := (@ifn F).
  Notation tr := (@tr F).
  Context (rnd : mid -> list nat -> F) (svd : tensor -> res tensor) (kind : mid -> mkind).
  Context (eigh : tensor -> res (tensor * tensor)) (inverse : tensor -> res tensor) (fsqrt : F -> F).
  Context (enc : @dten F -> array) (dec : array -> @dten F) (show : did -> string).
  Context (tok : option (data -> res (list string))) (hash : string -> string).
  Notation trained := (trained kind eigh enc show tok hash).
  Notation do_step := (do_step kind eigh inverse fsqrt enc dec show tok hash).
  Notation do_epoch := (do_epoch rnd svd kind eigh inverse fsqrt enc dec show tok hash).
  Notation do_train := (do_train rnd svd kind eigh inverse fsqrt enc dec show tok hash).
  Notation influence := (influence rnd svd kind eigh inverse fsqrt enc dec show tok hash).
  Notation self_influence := (self_influence rnd svd kind eigh inverse fsqrt enc dec show tok hash).
  Notation extract_log := (extract_log rnd svd kind eigh inverse fsqrt enc dec show tok hash).
  Notation on_train_begin := (on_train_begin rnd svd).
  Notation log_dataloader := (log_dataloader dec show).

  (** ---- what every step leaves alone ---- *)
  Definition fr (p p' : tr) : Prop := tr_mode p' = tr_mode p /\ (tr_mode p <> "log" -> tr_sched p' = tr_sched p) /\ (tr_mode p <> "influence" -> same_results p p') /\ (forall l, tr_loader p = Some l -> tr_loader p' = Some l).
  Lemma fr_refl p : fr p p.
  Proof. repeat split; auto. Qed.
  Lemma fr_trans p q r : fr p q -> fr q r -> fr p r.
  Proof.
    intros (A1 & A2 & A3 & A4) (B1 & B2 & B3 & B4). split; [congruence|]. split; [intros N; rewrite B2, A2; congruence|]. split; [|auto].
    intros N. destruct (A3 N) as (C1 & C2 & C3 & C4 & C5). destruct (B3 ltac:(congruence)) as (D1 & D2 & D3 & D4 & D5). unfold same_results. repeat split; congruence.
  Qed.
  Notation frb := (sbind_rel fr fr_trans).
  Lemma fr_ret {A} (y : A) p p' r : sret y p = (p', r) -> fr p p'.
  Proof. intros [= <- _]. apply fr_refl. Qed.
  Lemma fr_get p p' r : sget p = (p', r) -> fr p p'.
  Proof. intros [= <- _]. apply fr_refl. Qed.
  Lemma fr_lift {A} (y : res A) p p' r : lift y p = (p', r) -> fr p p'.
  Proof. intros [= <- _]. apply fr_refl. Qed.
  Lemma fr_tlm {A} (m : SM (@lm F) A) p p' r : on_tlm m p = (p', r) -> fr p p'.
  Proof. unfold on_tlm. destruct (m (tr_lm p)) as [s o]. intros [= <- _]. repeat split; auto. Qed.
  Lemma fr_acc l p p' r : (fun p : tr => (tr_set_acc p l, Ok tt)) p = (p', r) -> fr p p'.
  Proof. intros [= <- _]. repeat split; auto. Qed.
  Lemma fr_keep p p' r : keep_log show p = (p', r) -> fr p p'.
  Proof. unfold keep_log. apply frb; [intros y o; apply fr_tlm|]. intros g y y' o [= <- _]. repeat split; auto. Qed.
  Lemma fr_loader a p p' r : log_dataloader a p = (p', r) -> tr_mode p = "influence" -> fr p p'.
  Proof.
    unfold ModelTrainer.log_dataloader. intros E Mo. destruct (tr_loader p) as [l|] eqn:El; [injection E as <- _; apply fr_refl|].
    destruct (tr_built p) as [l|]; [injection E as <- _; repeat split; auto; congruence|]. destruct (log_batches _ _ _ _); injection E as <- _; [repeat split; auto; congruence|apply fr_refl].
  Qed.
  Lemma fr_infl {A} (m : SM ifn A) p p' r : on_infl m p = (p', r) -> tr_mode p = "influence" -> fr p p'.
  Proof. unfold on_infl. intros E Mo. destruct (m (tr_ifn p)) as [f o]. injection E as <- _. repeat split; auto; congruence. Qed.
  Lemma fr_lstate {A} (m : SM (@lstate F) A) p p' r : on_infl (on_lstate m) p = (p', r) -> fr p p'.
  Proof. unfold on_infl, on_lstate. destruct (m (if_state (tr_ifn p))) as [s o]. intros [= <- _]. repeat split; auto. Qed.
  Lemma fr_step_end a p p' r : on_step_end eigh inverse fsqrt dec show a p = (p', r) -> fr p p'.
  Proof.
    unfold on_step_end. unfold sbind at 1. unfold sget at 1. destruct (String.eqb (tr_mode p) "influence") eqn:Ei.
    - apply String.eqb_eq in Ei. intros E. unfold sbind at 1 in E. destruct (keep_log show p) as [p1 o] eqn:E1. apply fr_keep in E1. destruct o as [u|e]; [|injection E as <- _; exact E1].
      apply (fr_trans p p1 p' E1). destruct E1 as (M1 & _). rewrite Ei in M1. unfold sbind at 1 in E. unfold sget at 1 in E. unfold sbind at 1 in E. unfold lift at 1 in E. destruct (merge_kept (tr_acc p1)) as [acc|e]; [|injection E as <- _; apply fr_refl].
      unfold sbind at 1 in E. destruct (log_dataloader a p1) as [p2 o] eqn:E2. apply fr_loader in E2; [|exact M1]. destruct o as [ld|e]; [|injection E as <- _; exact E2].
      apply (fr_trans p1 p2 p' E2). destruct E2 as (M2 & _). rewrite M1 in M2. unfold sbind at 1 in E. destruct (on_infl _ p2) as [p3 o] eqn:E3. apply fr_infl in E3; [|exact M2]. destruct o as [y|e]; [|injection E as <- _; exact E3].
      apply (fr_trans p2 p3 p' E3). eapply fr_acc. exact E.
    - destruct (String.eqb (tr_mode p) "self_influence"); [|apply fr_ret]. apply frb; [intros y o; apply fr_keep|]. intros [] y y' o. apply frb; [intros z o'; apply fr_get|]. intros q z z' o'.
      apply frb; [intros w o2; apply fr_lift|]. intros acc w w' o2. apply frb; [intros v o3; apply fr_lstate|]. intros q2 v v' o3. apply fr_acc.
  Qed.
  Lemma fr_do_step a ms p p' r : do_step a ms p = (p', r) -> fr p p'.
  Proof.
    revert p p' r. induction ms as [|m ms IH]; intros p p' r; [apply fr_ret|]. destruct ms as [|m2 ms].
    - cbn [ModelTrainer.do_step]. apply frb; [intros y o; apply fr_tlm|]. intros [] y y' o. apply fr_step_end.
    - change (do_step a (m :: m2 :: ms)) with (on_tlm (on_x (training_step kind eigh enc tok hash a m)) ;; on_substep_end show ;; do_step a (m2 :: ms)).
      apply frb; [intros y o; apply fr_tlm|]. intros [] y y' o. apply frb; [|intros [] z z' o'; apply IH]. intros z o'. unfold on_substep_end. apply frb; [intros w o2; apply fr_get|]. intros q w w' o2. destruct (mem _ _); [apply fr_keep|apply fr_ret].
  Qed.
  Lemma fr_epoch_begin p p' r : on_epoch_begin rnd svd p = (p', r) -> fr p p'.
  Proof.
    unfold on_epoch_begin, sbind, sget. destruct (String.eqb (tr_mode p) "log") eqn:Ei; [|apply fr_ret]. apply String.eqb_eq in Ei. unfold on_sched, sret.
    destruct (sched_next rnd svd (tr_sched p, tr_lm p)) as [[c s] [u|e]]; intros [= <- _]; repeat split; auto; congruence.
  Qed.
  Lemma fr_epoch a ss p p' r : do_epoch a ss p = (p', r) -> fr p p'.
  Proof.
    unfold ModelTrainer.do_epoch. apply frb; [intros y o; apply fr_epoch_begin|]. intros [] y y' o. apply frb; [intros z o'; apply (seach_rel fr fr_refl fr_trans); intros m w w' o2 _; apply fr_do_step|].
    intros [] z z' o'. unfold on_epoch_end. apply frb; [intros w o2; apply fr_get|]. intros q w w' o2. destruct (String.eqb _ _); [apply fr_tlm|apply fr_ret].
  Qed.
  Lemma fr_begin a p p' r : on_train_begin a p = (p', r) -> fr p p'.
  Proof.
    unfold ModelTrainer.on_train_begin. apply frb; [intros y o; apply fr_get|]. intros q y y' o. apply frb; [intros z o'; destruct (ha_init a); [apply fr_tlm|apply fr_ret]|].
    intros [] z z' o'. destruct (mem _ _); [|apply fr_ret]. apply frb; [intros w o2; apply fr_tlm|]. intros [] w w' o2. apply fr_tlm.
  Qed.
  Lemma fr_train a es p p' r : do_train a es p = (p', r) -> fr p p'.
  Proof. unfold ModelTrainer.do_train. apply frb; [intros y o; apply fr_begin|]. intros [] y y' o. apply (seach_rel fr fr_refl fr_trans). intros m w w' o2 _. apply fr_epoch. Qed.

  (** ---- influence ---- *)
  Lemma acc_begin a p p' r : on_train_begin a p = (p', r) -> tr_acc p' = tr_acc p /\ tr_lists p' = tr_lists p /\ tr_dicts p' = tr_dicts p /\ tr_scores p' = tr_scores p /\ tr_built p' = tr_built p /\ tr_loader p' = tr_loader p.
  Proof.
    set (R := fun p p' : tr => tr_acc p' = tr_acc p /\ tr_lists p' = tr_lists p /\ tr_dicts p' = tr_dicts p /\ tr_scores p' = tr_scores p /\ tr_built p' = tr_built p /\ tr_loader p' = tr_loader p).
    assert (Rt : forall x y z, R x y -> R y z -> R x z) by (unfold R; intuition congruence).
    assert (Rm : forall A (m : SM (@lm F) A) q q' o, on_tlm m q = (q', o) -> R q q'). { intros A m q q' o. unfold on_tlm. destruct (m (tr_lm q)). intros [= <- _]. repeat split. }
    assert (Rr : forall A (y : A) (q q' : tr) o, sret y q = (q', o) -> R q q') by (intros A y q q' o [= <- _]; repeat split).
    unfold ModelTrainer.on_train_begin. apply (sbind_rel R Rt); [intros y o [= <- _]; repeat split|]. intros q y y' o. apply (sbind_rel R Rt); [intros z o'; destruct (ha_init a); [apply Rm|apply Rr]|].
    intros [] z z' o'. destruct (mem _ _); [|apply Rr]. apply (sbind_rel R Rt); [intros w o2; apply Rm|]. intros [] w w' o2. apply Rm.
  Qed.
  Lemma begin_ready a p p0 : In (tr_mode p) ["influence"; "self_influence"] -> on_train_begin a p = (p0, Ok tt) -> log_only (lm_x (tr_lm p0)) /\ x_save (lm_x (tr_lm p0)) = false.
  Proof.
    intros Mo E. unfold ModelTrainer.on_train_begin in E. unfold sbind at 1 in E. unfold sget at 1 in E. apply sbind_ok in E. destruct E as (q & [] & _ & E). apply mem_In in Mo. rewrite Mo in E.
    apply sbind_ok in E. destruct E as (q1 & [] & E1 & E). unfold on_tlm, on_x, lx_setup in E1. remember (opt_setup [("grad", [AStr "log"])]) as z eqn:Ez. vm_compute in Ez. subst z. injection E1 as <-.
    unfold on_tlm, on_x, lx_eval, lx_save in E. injection E as <-. cbn. split; reflexivity.
  Qed.
  Theorem influence_run a epochs (p p0 p2 : tr) loader ls x1 ks n sids (M : tlog) s' r :
    on_train_begin a (tr_set_mode p "influence") = (p0, Ok tt) -> log_dataloader a p0 = (p2, Ok loader) ->
    tr_scores p = None -> tr_acc p = [] -> plain_state (x_state (lm_x (tr_lm p0))) -> Forall (fun ms => ms <> []) (concat epochs) ->
    trained a (lm_x (tr_lm p0)) (concat (concat epochs)) ls x1 -> map as_nest ls = batches 0 ks sids M ->
    uniform n M -> ok_log M -> length sids = n -> splits ks n ->
    ModelInfluence.influence_all eigh inverse fsqrt (sids, Nest (log_nd M)) loader (ha_imode a) true "auto" (ha_groups a) (ha_damping a) (x_state (lm_x (tr_lm p0))) = (s', Ok (Some r)) ->
    exists p' o, influence a epochs p = (p', Ok (Some o)) /\ tr_scores p' = Some o /\ saved (tr_ifn p') r /\ tr_acc p' = [] /\ lm_x (tr_lm p') = with_state x1 s' /\ x_dir x1 = x_dir (lm_x (tr_lm p0)).
  Proof.
    intros EB ED SN AN PS V T1 EL U OM Ls SP EI.
    pose proof (fr_begin a _ _ _ EB) as (Mo & _). cbn [tr_set_mode tr_mode] in Mo. pose proof (acc_begin a _ _ _ EB) as (A1 & _ & _ & A2 & _ & _). cbn [tr_set_mode tr_acc tr_scores] in A1, A2. rewrite AN in A1. rewrite SN in A2.
    destruct (begin_ready a (tr_set_mode p "influence") p0 (or_introl eq_refl) EB) as (L0 & S0). pose proof (gives_of dec show a p0 p2 loader ED) as GV.
    assert (NS : Forall (fun k => k <> 0) (map (@length _) (concat epochs))). { rewrite Forall_map. revert V. apply Forall_impl. intros [|? ?]; [congruence|discriminate]. }
    assert (Sm : fold_right Nat.add 0 (map (@length _) (concat epochs)) = length ks).
    { pose proof (f_equal (@length _) EL) as Q. rewrite map_length, (trained_length _ _ _ _ _ _ _ _ _ _ _ T1), batches_length in Q. rewrite <- Q. generalize (concat epochs). induction l as [|y l IH]; [reflexivity|]. cbn [map fold_right concat]. rewrite app_length, IH. reflexivity. }
    pose proof (regroup_splits _ ks n NS Sm SP) as SP'.
    destruct (source_batches eigh inverse fsqrt n M sids loader (ha_imode a) true "auto" (ha_groups a) (ha_damping a) _ (tr_ifn p0) s' r U Ls SP' PS A2 EI) as (f' & os & EC & ES & SV & _ & _).
    destruct (steps_run kind eigh inverse fsqrt enc dec show tok hash a p0 loader M sids OM Mo (concat epochs) ks 0 (lm_x (tr_lm p0)) x1 ls (tr_ifn p0) f' os (tr_built p0) (tr_loader p0) V L0 S0 T1 GV EL EC) as (b' & l' & ER & _).
    pose proof (epochs_steps rnd svd kind eigh inverse fsqrt enc dec show tok hash a p0 Mo epochs _ _ _ _ _ _ _ _ _ _ ER) as EP. lapply EP; [clear EP; intros EP|intros s q q' o Mq Eq; apply fr_do_step in Eq; destruct Eq as (Q & _); congruence].
    pose proof (at_id p0) as AI. rewrite A1 in AI. rewrite AI in EP. destruct SV as (o & SV1 & SV2 & SV3).
    exists (at_ p0 x1 f' [] b' l'), o. split; [|split; [exact SV1|split; [rewrite at_ifn; exists o; auto|split; [reflexivity|split; [cbn; rewrite ES; reflexivity|exact (proj1 (trained_dirs _ _ _ _ _ _ _ _ _ _ _ S0 T1))]]]]].
    unfold ModelTrainer.influence. unfold sbind at 1. unfold set_mode. unfold sbind at 1. unfold ModelTrainer.do_train. rewrite (sbind_run _ _ _ _ _ EB), EP. unfold sbind, sget, sret. cbn [at_ tr_scores]. rewrite SV1. reflexivity.
  Qed.

  (** ---- extract_log and self_influence touch no score ---- *)
  Theorem other_runs a epochs p p' r : self_influence a epochs p = (p', r) \/ extract_log a epochs p = (p', r) -> same_results p p'.
  Proof.
    intros [E|E]; unfold ModelTrainer.self_influence, ModelTrainer.extract_log in E; unfold sbind at 1 in E; unfold set_mode in E; apply fr_train in E; destruct E as (_ & _ & R & _); apply R; discriminate.
  Qed.
  Theorem loader_kept a epochs p p' r l : tr_loader p = Some l -> influence a epochs p = (p', r) -> tr_loader p' = Some l.
  Proof.
    intros El E. unfold ModelTrainer.influence in E. unfold sbind at 1 in E; unfold set_mode in E. unfold sbind at 1 in E. destruct (do_train a epochs (tr_set_mode p "influence")) as [q o] eqn:E1.
    apply fr_train in E1. destruct E1 as (_ & _ & _ & K). destruct o; injection E as <- _; apply K; exact El.
  Qed.

  (** ---- a step scores everything kept so far; a failing step keeps it ---- *)
  Lemma step_fail a p (loader : list glog) f f' e ids d : tr_mode p = "influence" -> call_all eigh inverse fsqrt true (bcall loader (ha_imode a) true "auto" (ha_groups a) (ha_damping a) (ids, Nest d)) f = (f', Err e) ->
    forall ms (x x1 : lx) ls acc b l, ms <> [] -> log_only x -> x_save x = false -> trained a x ms ls x1 -> gives dec show a x b l loader -> merge_kept (acc ++ map kept ls) = Ok (ids, d) ->
    exists b', do_step a ms (at_ p x f acc b l) = (at_ p x1 f' (acc ++ map kept ls) b' (Some loader), Err e).
  Proof.
    intros Mo EC. induction ms as [|m ms IH]; intros x x1 ls acc b l Nm L Sv T1 GV MK; [congruence|].
    inversion T1 as [|? ? ? y iv g ls' ? E G T2]; subst. pose proof (ind_training kind eigh enc tok hash a m x (x_state x) L) as (_ & Oy & _). rewrite E in Oy. cbn [fst] in Oy.
    assert (Ly : log_only y) by (unfold log_only; rewrite Oy; exact L). pose proof (training_dirs kind eigh enc tok hash a m x y _ Sv E) as (Dy & Sy).
    assert (GY : gives dec show a y b l loader) by (unfold gives in *; rewrite Dy; exact GV).
    destruct ms as [|m2 ms].
    - inversion T2; subst. cbn [ModelTrainer.do_step]. rewrite (sbind_run _ _ _ _ _ (at_train kind eigh enc tok hash a m p x x1 f acc b l L E)).
      unfold ModelTrainer.on_step_end. unfold sbind at 1. unfold sget at 1. rewrite at_mode, Mo, String.eqb_refl.
      rewrite (sbind_run _ _ _ _ _ (at_keep show p x1 iv g f acc b l G)). unfold sbind at 1. unfold sget at 1. rewrite at_acc. cbn [map] in MK. rewrite MK.
      unfold sbind at 1. unfold lift at 1.
      destruct (at_loader dec show a p x1 f (acc ++ [kept (map show iv, leaf_map VT g)]) b l loader GY) as (b' & EL). rewrite (sbind_run _ _ _ _ _ EL).
      unfold SpecInfluence.call_all, bcall in EC. cbn [ic_src ic_loader ic_mode ic_prec ic_hessian ic_groups ic_damping] in EC.
      exists b'. unfold sbind at 1. unfold on_infl at 1. rewrite at_ifn. cbn [fst snd]. rewrite EC. reflexivity.
    - assert (ES : on_substep_end show (at_ p y f acc b l) = (at_ p y f (acc ++ [kept (map show iv, leaf_map VT g)]) b l, Ok tt)).
      { unfold on_substep_end, sbind, sget. rewrite at_mode, Mo. change (mem _ _) with true. exact (at_keep show p y iv g f acc b l G). }
      change (do_step a (m :: m2 :: ms)) with (on_tlm (on_x (training_step kind eigh enc tok hash a m)) ;; on_substep_end show ;; do_step a (m2 :: ms)).
      rewrite (sbind_run _ _ _ _ _ (at_train kind eigh enc tok hash a m p x y f acc b l L E)), (sbind_run _ _ _ _ _ ES). cbn [map].
      destruct (IH y x1 ls' (acc ++ [kept (map show iv, leaf_map VT g)]) b l) as (b' & EE); auto; [discriminate|rewrite <- app_assoc; exact MK|]. exists b'. rewrite EE, <- app_assoc. reflexivity.
  Qed.

  Lemma step_merge_fail a p f e : tr_mode p = "influence" -> forall ms (x x1 : lx) ls acc b l, ms <> [] -> log_only x -> trained a x ms ls x1 -> merge_kept (acc ++ map kept ls) = Err e ->
    do_step a ms (at_ p x f acc b l) = (at_ p x1 f (acc ++ map kept ls) b l, Err e).
  Proof.
    intros Mo. induction ms as [|m ms IH]; intros x x1 ls acc b l Nm L T1 MK; [congruence|].
    inversion T1 as [|? ? ? y iv g ls' ? E G T2]; subst. pose proof (ind_training kind eigh enc tok hash a m x (x_state x) L) as (_ & Oy & _). rewrite E in Oy. cbn [fst] in Oy.
    assert (Ly : log_only y) by (unfold log_only; rewrite Oy; exact L).
    destruct ms as [|m2 ms].
    - inversion T2; subst. cbn [ModelTrainer.do_step]. rewrite (sbind_run _ _ _ _ _ (at_train kind eigh enc tok hash a m p x x1 f acc b l L E)).
      unfold ModelTrainer.on_step_end. unfold sbind at 1. unfold sget at 1. rewrite at_mode, Mo, String.eqb_refl.
      rewrite (sbind_run _ _ _ _ _ (at_keep show p x1 iv g f acc b l G)). unfold sbind at 1. unfold sget at 1. rewrite at_acc. cbn [map] in MK |- *. rewrite MK. reflexivity.
    - assert (ES : on_substep_end show (at_ p y f acc b l) = (at_ p y f (acc ++ [kept (map show iv, leaf_map VT g)]) b l, Ok tt)).
      { unfold on_substep_end, sbind, sget. rewrite at_mode, Mo. change (mem _ _) with true. exact (at_keep show p y iv g f acc b l G). }
      change (do_step a (m :: m2 :: ms)) with (on_tlm (on_x (training_step kind eigh enc tok hash a m)) ;; on_substep_end show ;; do_step a (m2 :: ms)).
      rewrite (sbind_run _ _ _ _ _ (at_train kind eigh enc tok hash a m p x y f acc b l L E)), (sbind_run _ _ _ _ _ ES). cbn [map].
      rewrite (IH y x1 ls' (acc ++ [kept (map show iv, leaf_map VT g)]) b l); auto; [rewrite <- app_assoc; reflexivity|discriminate|rewrite <- app_assoc; exact MK].
  Qed.
  Theorem one_step a ms (p p2 : tr) ls x1 loader ids d f' r : ms <> [] -> tr_mode p = "influence" -> log_only (lm_x (tr_lm p)) -> x_save (lm_x (tr_lm p)) = false ->
    trained a (lm_x (tr_lm p)) ms ls x1 -> log_dataloader a p = (p2, Ok loader) -> merge_kept (tr_acc p ++ map kept ls) = Ok (ids, d) ->
    compute_influence_all eigh inverse fsqrt (ids, Nest d) loader (ha_imode a) true true "auto" (ha_groups a) (ha_damping a) (tr_ifn p) = (f', r) ->
    exists p', do_step a ms p = (p', match r with Ok _ => Ok tt | Err e => Err e end) /\ tr_ifn p' = f' /\ lm_x (tr_lm p') = with_state x1 (if_state f') /\
      tr_acc p' = (match r with Ok _ => [] | Err _ => tr_acc p ++ map kept ls end) /\ tr_loader p' = Some loader /\ tr_mode p' = "influence".
  Proof.
    intros Nm Mo L Sv T1 EL MK EC. pose proof (gives_of dec show a p p2 loader EL) as GV. destruct r as [o|e].
    - destruct (step_run kind eigh inverse fsqrt enc dec show tok hash a p loader (tr_ifn p) f' o ids d Mo EC ms _ x1 ls (tr_acc p) _ _ Nm L Sv T1 GV MK) as (b' & ES). rewrite at_id in ES.
      eexists. split; [exact ES|]. rewrite at_ifn. cbn. auto.
    - destruct (step_fail a p loader (tr_ifn p) f' e ids d Mo EC ms _ x1 ls (tr_acc p) _ _ Nm L Sv T1 GV MK) as (b' & ES). rewrite at_id in ES.
      eexists. split; [exact ES|]. rewrite at_ifn. cbn. auto.
  Qed.
  Theorem one_step_unmerged a ms (p : tr) ls x1 e : ms <> [] -> tr_mode p = "influence" -> log_only (lm_x (tr_lm p)) ->
    trained a (lm_x (tr_lm p)) ms ls x1 -> merge_kept (tr_acc p ++ map kept ls) = Err e ->
    exists p', do_step a ms p = (p', Err e) /\ tr_ifn p' = tr_ifn p /\ tr_acc p' = tr_acc p ++ map kept ls /\ tr_loader p' = tr_loader p.
  Proof.
    intros Nm Mo L T1 MK. pose proof (step_merge_fail a p (tr_ifn p) e Mo ms _ x1 ls (tr_acc p) (tr_built p) (tr_loader p) Nm L T1 MK) as ES. rewrite at_id in ES. eexists. split; [exact ES|]. rewrite at_ifn. cbn. auto.
  Qed.

  (** ---- the schedule ---- *)
  Notation rest := epochs_left.
  Lemma step_sched a ms p p' r : do_step a ms p = (p', r) -> tr_sched p' = tr_sched p.
  Proof.
    set (R := fun p p' : tr => tr_sched p' = tr_sched p). assert (Rt : forall x y z, R x y -> R y z -> R x z) by (unfold R; intuition congruence).
    assert (Rm : forall A (m : SM (@lm F) A) q q' o, on_tlm m q = (q', o) -> R q q'). { intros A m q q' o. unfold on_tlm. destruct (m (tr_lm q)). intros [= <- _]. reflexivity. }
    assert (Rk : forall q q' o, keep_log show q = (q', o) -> R q q'). { intros q q' o. unfold keep_log. apply (sbind_rel R Rt); [intros y o'; apply Rm|]. intros g y y' o' [= <- _]. reflexivity. }
    assert (Ri : forall A (m : SM ifn A) q q' o, on_infl m q = (q', o) -> R q q'). { intros A m q q' o. unfold on_infl. destruct (m (tr_ifn q)). intros [= <- _]. reflexivity. }
    assert (Rl : forall q q' o, log_dataloader a q = (q', o) -> R q q'). { intros q q' o. unfold ModelTrainer.log_dataloader. destruct (tr_loader q); [intros [= <- _]; reflexivity|]. destruct (tr_built q); [intros [= <- _]; reflexivity|]. destruct (log_batches _ _ _ _); intros [= <- _]; reflexivity. }
    assert (Re : forall q q' o, on_step_end eigh inverse fsqrt dec show a q = (q', o) -> R q q').
    { intros q q' o. unfold on_step_end. unfold sbind at 1. unfold sget at 1. destruct (String.eqb _ _); [|destruct (String.eqb _ _); [|intros [= <- _]; reflexivity]];
        (apply (sbind_rel R Rt); [intros y o'; apply Rk|]; intros [] y y' o'; apply (sbind_rel R Rt); [intros z o2 [= <- _]; reflexivity|]; intros p1 z z' o2; apply (sbind_rel R Rt); [intros w o3 [= <- _]; reflexivity|]; intros acc w w' o3).
      - apply (sbind_rel R Rt); [intros v o4; apply Rl|]. intros ld v v' o4. apply (sbind_rel R Rt); [intros u o5; apply Ri|]. intros q5 u u' o5 [= <- _]. reflexivity.
      - apply (sbind_rel R Rt); [intros u o5; apply Ri|]. intros q5 u u' o5 [= <- _]. reflexivity. }
    revert p p' r. induction ms as [|m ms IH]; intros p p' r; [intros [= <- _]; reflexivity|]. destruct ms as [|m2 ms].
    - cbn [ModelTrainer.do_step]. apply (sbind_rel R Rt); [intros y o; apply Rm|]. intros [] y y' o. apply Re.
    - change (do_step a (m :: m2 :: ms)) with (on_tlm (on_x (training_step kind eigh enc tok hash a m)) ;; on_substep_end show ;; do_step a (m2 :: ms)).
      apply (sbind_rel R Rt); [intros y o; apply Rm|]. intros [] y y' o. apply (sbind_rel R Rt); [|intros [] z z' o'; apply IH]. intros z o'. unfold on_substep_end. apply (sbind_rel R Rt); [intros w o2 [= <- _]; reflexivity|]. intros q w w' o2. destruct (mem _ _); [apply Rk|intros [= <- _]; reflexivity].
  Qed.
  Lemma next_rest c (s : @lm F) c' s' r : sched_next rnd svd (c, s) = ((c', s'), r) -> sc_rest c <> [] -> length (sc_rest c) = S (length (sc_rest c')).
  Proof.
    unfold sched_next. cbn [fst]. destruct (sc_rest c) as [|st l] eqn:Er; [congruence|]. intros E _. unfold sbind at 1 in E. cbn [fst snd] in E.
    assert (K : forall A (m : SM (@lm F) A) q q' o, on_lm m q = (q', o) -> fst q' = fst q). { intros A m q q' o. unfold on_lm. destruct (m (snd q)). intros [= <- _]. reflexivity. }
    set (R := fun q q' : sched * @lm F => fst q' = fst q) in *. assert (Rt : forall x y z, R x y -> R y z -> R x z) by (unfold R; intuition congruence).
    rewrite Er in E. set (c1 := Sched (sc_lora c) (sc_hessian c) (sc_save c) (sc_epoch c + 1) (sc_all c) l) in *.
    assert (Q : R (c1, s) (c', s')).
    { revert E. apply (sbind_rel R Rt); [intros y o [= <- _]; reflexivity|]. intros q y y' o. apply (sbind_rel R Rt); [intros z o'; destruct (_ =? _)%Z; [apply K|intros [= <- _]; reflexivity]|].
      intros [] z z' o'. apply (sbind_rel R Rt); [intros w o2; destruct (_ =? _)%Z; [apply K|intros [= <- _]; reflexivity]|]. intros [] w w' o2. apply (sbind_rel R Rt); [intros v o3; apply K|]. intros [] v v' o3 [= <- _]. reflexivity. }
    unfold R in Q. cbn [fst] in Q. rewrite Q. reflexivity.
  Qed.
  Lemma begin_sched a p q r : on_train_begin a p = (q, r) -> tr_sched q = tr_sched p.
  Proof.
    set (R := fun p p' : tr => tr_sched p' = tr_sched p). assert (Rt : forall x y z, R x y -> R y z -> R x z) by (unfold R; intuition congruence).
    assert (Rm : forall A (m : SM (@lm F) A) q q' o, on_tlm m q = (q', o) -> R q q'). { intros A m q1 q' o. unfold on_tlm. destruct (m (tr_lm q1)). intros [= <- _]. reflexivity. }
    apply (sbind_rel R Rt); [intros y o [= <- _]; reflexivity|]. intros q1 y y' o. apply (sbind_rel R Rt); [intros z o'; destruct (ha_init a); [apply Rm|intros [= <- _]; reflexivity]|].
    intros [] z z' o'. destruct (mem _ _); [|intros [= <- _]; reflexivity]. apply (sbind_rel R Rt); [intros w o2; apply Rm|]. intros [] w w' o2. apply Rm.
  Qed.
  Theorem extract_consumes a epochs p p' : extract_log a epochs p = (p', Ok tt) -> rest p = length epochs + rest p'.
  Proof.
    unfold ModelTrainer.extract_log. intros E. unfold sbind at 1 in E; unfold set_mode in E. unfold ModelTrainer.do_train in E. apply sbind_ok in E. destruct E as (q & [] & EB & E).
    assert (Mq : tr_mode q = "log") by (apply fr_begin in EB; apply EB). assert (Rq : rest q = rest p).
    { unfold epochs_left. rewrite (begin_sched a _ _ _ EB). reflexivity. }
    rewrite <- Rq. clear EB Rq. revert q E Mq. induction epochs as [|ss es IH]; intros q E Mq; [injection E as ->; reflexivity|].
    cbn [seach] in E. apply sbind_ok in E. destruct E as (q1 & [] & E1 & E). pose proof (fr_epoch a ss _ _ _ E1) as (M1 & _). rewrite Mq in M1. rewrite (eq_sym (eq_refl : S (length es) + rest p' = length (ss :: es) + rest p')). cbn [Nat.add]. rewrite <- (IH q1 E M1). clear IH E.
    unfold ModelTrainer.do_epoch in E1. apply sbind_ok in E1. destruct E1 as (q2 & [] & B1 & E1). apply sbind_ok in E1. destruct E1 as (q3 & [] & B2 & E1).
    assert (Q3 : tr_sched q1 = tr_sched q3). { unfold on_epoch_end, sbind, sget in E1. destruct (String.eqb _ _); [|injection E1 as <-; reflexivity]. unfold on_tlm in E1. destruct (lm_finalize (tr_lm q3)). injection E1 as <- _. reflexivity. }
    assert (Q2 : tr_sched q3 = tr_sched q2). { set (R := fun p p' : tr => tr_sched p' = tr_sched p). revert B2. apply (seach_rel R); [reflexivity|unfold R; intuition congruence|]. intros m w w' o _. apply step_sched. }
    unfold on_epoch_begin, sbind, sget in B1. rewrite Mq in B1. change (String.eqb "log" "log") with true in B1. unfold on_sched in B1. destruct (sched_next rnd svd (tr_sched q, tr_lm q)) as [[c s] [u|e]] eqn:EN; [|discriminate B1]. injection B1 as <-.
    unfold epochs_left. rewrite Q3, Q2. cbn [tr_set_lm tr_sched]. apply (next_rest _ _ _ _ _ EN). intros E0. unfold sched_next in EN. unfold sbind at 1 in EN. cbn [fst] in EN. rewrite E0 in EN. discriminate EN.
  Qed.
  Theorem extract_exhausted a ss epochs p p0 : rest p = 0 -> on_train_begin a (tr_set_mode p "log") = (p0, Ok tt) -> extract_log a (ss :: epochs) p = (p0, Err StopIteration).
  Proof.
    intros R0 EB. pose proof (begin_sched a _ _ _ EB) as Q. cbn [tr_set_mode tr_sched] in Q. pose proof (fr_begin a _ _ _ EB) as (Mq & _). cbn [tr_set_mode tr_mode] in Mq. unfold ModelTrainer.extract_log. unfold sbind at 1. unfold set_mode. unfold ModelTrainer.do_train. rewrite (sbind_run _ _ _ _ _ EB). cbn [seach].
    assert (B : on_epoch_begin rnd svd p0 = (p0, Err StopIteration)).
    { unfold on_epoch_begin, sbind, sget. rewrite Mq. change (String.eqb "log" "log") with true. unfold on_sched, sched_next. unfold sbind at 1. cbn [fst]. rewrite Q. unfold epochs_left in R0. apply length_zero_iff_nil in R0. rewrite R0. rewrite <- Q. destruct p0; reflexivity. }
    unfold ModelTrainer.do_epoch. unfold sbind at 1. unfold sbind at 1. rewrite B. reflexivity.
  Qed.
End Proofs.
