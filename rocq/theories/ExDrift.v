(** A run with corrected eigenvalues of the trainer of ExTrainer.v. *)
From Coq Require Import ZArith QArith Qcanon Lia.
From Verif Require Import Py PyStr Field Tensor ModelGrad Monad ModelState ModelMmap ModelSaver ModelLoader ModelLogger ModelModules ModelLora ModelScheduler ModelInfluence ModelUtils ModelTrainer SpecGrad SpecState SpecInfluence SpecRows SpecTrainer SpecDrift ExNum ExState ExInfluence ExLogger ExLora ExRows ExTrainer ExWhole.
Local Open Scope string_scope.
Local Open Scope list_scope.
Local Open Scope nat_scope.

Definition te1 := Eval vm_compute in fst (tnew "ekfac").
Definition te2r := Eval vm_compute in (textract targs [[[tka]; [tkc]]; [[tka]; [tkc]]] te1).
Definition te2 := Eval vm_compute in fst te2r.
Definition te3 := Eval vm_compute in fst (on_train_begin lrnd lsvd targs (tr_set_mode te2 "influence")).
Definition teload := Eval vm_compute in match log_dataloader tdec tshow_id targs te3 with (_, Ok l) => l | _ => [] end.
Definition tes := x_state (lm_x (tr_lm te3)).
Definition teC : @tlog Qc := to_tlog (xnd tes "covariance_state").
Definition teEC : @tlog Qc := to_tlog (xnd tes "covariance_eigvec_state").
Definition teE := to_leaves (xnd tes "ekfac_eigval_state").
Lemma te_state : ekfac_state tes teC teEC teE.
Proof.
  split. { split; [apply has_attr; vm_compute; reflexivity|]. apply ok_b_ok. vm_compute. reflexivity. }
  split. { split; [apply has_attr; vm_compute; reflexivity|]. apply ok_b_ok. vm_compute. reflexivity. }
  split. { intros E. apply (f_equal (fun o => match o with Some _ => true | None => false end)) in E. vm_compute in E. discriminate E. }
  split; [apply has_leaves; vm_compute; reflexivity|]. apply nodup_ok. vm_compute. reflexivity.
Qed.
Lemma te_data m : In m (dkeys tM) -> ekfac_data Cpu teEC teE tM m.
Proof.
  intros [<-|[]].
  assert (B1 : look_b teEC "fc" "forward" (orth_b 2) = true) by (vm_compute; reflexivity). assert (B2 : look_b teEC "fc" "backward" (orth_b 1) = true) by (vm_compute; reflexivity). assert (B3 : get_b teE "fc" (pos_b 1 2) = true) by (vm_compute; reflexivity).
  destruct (look_b_ok _ _ _ _ B1) as (vf & L1 & O1). destruct (look_b_ok _ _ _ _ B2) as (vb & L2 & O2). destruct (get_b_ok _ _ _ B3) as (x & L3 & O3). apply orth_ok in O1. apply orth_ok in O2. destruct (pos_ok _ _ _ O3) as (Sx & Wx & Px).
  exists 4, 1, 2, (zt [4; 1; 2] [12; 12; 0; 2; -4; 4; 2; 0]%Z), vf, vb, x. split; [reflexivity|]. split; [reflexivity|]. split; [reflexivity|]. repeat (split; [assumption|]). exact Px.
Qed.
Definition teQlogs := Eval vm_compute in match train_logs targs [tu; tv; tz] (lm_x (tr_lm te3)) with Some p => fst p | None => [] end.
Definition tex4 := Eval vm_compute in match train_logs targs [tu; tv; tz] (lm_x (tr_lm te3)) with Some p => snd p | None => lm_x (tr_lm te3) end.
(** the scores of every sample of a run *)
Definition escores (epochs : list (list (list (@micro Qc)))) := tview (fst (tinfluence targs epochs te2)).
(** all that is asked of the run *)
Definition drift_ok (epochs : list (list (list (@micro Qc)))) : Prop :=
  on_train_begin lrnd lsvd targs (tr_set_mode te2 "influence") = (te3, Ok tt) /\ snd (log_dataloader tdec tshow_id targs te3) = Ok (batches 0 [2; 1] ["a"; "b"; "c"] tkM) /\ splits [2; 1] 3 /\
  tr_scores te2 = None /\ tr_acc te2 = [] /\ ekfac_state tes teC teEC teE /\ (forall m, In m (dkeys tM) -> ekfac_data Cpu teEC teE tM m) /\ covered teC tM /\ picks_kfac "auto" teC tM /\
  plain_log Cpu 4 tM /\ uniform 4 tM /\ ok_log tM /\ plain_log Cpu 3 tkM /\ within tM tkM /\ grad_first tkM /\ Forall (fun ms => ms <> []) (concat epochs) /\
  ttrained targs (lm_x (tr_lm te3)) (concat (concat epochs)) teQlogs tex4 /\ map as_nest teQlogs = batches 0 [1; 2; 1] ["u"; "v"; "w"; "z"] tM /\ splits [1; 2; 1] 4.
Lemma drift_hyps epochs : Forall (fun ms => ms <> []) (concat epochs) -> concat (concat epochs) = [tu; tv; tz] -> drift_ok epochs.
Proof.
  intros V EC. split; [apply t_pair; vm_compute; reflexivity|]. split; [vm_compute; reflexivity|]. split; [repeat split; [discriminate|repeat constructor; discriminate]|]. split; [vm_compute; reflexivity|]. split; [vm_compute; reflexivity|].
  split; [exact te_state|]. split; [exact te_data|]. split; [apply covered_b; vm_compute; reflexivity|]. split; [right; split; [reflexivity|]; split; [discriminate|vm_compute; reflexivity]|].
  split; [exact (proj1 (tM_plain 4 tM _ eq_refl eq_refl))|]. split; [apply uniform_ok; vm_compute; reflexivity|]. split; [apply ok_b_ok; vm_compute; reflexivity|]. split; [exact (proj1 (tM_plain 3 tkM _ eq_refl eq_refl))|].
  split; [eapply tM_within; reflexivity|]. split; [reflexivity|]. split; [exact V|]. split; [rewrite EC; apply train_logs_ok; vm_compute; reflexivity|]. split; [vm_compute; reflexivity|]. repeat split; [discriminate|repeat constructor; discriminate].
Qed.
Lemma drift_steps : ~ forall e1 e2, drift_ok e1 -> drift_ok e2 -> escores e1 = escores e2.
Proof.
  intros E. specialize (E [[[tu; tv]; [tz]]] [[[tu; tv; tz]]]). lapply E; [clear E; intros E|apply drift_hyps; [repeat constructor; discriminate|reflexivity]]. lapply E; [clear E; intros E|apply drift_hyps; [repeat constructor; discriminate|reflexivity]].
  vm_compute in E. discriminate E.
Qed.
