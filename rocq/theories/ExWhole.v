(** Whole runs of the trainer of ExTrainer.v: logging three samples, scoring four others against them. *)
From Coq Require Import ZArith QArith Qcanon Lia Field_theory.
From Verif Require Import Py PyStr Field Tensor ModelGrad Monad ModelState ModelMmap ModelSaver ModelLoader ModelLogger ModelModules ModelLora ModelScheduler ModelInfluence ModelUtils ModelTrainer SpecGrad SpecState SpecStore SpecLogger SpecInfluence SpecRows SpecTrainer SpecDisk SpecWhole InfProofs3 ExNum ExState ExInfluence ExLogger ExLora ExRows ExTrainer ExDisk.
Local Open Scope string_scope.
Local Open Scope list_scope.
Local Open Scope nat_scope.

Definition tsz (_ : mid) : nat := 2.
Notation hnew := (new_run tkind tsz xeigh tenc).
Notation htraining := (training lrnd lsvd tkind xeigh tenc tdec tshow_id (Some ttok) (fun s => s)).
Notation htesting := (testing lrnd lsvd tkind xeigh tenc tshow_id (Some ttok) (fun s => s)).
Lemma pristine_b (s : @lstate Qc) : registries s = registries (@state_init Qc) -> dkeys (attrs s) = dkeys (attrs (@state_init Qc)) ->
  (dget "mean_state" (attrs s), dget "mean_counter" (attrs s), dget "covariance_state" (attrs s), dget "covariance_counter" (attrs s)) = (Some (Node []), Some (Node []), Some (Node []), Some (Node [])) -> pristine s.
Proof. intros A B C. split; [exact A|]. split; [exact B|]. injection C as C1 C2 C3 C4. intros []; split; assumption. Qed.
Lemma fresh_b d : d = [] -> fresh_dir d.
Proof. intros ->. split; [constructor|intros k []]. Qed.
Lemma new_ok h p : snd (tnew h) = Ok tt -> fst (tnew h) = p -> new_sched "none" h "grad" = Ok (tr_sched p) ->
  lm_x (tr_lm p) = run_ops tkind tsz xeigh tenc [XWatch [("fc", 1)]] (@lx_init Qc 0 100 false) -> hnew h ["fc"] targs p.
Proof.
  intros _ _ E X. split; [exact E|]. split; [reflexivity|]. cbv zeta. rewrite X. split; [do 4 eexists; reflexivity|].
  split; [apply pristine_b; vm_compute; reflexivity|]. split; [apply fresh_b; vm_compute; reflexivity|]. do 3 eexists. split; [vm_compute; reflexivity|lia].
Qed.
Lemma whole_new : hnew "raw" ["fc"] targs t1.
Proof. apply new_ok; vm_compute; reflexivity. Qed.
Lemma own_micro k n ins errs : forall c, own_backward [] (mi_body (tmicro k n ins errs) c).
Proof. intros c. cbn. split; [left; reflexivity|exact Logic.I]. Qed.
Lemma whole_training : htraining ["fc"] targs t1 [[ta]; [tc]] ["a"; "b"; "c"] tdM.
Proof.
  split; [discriminate|]. split; [repeat constructor; intros []|]. split; [intros m [<-|[]]; left; reflexivity|]. split; [cbn; lia|].
  split; [repeat constructor; cbn; intuition discriminate|]. split; [repeat constructor; apply own_micro|]. split; [exists F32, tword, texact; split; [exact tcodec|exact tdM_storable]|].
  exists td1, tdlogs, tdx1, [2; 1]. split; [apply t_pair; vm_compute; reflexivity|]. split; [apply train_logs_ok; vm_compute; reflexivity|]. split; [vm_compute; reflexivity|]. repeat split; [discriminate|repeat constructor; discriminate].
Qed.
Lemma whole_testing : htesting targs t2 [[[tu; tv]; [tz]]] ["u"; "v"; "w"; "z"] tM.
Proof.
  split; [apply uniform_ok; vm_compute; reflexivity|]. split; [apply ok_b_ok; vm_compute; reflexivity|]. split; [repeat constructor; discriminate|].
  exists t3, tlogs, tx4, [1; 2; 1]. split; [apply t_pair; vm_compute; reflexivity|]. split; [apply train_logs_ok; vm_compute; reflexivity|]. split; [vm_compute; reflexivity|]. repeat split; [discriminate|repeat constructor; discriminate].
Qed.
Section Inverts.
  Context {F : Type} `{OField F} (is0 : F -> bool) (is0_spec : forall x, is0 x = true <-> x = f0).
  Add Field exwholefield : f_theory.
  Lemma small_inverts : inverts (small_inverse is0) 2.
  Proof.
    intros a (Sa & Sy) Wa PD. unfold small_inverse. rewrite Sa. set (a0 := mget a 0 0). set (b := mget a 0 1). set (e := mget a 1 0). set (d := mget a 1 1).
    assert (Eb : b = e) by (apply (Sy 0 1); lia).
    destruct (PD (fun i => match i with 1 => f1 | _ => f0 end)) as (_ & D1); [exists 1; split; [lia|exact (F_1_neq_0 f_theory)]|]. cbn [sum] in D1. fold a0 b e d in D1.
    assert (Dz : d <> f0) by (intros Z; apply D1; rewrite Z; ring).
    destruct (PD (fun i => match i with 0 => d | _ => fopp e end)) as (_ & D2); [exists 0; split; [lia|exact Dz]|]. cbn [sum] in D2. fold a0 b e d in D2.
    destruct (is0 _) eqn:Z; [|eexists; reflexivity]. exfalso. apply is0_spec in Z. apply D2. transitivity (fmul d (fsub (fmul a0 d) (fmul b e))); [rewrite <- Eb; ring|rewrite Z; ring].
  Qed.
End Inverts.
Lemma xinverts : inverts xinverse 2.
Proof. exact (small_inverts q0 q0_spec). Qed.
Lemma tM_plain n M l : M = [("fc", [("grad", (Cpu, zt [n; 1; 2] l))])] -> length l = n * 2 -> plain_log Cpu n M /\ matrices ["fc"] M.
Proof.
  intros -> L. split; [split; [repeat constructor; intros []|]; intros m [<-|[]]; exists (zt [n; 1; 2] l), 1, 2; split; [reflexivity|]; split; [reflexivity|]; unfold twf; cbn [zt Tensor.data shape prod fold_right]; rewrite map_length; cbn; lia|].
  intros m [<-|[]]. exists Cpu, (zt [n; 1; 2] l), n, 1, 2. split; reflexivity.
Qed.
Lemma tM_inverts n M l : M = [("fc", [("grad", (Cpu, zt [n; 1; 2] l))])] -> forall m x, grad_of M m = Some x -> inverts xinverse (prod (tl (shape (snd x)))).
Proof. intros -> m x. unfold grad_of, look. cbn [dget]. destruct (eqb_spec m "fc") as [->|]; [|discriminate]. intros [= <-]. exact xinverts. Qed.
Lemma tM_within n k M Q l q : M = [("fc", [("grad", (Cpu, zt [n; 1; 2] l))])] -> Q = [("fc", [("grad", (Cpu, zt [k; 1; 2] q))])] -> within Q M.
Proof. intros -> -> m x. unfold grad_of, look. cbn [dget]. destruct (eqb_spec m "fc") as [->|]; [|discriminate]. intros [= <-]. eexists. split; reflexivity. Qed.

(** with Kronecker factors; the inputs are along the eigenvectors our eigh knows *)
Definition tka := tmicro 0 2 [3; -4; 4; 3]%Z [1; 2]%Z.
Definition tkc := tmicro 1 1 [6; -8]%Z [1]%Z.
Definition tk1 := Eval vm_compute in fst (tnew "kfac").
Definition tkd := Eval vm_compute in fst (on_epoch_begin lrnd lsvd tk1).
Definition tklogs := Eval vm_compute in match train_logs targs [tka; tkc] (lm_x (tr_lm tkd)) with Some p => fst p | None => [] end.
Definition tkx := Eval vm_compute in match train_logs targs [tka; tkc] (lm_x (tr_lm tkd)) with Some p => snd p | None => lm_x (tr_lm tkd) end.
Definition tkM : @tlog Qc := [("fc", [("grad", (Cpu, zt [3; 1; 2] [6; -8; 16; 12; 12; -16]%Z))])].
Definition tk2 := Eval vm_compute in fst (textract targs [[[tka]; [tkc]]] tk1).
Definition tk3 := Eval vm_compute in fst (on_train_begin lrnd lsvd targs (tr_set_mode tk2 "influence")).
Definition tkQlogs := Eval vm_compute in match train_logs targs [tu; tv; tz] (lm_x (tr_lm tk3)) with Some p => fst p | None => [] end.
Definition tkx4 := Eval vm_compute in match train_logs targs [tu; tv; tz] (lm_x (tr_lm tk3)) with Some p => snd p | None => lm_x (tr_lm tk3) end.
Definition tkcalls := factor_calls tkind targs tk1 [[tka]; [tkc]].
Lemma tkM_storable : storable texact ["fc"] 3 tkM.
Proof.
  split; [apply uniform_ok; vm_compute; reflexivity|]. split; [apply ok_b_ok; vm_compute; reflexivity|]. intros m [<-|[]]. exists Cpu, (zt [3; 1; 2] [6; -8; 16; 12; 12; -16]%Z), 1, [2].
  split; [reflexivity|]. split; [reflexivity|]. split; [cbn; lia|]. cbn [zt Tensor.data]. rewrite Forall_map. repeat (constructor; [eexists; split; [|reflexivity]; lia|]). constructor.
Qed.
Lemma kwhole_new : hnew "kfac" ["fc"] targs tk1.
Proof. apply new_ok; vm_compute; reflexivity. Qed.
Lemma kwhole_training : htraining ["fc"] targs tk1 [[tka]; [tkc]] ["a"; "b"; "c"] tkM.
Proof.
  split; [discriminate|]. split; [repeat constructor; intros []|]. split; [intros m [<-|[]]; left; reflexivity|]. split; [cbn; lia|].
  split; [repeat constructor; cbn; intuition discriminate|]. split; [repeat constructor; apply own_micro|]. split; [exists F32, tword, texact; split; [exact tcodec|exact tkM_storable]|].
  exists tkd, tklogs, tkx, [2; 1]. split; [apply t_pair; vm_compute; reflexivity|]. split; [apply train_logs_ok; vm_compute; reflexivity|]. split; [vm_compute; reflexivity|]. repeat split; [discriminate|repeat constructor; discriminate].
Qed.
Lemma kwhole_testing : htesting targs tk2 [[[tu; tv]; [tz]]] ["u"; "v"; "w"; "z"] tM.
Proof.
  split; [apply uniform_ok; vm_compute; reflexivity|]. split; [apply ok_b_ok; vm_compute; reflexivity|]. split; [repeat constructor; discriminate|].
  exists tk3, tkQlogs, tkx4, [1; 2; 1]. split; [apply t_pair; vm_compute; reflexivity|]. split; [apply train_logs_ok; vm_compute; reflexivity|]. split; [vm_compute; reflexivity|]. repeat split; [discriminate|repeat constructor; discriminate].
Qed.
Definition tkC : @tlog Qc := Eval vm_compute in match dget "covariance_state" (attrs (x_state (lm_x (tr_lm tk2)))) with Some n => to_tlog n | None => [] end.
Lemma k_device : one_device (x_state (lm_x (tr_lm tk2))).
Proof.
  intros C (E & _) m cf cb. assert (X : dget "covariance_state" (attrs (x_state (lm_x (tr_lm tk2)))) = Some (log_nd tkC)) by (vm_compute; reflexivity). rewrite X in E. assert (log_nd tkC = log_nd C) as E2 by congruence. apply log_inj in E2. subst C.
  unfold look. cbn [tkC dget]. destruct (eqb_spec m "fc"); [|discriminate]. cbn. intros [= <-] [= <-]. reflexivity.
Qed.
(** two batches with statistics over gradients and inputs *)
Definition gx : @lx Qc := Eval vm_compute in run_ops tkind tsz xeigh tenc [XWatch [("fc", 1)]; XSetup [("grad", [AStr "log"; AClass PMean; AClass PCovariance]); ("forward", [AClass PMean])]] (@lx_init Qc 0 100 false).
Definition gb1 := Batch [DStr "a"; DStr "b"] None (mi_body ta 1).
Definition gb2 := Batch [DStr "c"] None (mi_body tc 1).
Definition gstep (b : @batch Qc) (x : @lx Qc) := with_block xeigh tenc (bt_ids b) (bt_mask b) false (run_evs tkind xeigh (bt_evs b)) x.
Definition gx1 := Eval vm_compute in fst (gstep gb1 gx).
Definition gx2 := Eval vm_compute in fst (gstep gb2 gx1).
Definition glog_of (x : @lx Qc) : nd (@dten Qc) := match lx_get_log true x with (_, Ok (GCopy _ l)) => l | _ => Node [] end.
Definition gL1 : @tlog Qc := [("fc", [("grad", (Cpu, zt [2; 1; 2] [1; 2; 6; 2]%Z))])].
Definition gL2 : @tlog Qc := [("fc", [("grad", (Cpu, zt [1; 1; 2] [-1; 2]%Z))])].
Lemma gstep_ok b (x x1 : @lx Qc) : let r := with_block xeigh tenc (bt_ids b) (bt_mask b) false (run_evs tkind xeigh (bt_evs b)) x in fst r = x1 -> snd r = Ok tt -> epoch tkind xeigh tenc [b] x x1.
Proof.
  intros r E1 E2. apply (e_with tkind xeigh tenc b [] false x x1 x1); [|constructor]. fold r. clearbody r. destruct r as [y [[]|]]; cbn in *; congruence.
Qed.
Lemma glogged : logged_epoch tkind xeigh tenc [gb1; gb2] [gL1; gL2] gx gx2.
Proof.
  assert (E1 : epoch tkind xeigh tenc [gb1] gx gx1) by (apply gstep_ok; vm_compute; reflexivity).
  assert (E2 : epoch tkind xeigh tenc [gb2] gx1 gx2) by (apply gstep_ok; vm_compute; reflexivity).
  assert (G1 : read_got gx1 (GView (x_ids gx1)) = (Some [DStr "a"; DStr "b"], glog_of gx1)) by (vm_compute; reflexivity).
  assert (G2 : read_got gx2 (GView (x_ids gx2)) = (Some [DStr "c"], glog_of gx2)) by (vm_compute; reflexivity).
  assert (L1 : leaf_map VT (glog_of gx1) = log_nd gL1) by (vm_compute; reflexivity). assert (L2 : leaf_map VT (glog_of gx2) = log_nd gL2) by (vm_compute; reflexivity).
  exact (le_batch _ _ _ _ _ _ _ _ _ _ _ _ E1 G1 L1 (le_batch _ _ _ _ _ _ _ _ _ _ _ _ E2 G2 L2 (le_done _ _ _ _))).
Qed.
Lemma good_ok L : L = gL1 \/ L = gL2 -> good_grads L.
Proof. intros [-> | ->] m [<-|[]]; do 2 eexists; (split; [reflexivity|split; [reflexivity|discriminate]]). Qed.
Lemma k_factored m : In m (dkeys tM) -> factored tkcalls tM m.
Proof.
  intros [<-|[]]. exists Cpu, (zt [4; 1; 2] [12; 12; 0; 2; -4; 4; 2; 0]%Z), 4, 1, 2. split; [reflexivity|]. split; [reflexivity|].
  intros t k [[= <- <-]|[[= <- <-]|[]]]; cbv zeta; (split; [vm_compute; discriminate|]; split; [vm_compute; reflexivity|]; split; [vm_compute; discriminate|vm_compute; discriminate]).
Qed.
(** the calls are few *)
Lemma k_calls m t : calls_for SCov m t tkcalls <> [] -> m = "fc" /\ (t = "forward" \/ t = "backward").
Proof.
  assert (X : Forall (fun c => k_m c = "fc" /\ (k_t c = "forward" \/ k_t c = "backward")) tkcalls) by (vm_compute; repeat constructor; auto).
  intros N. destruct (calls_for SCov m t tkcalls) as [|c r] eqn:E; [congruence|]. assert (J : In c (calls_for SCov m t tkcalls)) by (rewrite E; left; reflexivity). unfold calls_for in J. apply filter_In in J as (J1 & J2).
  rewrite Forall_forall in X. destruct (X c J1) as (X1 & X2). apply andb_true_iff in J2 as (_ & J2). apply andb_true_iff in J2 as (J2 & J3). apply String.eqb_eq in J2, J3. split; [congruence|]. destruct X2; [left|right]; congruence.
Qed.
Lemma k_decomposes : decomposes xeigh tkcalls.
Proof. intros m t N. destruct (k_calls m t N) as (-> & [-> | ->]); (destruct (xeigh _) as [wv|e] eqn:E; [exists wv; reflexivity|vm_compute in E; discriminate E]). Qed.
Lemma greach : reachable tkind tsz xeigh tenc gx.
Proof.
  assert (E : gx = run_ops tkind tsz xeigh tenc [XWatch [("fc", 1)]; XSetup [("grad", [AStr "log"; AClass PMean; AClass PCovariance]); ("forward", [AClass PMean])]] (@lx_init Qc 0 100 false)) by (vm_compute; reflexivity).
  rewrite E. do 4 eexists. reflexivity.
Qed.
