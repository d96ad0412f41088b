(** Whole runs of the Lightning trainer of ExLightning.v, on the samples of ExWhole.v. *)
From Coq Require Import ZArith QArith Qcanon Lia.
From Verif Require Import Py PyStr Field Tensor ModelGrad Monad ModelState ModelMmap ModelSaver ModelLoader ModelLogger ModelModules ModelLora ModelScheduler ModelInfluence ModelUtils ModelTrainer ModelLightning SpecGrad SpecState SpecStore SpecLogger SpecInfluence SpecRows SpecTrainer SpecLightning SpecDisk SpecWhole SpecLightWhole InfProofs3 ExNum ExState ExInfluence ExLogger ExLora ExRows ExTrainer ExDisk ExLightning ExWhole.
Local Open Scope string_scope.
Local Open Scope list_scope.
Local Open Scope nat_scope.

Notation lnewrun := (new_light tkind tsz xeigh tenc).
Notation ltraining := (light_training lrnd lsvd tkind xeigh tenc tdec tshow_id lext None lbody).
Notation ltesting := (light_testing tkind xeigh tenc tshow_id lext None lbody).
Lemma lnew_ok h (q : @pl Qc nat) : new_sched "none" h "grad" = Ok (tr_sched (pl_t q)) ->
  lm_x (tr_lm (pl_t q)) = run_ops tkind tsz xeigh tenc [XWatch [("fc", 1)]] (@lx_init Qc 0 100 false) -> lnewrun h ["fc"] q.
Proof.
  intros E X. split; [exact E|]. cbv zeta. rewrite X. split; [do 4 eexists; reflexivity|].
  split; [apply pristine_b; vm_compute; reflexivity|]. split; [apply fresh_b; vm_compute; reflexivity|]. do 3 eexists. split; [vm_compute; reflexivity|lia].
Qed.
Lemma lext_json b e e' ids : lext b e = (e', Ok ids) -> Forall json_id ids.
Proof.
  unfold lext. destruct (ttok (mi_input b)) as [l|]; [|discriminate]. cbn [bind]. intros [= _ <-]. apply Forall_forall. intros d I0. apply in_map_iff in I0 as (s & <- & _). exact Logic.I.
Qed.
Definition ltr (q : @pl Qc nat) : @pl Qc nat := fst (pl_epoch_start lrnd lsvd (PL (tr_set_mode (pl_t q) "log") (pl_ext q) (pl_epoch q) false)).
(** Two batches of two samples and one. *)
Lemma ltraining_ok (q : @pl Qc nat) bs M l : Forall (fun b => own_backward [] (lbody b)) bs -> M = [("fc", [("grad", (Cpu, zt [3; 1; 2] l))])] -> storable texact ["fc"] 3 M ->
  snd (pl_epoch_start lrnd lsvd (PL (tr_set_mode (pl_t q) "log") (pl_ext q) (pl_epoch q) false)) = Ok tt ->
  (let r := light_logs bs (lm_x (tr_lm (pl_t (ltr q)))) (pl_ext (ltr q)) in option_map (fun z => map as_nest (fst (fst z))) r = Some (batches 0 [2; 1] ["a"; "b"; "c"] M)) ->
  ltraining ["fc"] largs q bs ["a"; "b"; "c"] M.
Proof.
  intros O -> ST E1 E2. split; [discriminate|]. split; [repeat constructor; intros []|]. split; [intros m [<-|[]]; left; reflexivity|]. split; [cbn; lia|].
  split; [repeat constructor; cbn; intuition discriminate|]. split; [exact O|]. split; [intros b e e' ids _; apply lext_json|]. split; [exists F32, tword, texact; split; [exact tcodec|exact ST]|].
  cbv zeta in E2. destruct (light_logs bs _ _) as [[[ls x1] e1]|] eqn:EL; [|discriminate E2]. cbn [option_map fst] in E2. injection E2 as E2.
  exists (ltr q), ls, x1, e1, [2; 1]. split; [unfold ltr; destruct (pl_epoch_start _ _ _) as [y o]; cbn [snd fst] in *; rewrite E1; reflexivity|]. split; [apply light_logs_ok; exact EL|]. split; [exact E2|]. repeat split; [discriminate|repeat constructor; discriminate].
Qed.
Lemma ltesting_ok (q : @pl Qc nat) bs : (let y := (lx_setup [("grad", [AStr "log"])] ;; lx_eval) (lm_x (tr_lm (pl_t q))) in snd y = Ok tt /\
    option_map (fun z => map as_nest (fst (fst z))) (light_logs bs (fst y) (pl_ext q)) = Some (batches 0 [1; 2; 1] ["u"; "v"; "w"; "z"] tM)) -> ltesting q bs ["u"; "v"; "w"; "z"] tM.
Proof.
  cbv zeta. destruct ((lx_setup _ ;; lx_eval) _) as [x0 o] eqn:E0. cbn [fst snd]. intros (-> & E2). destruct (light_logs bs _ _) as [[[ls x1] e1]|] eqn:EL; [|discriminate E2]. cbn [option_map fst] in E2. injection E2 as E2.
  split; [apply uniform_ok; vm_compute; reflexivity|]. exists x0, ls, x1, e1, [1; 2; 1]. split; [exact E0|]. split; [apply light_logs_ok; exact EL|]. split; [exact E2|]. repeat split; [discriminate|repeat constructor; discriminate].
Qed.
(** with Kronecker factors *)
Definition lk1 := Eval vm_compute in lnew "kfac".
Definition lk2 := Eval vm_compute in fst (lextract largs [[tka; tkc]; [tu]] lk1).
Definition lkcalls := light_calls tkind None lbody lk1 [tka; tkc].
Lemma lk_calls : lkcalls = tkcalls.
Proof. vm_compute. reflexivity. Qed.
Lemma lk_device : one_device (x_state (lm_x (tr_lm (pl_t lk2)))).
Proof.
  intros C (E & _) m cf cb. assert (X : dget "covariance_state" (attrs (x_state (lm_x (tr_lm (pl_t lk2))))) = Some (log_nd tkC)) by (vm_compute; reflexivity). rewrite X in E. assert (log_nd tkC = log_nd C) as E2 by congruence. apply log_inj in E2. subst C.
  unfold look. cbn [tkC dget]. destruct (eqb_spec m "fc"); [|discriminate]. cbn. intros [= <-] [= <-]. reflexivity.
Qed.
