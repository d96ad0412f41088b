(** A whole run with corrected eigenvalues of the Lightning trainer of ExLightning.v: two epochs, then the influence run. *)
From Coq Require Import ZArith QArith Qcanon Lia.
From Verif Require Import Py PyStr Field Tensor ModelGrad Monad ModelState ModelMmap ModelSaver ModelLoader ModelLogger ModelModules ModelLora ModelScheduler ModelInfluence ModelUtils ModelTrainer ModelLightning SpecGrad SpecState SpecStore SpecLogger SpecInfluence SpecRows SpecTrainer SpecLightning SpecDisk SpecWhole SpecLightWhole SpecDrift SpecEkfac SpecLightEkfac ExNum ExState ExInfluence ExLogger ExLora ExRows ExTrainer ExDisk ExLightning ExWhole ExLightWhole.
Local Open Scope string_scope.
Local Open Scope list_scope.
Local Open Scope nat_scope.

Notation lepoch := (pl_do_epoch lrnd lsvd tkind xeigh xinverse xsqrt tenc tdec tshow_id lext None lbody).
Notation lfirst := (light_first lrnd lsvd tkind xeigh tenc tshow_id lext None lbody).
Notation lsizes := (light_sizes tkind xeigh tenc tshow_id lext None lbody).
Definition lq1 := Eval vm_compute in lnew "ekfac".
Definition lq2 := Eval vm_compute in fst (lepoch largs [tka; tkc] (log_fit lq1)).
Definition lq3 := Eval vm_compute in fst (lextract largs [[tka; tkc]; [tka; tkc]; [tu]] lq1).
Definition lqcalls := light_calls tkind None lbody lq1 [tka; tkc].
Lemma lq_calls : lqcalls = tkcalls.
Proof. vm_compute. reflexivity. Qed.
Lemma lfirst_ok (q : @pl Qc nat) bs : x_save (lm_x (tr_lm (pl_t q))) = false -> Forall (fun b => own_backward [] (lbody b)) bs ->
  snd (pl_epoch_start lrnd lsvd (log_fit q)) = Ok tt -> (match light_logs bs (lm_x (tr_lm (pl_t (ltr q)))) (pl_ext (ltr q)) with Some _ => true | None => false end) = true -> lfirst q bs.
Proof.
  intros S O E1 E2. split; [exact S|]. split; [exact O|]. destruct (light_logs bs _ _) as [[[ls x1] e1]|] eqn:EL; [|discriminate E2].
  exists (ltr q), ls, x1, e1. split; [unfold ltr; change (PL (tr_set_mode (pl_t q) "log") (pl_ext q) (pl_epoch q) false) with (log_fit q); destruct (pl_epoch_start _ _ _) as [y o]; cbn [snd fst] in *; rewrite E1; reflexivity|]. apply light_logs_ok; exact EL.
Qed.
Lemma lsizes_ok (q : @pl Qc nat) bs ks qids Q : (let y := (lx_setup [("grad", [AStr "log"])] ;; lx_eval) (lm_x (tr_lm (pl_t q))) in snd y = Ok tt /\
    option_map (fun z => map as_nest (fst (fst z))) (light_logs bs (fst y) (pl_ext q)) = Some (batches 0 ks qids Q)) -> lsizes q bs qids Q ks.
Proof.
  cbv zeta. destruct ((lx_setup _ ;; lx_eval) _) as [x0 o] eqn:E0. cbn [fst snd]. intros (-> & E2). destruct (light_logs bs _ _) as [[[ls x1] e1]|] eqn:EL; [|discriminate E2]. cbn [option_map fst] in E2. injection E2 as E2.
  exists x0, ls, x1, e1. split; [exact E0|]. split; [apply light_logs_ok; exact EL|exact E2].
Qed.
(** the same trainer after an epoch of its own *)
Definition lqs := Eval vm_compute in PL (pl_t lq1) (pl_ext lq1) 1 (pl_stop lq1).
Definition lqs2 := Eval vm_compute in fst (lextract largs [[tka; tkc]; [tka; tkc]] lqs).
