(** A whole run with corrected eigenvalues of the trainer of ExTrainer.v: two epochs, then the influence run. *)
From Coq Require Import ZArith QArith Qcanon Lia.
From Verif Require Import Py PyStr Field Tensor ModelGrad Monad ModelState ModelMmap ModelSaver ModelLoader ModelLogger ModelModules ModelLora ModelScheduler ModelInfluence ModelUtils ModelTrainer SpecGrad SpecState SpecStore SpecLogger SpecInfluence SpecRows SpecTrainer SpecDisk SpecWhole SpecDrift SpecEkfac ExNum ExState ExInfluence ExLogger ExLora ExRows ExTrainer ExDisk ExWhole ExDrift.
Local Open Scope string_scope.
Local Open Scope list_scope.
Local Open Scope nat_scope.

Notation tepoch := (do_epoch lrnd lsvd tkind xeigh xinverse xsqrt tenc tdec tshow_id (Some ttok) (fun s => s)).
Notation hfirst := (first_epoch lrnd lsvd tkind xeigh tenc tshow_id (Some ttok) (fun s => s)).
(** the first epoch *)
Definition tf1 := Eval vm_compute in fst (on_epoch_begin lrnd lsvd (tr_set_mode te1 "log")).
Definition tflogs := Eval vm_compute in match train_logs targs [tka; tkc] (lm_x (tr_lm tf1)) with Some p => fst p | None => [] end.
Definition tfx := Eval vm_compute in match train_logs targs [tka; tkc] (lm_x (tr_lm tf1)) with Some p => snd p | None => lm_x (tr_lm tf1) end.
Definition tf2 := Eval vm_compute in fst (tepoch targs [[tka]; [tkc]] (tr_set_mode te1 "log")).
Definition tfcalls := factor_calls tkind targs te1 [[tka]; [tkc]].
Lemma ek_new : hnew "ekfac" ["fc"] targs te1.
Proof. apply new_ok; vm_compute; reflexivity. Qed.
Lemma ek_first : hfirst targs te1 [[tka]; [tkc]].
Proof.
  split; [vm_compute; reflexivity|]. split; [repeat constructor; apply own_micro|]. exists tf1, tflogs, tfx. split; [apply t_pair; vm_compute; reflexivity|]. apply train_logs_ok; vm_compute; reflexivity.
Qed.
Lemma ek_epoch : tepoch targs [[tka]; [tkc]] (tr_set_mode te1 "log") = (tf2, Ok tt).
Proof. apply t_pair; vm_compute; reflexivity. Qed.
(** the second epoch *)
Definition tg1 := Eval vm_compute in fst (on_epoch_begin lrnd lsvd (tr_set_mode tf2 "log")).
Definition tglogs := Eval vm_compute in match train_logs targs [tka; tkc] (lm_x (tr_lm tg1)) with Some p => fst p | None => [] end.
Definition tgx := Eval vm_compute in match train_logs targs [tka; tkc] (lm_x (tr_lm tg1)) with Some p => snd p | None => lm_x (tr_lm tg1) end.
Lemma ek_training : htraining ["fc"] targs tf2 [[tka]; [tkc]] ["a"; "b"; "c"] tkM.
Proof.
  split; [discriminate|]. split; [repeat constructor; intros []|]. split; [intros m [<-|[]]; left; reflexivity|]. split; [cbn; lia|].
  split; [repeat constructor; cbn; intuition discriminate|]. split; [repeat constructor; apply own_micro|]. split; [exists F32, tword, texact; split; [exact tcodec|exact tkM_storable]|].
  exists tg1, tglogs, tgx, [2; 1]. split; [apply t_pair; vm_compute; reflexivity|]. split; [apply train_logs_ok; vm_compute; reflexivity|]. split; [vm_compute; reflexivity|]. repeat split; [discriminate|repeat constructor; discriminate].
Qed.
Lemma ek_factored m : In m (dkeys tM) -> factored tfcalls tM m.
Proof. assert (E : tfcalls = tkcalls) by (vm_compute; reflexivity). rewrite E. apply k_factored. Qed.
