(** Self-influence runs of the trainers of ExTrainer and ExLightning. *)
From Coq Require Import ZArith QArith Qcanon.
From Verif Require Import Py PyStr Field Tensor ModelGrad Monad ModelState ModelMmap ModelSaver ModelLoader ModelLogger ModelModules ModelLora ModelScheduler ModelInfluence ModelUtils ModelTrainer ModelLightning SpecGrad SpecState SpecInfluence SpecRows SpecTrainer SpecLightning ExNum ExState ExInfluence ExLogger ExLora ExRows ExTrainer ExLightning.
Local Open Scope string_scope.
Local Open Scope list_scope.
Local Open Scope nat_scope.

Definition ts3 := Eval vm_compute in fst (on_train_begin lrnd lsvd targs (tr_set_mode t2 "self_influence")).
Definition tslogs := Eval vm_compute in match train_logs targs [tu; tv] (lm_x (tr_lm ts3)) with Some p => fst p | None => [] end.
Definition tsx := Eval vm_compute in match train_logs targs [tu; tv] (lm_x (tr_lm ts3)) with Some p => snd p | None => lm_x (tr_lm ts3) end.
Lemma ts_trained : ttrained targs (lm_x (tr_lm ts3)) [tu; tv] tslogs tsx.
Proof. apply train_logs_ok. vm_compute. reflexivity. Qed.
(** a group without modules *)
Definition tgroup : @hfargs Qc := HA false false [] [FLinear] 2 xd "dot" (Some ["x"]) "detokenize" (-100).
Definition has_inverse (x : @lx Qc) : bool := hasattr "covariance_inverse_state" (x_state x) || hasattr "covariance_eigvec_state" (x_state x).
