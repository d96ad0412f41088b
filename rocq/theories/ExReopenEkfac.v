(** Scoring in a second process after a logging run with corrected eigenvalues (ExEkfac.v). *)
From Coq Require Import ZArith QArith Qcanon Lia.
From Verif Require Import Py PyStr Field Tensor ModelGrad Monad ModelState ModelMmap ModelSaver ModelLoader ModelLogger ModelModules ModelLora ModelScheduler ModelInfluence ModelUtils ModelTrainer SpecGrad SpecState SpecStore SpecLogger SpecInfluence SpecRows SpecTrainer SpecDisk SpecWhole SpecReopen ExNum ExState ExInfluence ExLogger ExLora ExRows ExTrainer ExDisk ExWhole ExDrift ExReopen.
Local Open Scope string_scope.
Local Open Scope list_scope.
Local Open Scope nat_scope.

Definition roe1 := Eval vm_compute in fst (ro_tr "ekfac" te2).
Definition roe3 := Eval vm_compute in fst (on_train_begin lrnd lsvd ro_args (tr_set_mode roe1 "influence")).
Definition roelogs := Eval vm_compute in match train_logs ro_args [tu; tv; tz] (lm_x (tr_lm roe3)) with Some p => fst p | None => [] end.
Definition roex4 := Eval vm_compute in match train_logs ro_args [tu; tv; tz] (lm_x (tr_lm roe3)) with Some p => snd p | None => lm_x (tr_lm roe3) end.
Lemma roe_reopened : reopened te2 roe1.
Proof. split; [vm_compute; reflexivity|]. split; [vm_compute; reflexivity|]. split; [repeat split; vm_compute; reflexivity|]. cbv zeta. split; [vm_compute; reflexivity|]. split; [vm_compute; reflexivity|]. apply pristine_b; vm_compute; reflexivity. Qed.
