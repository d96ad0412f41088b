(** Vocabulary for influence runs in a later process. *)
From Verif Require Import Py PyStr Field Tensor ModelGrad Monad ModelState ModelMmap ModelLogger ModelModules ModelLora ModelScheduler ModelUtils ModelTrainer SpecGrad SpecState SpecLogger SpecInfluence SpecTrainer SpecWhole.
Local Open Scope string_scope.
Local Open Scope list_scope.
Local Open Scope nat_scope.

(** [r]: a trainer created in the directory that [p] left, without LoRA. It finds the same configuration file, statistics and
    records, and has not collected anything yet. *)
Definition reopened {F} `{OField F} (p r : @tr F) : Prop :=
  lm_conf (tr_lm r) = lm_conf (tr_lm p) /\ lm_file (tr_lm r) = None /\ no_results r /\
  let x := lm_x (tr_lm p) in let y := lm_x (tr_lm r) in x_disk y = x_disk x /\ x_dir y = x_dir x /\ pristine (x_state y).
(** [s]: a new LogIX object in the directory that [p] left (logix.py:60-99), without LoRA. *)
Definition new_object_in {F} `{OField F} (p : @tr F) (s : @lm F) : Prop :=
  lm_conf s = lm_conf (tr_lm p) /\ lm_file s = None /\
  exists w t off, lm_x s = let x := lx_init w t off in with_store x (x_saver x) (x_dir (lm_x (tr_lm p))) (x_disk (lm_x (tr_lm p))).
