(** Specification vocabulary for watch(). *)
From Verif Require Import Py PyStr Field Tensor ModelGrad Monad ModelState ModelMmap ModelSaver ModelLogger ModelModules ModelLora SpecLora.
Local Open Scope nat_scope.

(** some module is named like a bottleneck *)
Definition has_bottleneck (root : mtree) : Prop := exists j, In j (named_modules root) /\ substring "logix_lora_B" (i_name j).
(** the layers to be tracked: those that pass the filters, in a model with bottlenecks only these *)
Definition to_track (tf : option (list fclass)) (nf : option (list string)) (root : mtree) (i : item) : Prop :=
  selected tf nf root i /\ (has_bottleneck root -> substring "logix_lora_B" (i_name i)).
(** [u] is found strictly below [t] *)
Definition inside (u t : mtree) : Prop := exists key c, In (key, c) (t_kids t) /\ below u c.
