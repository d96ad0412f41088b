(** Vocabulary for whole runs with corrected eigenvalues: an epoch for the factors, then an epoch for the gradients. *)
From Verif Require Import Py PyStr Field Tensor ModelGrad Monad ModelState ModelMmap ModelLogger ModelModules ModelLora ModelScheduler ModelUtils ModelTrainer SpecGrad SpecState SpecLogger SpecInfluence SpecTrainer SpecWhole.
Local Open Scope string_scope.
Local Open Scope list_scope.
Local Open Scope nat_scope.

Section Spec.
  Context {F : Type} `{OField F}.
  (** the mean over the samples of [t] of the squared coefficients in the basis of the columns of [u] and [v] *)
  Definition mean_squares (u v t : tensor F) : tensor F :=
    mgen (nth 1 (shape u) 0) (nth 1 (shape v) 0)
      (fun a c => fdiv (lsum (map (fun g => fmul (project u v a c g) (project u v a c g)) (samples t))) (fnat (length (samples t)))).
  (** a factor divided by its count once more *)
  Definition divided_again (cs : list (@call F)) (m t : string) : tensor F :=
    tmap (fun e => fdiv e (all_count (calls_for SCov m t cs))) (factor cs m t).
  Section Run.
    Context (rnd : mid -> list nat -> F) (svd : tensor F -> res (tensor F)) (kind : mid -> mkind) (eigh : tensor F -> res (tensor F * tensor F)).
    Context (enc : @dten F -> array) (show : did -> string) (tok : option (data -> res (list string))) (hash : string -> string).
    (** The training steps of the first epoch succeed; saving is off until the last epoch. *)
    Definition first_epoch (a : @hfargs F) (p : @tr F) (steps : list (list (@micro F))) : Prop :=
      x_save (lm_x (tr_lm p)) = false /\ Forall (fun m => forall k, own_backward [] (mi_body m k)) (concat steps) /\
      exists p1 ls x1, on_epoch_begin rnd svd (tr_set_mode p "log") = (p1, Ok tt) /\ trained kind eigh enc show tok hash a (lm_x (tr_lm p1)) (concat steps) ls x1.
  End Run.
End Spec.
