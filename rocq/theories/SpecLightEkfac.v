(** Vocabulary for whole Lightning runs with corrected eigenvalues. *)
From Verif Require Import Py PyStr Field Tensor ModelGrad Monad ModelState ModelMmap ModelLogger ModelModules ModelLora ModelScheduler ModelUtils ModelTrainer ModelLightning SpecGrad SpecState SpecLogger SpecInfluence SpecTrainer SpecLightning SpecWhole.
Local Open Scope string_scope.
Local Open Scope list_scope.
Local Open Scope nat_scope.

Section Run.
  Context {F : Type} `{OField F}.
  Context (rnd : mid -> list nat -> F) (svd : tensor F -> res (tensor F)) (kind : mid -> mkind) (eigh : tensor F -> res (tensor F * tensor F)).
  Context (enc : @dten F -> array) (show : did -> string) {B X : Type} (extract : B -> SM X (list did)) (mask : option (B -> res (option (@dten F)))) (body : B -> list (@ev F)).
  (** the trainer when fit begins in a logging run *)
  Definition log_fit (q : @pl F X) : @pl F X := PL (tr_set_mode (pl_t q) "log") (pl_ext q) (pl_epoch q) false.
  (** The batches of the first epoch can be trained; saving is off until the last epoch. *)
  Definition light_first (q : @pl F X) (bs : list B) : Prop :=
    x_save (lm_x (tr_lm (pl_t q))) = false /\ Forall (fun b => own_backward [] (body b)) bs /\
    exists q1 ls x1 e1, pl_epoch_start rnd svd (log_fit q) = (q1, Ok tt) /\ logged kind eigh enc show extract mask body (lm_x (tr_lm (pl_t q1))) (pl_ext q1) bs ls x1 e1.
  (** The batches of an influence run have the sizes [ks]. *)
  Definition light_sizes (q : @pl F X) (bs : list B) (qids : list string) (Q : @tlog F) (ks : list nat) : Prop :=
    exists x0 ls x1 e1, (lx_setup [("grad", [AStr "log"])] ;; lx_eval) (lm_x (tr_lm (pl_t q))) = (x0, Ok tt) /\
      logged kind eigh enc show extract mask body x0 (pl_ext q) bs ls x1 e1 /\ map as_nest ls = batches 0 ks qids Q.
End Run.
