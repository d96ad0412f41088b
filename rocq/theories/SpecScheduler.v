(** Specification vocabulary for the scheduler. *)
From Coq Require Import ZArith.
From Verif Require Import Py PyStr Field Tensor ModelGrad Monad ModelState ModelMmap ModelSaver ModelLogger ModelModules ModelLora ModelScheduler SpecGrad SpecState SpecLogger.
Local Open Scope string_scope.
Local Open Scope list_scope.
Local Open Scope nat_scope.

(** the configurations that are accepted *)
Definition good (lora hessian save : string) : Prop :=
  In lora ["none"; "random"; "pca"] /\ In hessian ["none"; "raw"; "kfac"; "ekfac"] /\ In save ["none"; "forward"; "backward"; "grad"].
(** one epoch, one more for PCA, one more for corrected eigenvalues *)
Definition epochs (lora hessian : string) : nat :=
  (if String.eqb lora "pca" then 1 else 0) + (if String.eqb hessian "ekfac" then 1 else 0) + 1.
(** LoRA is added at the beginning of epoch [k] *)
Definition adds_lora (lora : string) (k : nat) : Prop := (lora = "random" /\ k = 0) \/ (lora = "pca" /\ k = 1).
(** plugin [p] of phase [ph] is wanted in epoch [k] *)
Definition wanted (lora hessian save : string) (k : nat) (ph : string) (p : plugin) : Prop :=
  let last := S k = epochs lora hessian in
  match p with
  | PCovariance =>
      ((ph = "forward" \/ ph = "backward") /\ (~ last \/ hessian = "kfac")) \/ (ph = "grad" /\ last /\ hessian = "raw")
  | PLog => last /\ (save = ph \/ (ph = "grad" /\ (hessian = "raw" \/ hessian = "ekfac")))
  | PCorrectedEigval => last /\ ph = "grad" /\ hessian = "ekfac"
  | _ => False
  end.
Definition phase (o : opts) (ph : string) : list plugin :=
  if String.eqb ph "forward" then o_forward o else if String.eqb ph "backward" then o_backward o else o_grad o.
(** the options of epoch [k] *)
Definition planned (lora hessian save : string) (k : nat) (o : opts) : Prop :=
  forall ph, In ph ["forward"; "backward"; "grad"] -> in_order (phase o ph) /\ forall p, In p (phase o ph) <-> wanted lora hessian save k ph p.

Section Spec.
  Context {F : Type} `{OField F}.
  Context (rnd : mid -> list nat -> F) (svd : tensor F -> res (tensor F)).
  Notation lm := (@lm F).
  (** [k] epochs have been begun, on whatever objects; the last ones may have failed *)
  Inductive begun (lora hessian save : string) : nat -> sched -> Prop :=
  | begun_new c : new_sched lora hessian save = Ok c -> begun lora hessian save 0 c
  | begun_next k c (s : lm) c' (s' : lm) r : begun lora hessian save k c -> k < epochs lora hessian ->
      sched_next rnd svd (c, s) = ((c', s'), r) -> begun lora hessian save (S k) c'.
End Spec.
