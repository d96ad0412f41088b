(** Gradients that do not fit the second-order state, and the exceptions they lead to. *)
From Verif Require Import Py PyStr Field Tensor ModelGrad Monad ModelState ModelInfluence SpecGrad SpecState SpecInfluence.
Local Open Scope string_scope.
Local Open Scope list_scope.
Local Open Scope nat_scope.

Section Spec.
  Context {F : Type} `{OField F}.
  Notation tlog := (@tlog F).
  Notation dten := (@dten F).
  (** what mode "l2" or "cosine" does with an inner product and the squared norm of the target *)
  Definition adj_fun (fsqrt : F -> F) (mode : string) : F -> F -> F :=
    if String.eqb mode "l2" then (fun v n => fsub v (fmul half n)) else (fun v n => fdiv v (fsqrt n)).
  Definition unfit (sh : list nat) (a b : nat) : Prop :=
    match sh with
    | [_; x; y] => (x <> a /\ x <> 1 /\ a <> 1) \/ (y <> b /\ y <> 1 /\ b <> 1)
    | _ => True
    end.
  (** KFAC: no gradients; no covariance of inputs or outputs; covariances on two devices; gradients that are not matrices, or
      matrices of another size than the covariances (a size of one is left out, torch.einsum broadcasts it). *)
  Inductive kfac_fault (C L : tlog) (m : string) : exn -> Prop :=
  | kf_grad : grad_of L m = None -> kfac_fault C L m AttributeError
  | kf_cov : look C m "forward" = None \/ look C m "backward" = None -> kfac_fault C L m AttributeError
  | kf_dev g cf cb a b : grad_of L m = Some g -> look C m "forward" = Some cf -> look C m "backward" = Some cb -> symmetric b (snd cf) -> symmetric a (snd cb) ->
      fst cf <> fst cb -> kfac_fault C L m RuntimeError
  | kf_shape g cf cb a b : grad_of L m = Some g -> look C m "forward" = Some cf -> look C m "backward" = Some cb -> symmetric b (snd cf) -> symmetric a (snd cb) ->
      unfit (shape (snd g)) a b -> kfac_fault C L m RuntimeError.
  (** Corrected eigenvalues: no gradients, no eigenvectors, no corrected eigenvalues for the module. *)
  Inductive ekfac_fault (EC : tlog) (E : dict string dten) (L : tlog) (m : string) : exn -> Prop :=
  | ef_grad : grad_of L m = None -> ekfac_fault EC E L m AttributeError
  | ef_vec : look EC m "forward" = None \/ look EC m "backward" = None -> ekfac_fault EC E L m AttributeError
  | ef_val g vf vb : grad_of L m = Some g -> look EC m "forward" = Some vf -> look EC m "backward" = Some vb -> dget m E = None -> ekfac_fault EC E L m AssertionError.
  (** The raw preconditioner: no gradients, no covariance of gradients, another number of entries. *)
  Inductive raw_fault (C L : tlog) (m : string) : exn -> Prop :=
  | rf_grad : grad_of L m = None -> raw_fault C L m AttributeError
  | rf_cov : look C m "grad" = None -> raw_fault C L m AttributeError
  | rf_size g n rest c k : grad_of L m = Some g -> shape (snd g) = n :: rest -> look C m "grad" = Some c -> shape (snd c) = [k; k] -> k <> prod rest -> raw_fault C L m RuntimeError.
  (** the part of the log for the modules in [ms] *)
  Definition only (ms : list string) (L : tlog) : tlog := filter (fun p => mem (fst p) ms) L.
End Spec.
