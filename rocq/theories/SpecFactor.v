(** Vocabulary for gradients of modules that lack a factor. *)
From Verif Require Import Py Field Tensor ModelGrad Monad ModelState SpecState.
Local Open Scope string_scope.
Local Open Scope nat_scope.

Section Spec.
  Context {F : Type} `{OField F}.
  (** the batch holds the gradient [d] of [m] *)
  Definition grad_in (b : @binfo F) (m : string) (d : @dten F) : Prop := exists L G, b_log b = Node L /\ dget m L = Some (Node G) /\ dget "grad" G = Some (Leaf (VT d)).
  (** the gradient [d] of [n] samples with [j] columns can be multiplied by the eigenvectors of the factor [t] *)
  Definition usable (eigh : tensor F -> res (tensor F * tensor F)) (off : bool) (t d : @dten F) (n j : nat) : Prop :=
    off = false -> 0 < n /\ fst t = fst d /\ forall v w, eigh (snd t) = Ok (v, w) -> exists k, shape w = [j; k].
End Spec.
