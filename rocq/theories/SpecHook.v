(** Specification vocabulary for what the hooks accept (C27, C89). *)
From Coq Require Import ZArith.
From Verif Require Import Py Field Tensor ModelGrad Monad ModelState ModelMmap ModelSaver ModelLogger SpecGrad SpecState SpecLogger.
Local Open Scope nat_scope.

Section Spec.
  Context {F : Type} `{OField F}.
  (** the result of multiplying tensors of one rank: sizes 1 are expanded, other differences and different devices are errors *)
  Definition multiplied (a m : @dten F) (r : res (option dten)) : Prop :=
    match r with
    | Ok (Some c) => fst a = fst m /\ ~ incompatible (shape (snd a)) (shape (snd m)) /\ fst c = fst a /\
        broadcast (shape (snd a)) (shape (snd m)) (shape (snd c)) /\
        forall idx, valid (shape (snd c)) idx ->
          tget (snd c) idx = fmul (tget (snd a) (entry_at (shape (snd a)) idx)) (tget (snd m) (entry_at (shape (snd m)) idx))
    | Ok None => False
    | Err e => e = RuntimeError /\ (fst a <> fst m \/ incompatible (shape (snd a)) (shape (snd m)))
    end.
  (** the mask with a further dimension of size 1 *)
  Definition per_position (m : @dten F) : dten := (fst m, T (shape (snd m) ++ [1]) (data (snd m))).
  (** the tensor logged under a name and a log type, with its device *)
  Definition entry (x : @lx F) (n t : string) : option dten :=
    match dget n (x_log x) with
    | Some l => match dget t l with Some r => Some (u_d (deref (x_heap x) r)) | None => None end
    | None => None
    end.
End Spec.
