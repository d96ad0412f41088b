(** Specification vocabulary for merged logs. *)
From Verif Require Import Py PyStr Field Tensor ModelGrad Monad ModelState ModelInfluence SpecGrad SpecState SpecInfluence.
Local Open Scope nat_scope.

Section Spec.
  Context {F : Type} `{OField F}.
  Notation tensor := (tensor F).
  Notation dten := (@dten F).
  Notation tlog := (@tlog F).

  (** what the logs hold for one (module, type), in order; logs without it contribute nothing *)
  Definition pieces (m t : string) (logs : list (list string * tlog)) : list dten :=
    flat_map (fun p => match look (snd p) m t with Some x => [x] | None => [] end) logs.
  (** tensors that can be concatenated along the first axis *)
  Definition fit (ps : list dten) : Prop :=
    match ps with
    | [] | [_] => True
    | p :: _ => exists rest, forall q, In q ps -> fst q = fst p /\ exists n, shape (snd q) = n :: rest
    end.
  Definition joined (ps : list dten) : option dten :=
    match ps with [] => None | [p] => Some p | p :: _ => Some (fst p, stack (map snd ps)) end.
  (** the arguments of [merge_logs] *)
  Definition as_logs (logs : list (list string * tlog)) := map (fun p => (fst p, log_nd (snd p))) logs.
  Definition size (p : dten) : nat := hd 0 (shape (snd p)).
End Spec.
