(** Specification vocabulary for data ids. *)
From Verif Require Import Py PyStr Monad ModelUtils.
Local Open Scope string_scope.
Local Open Scope list_scope.
Local Open Scope nat_scope.

(** the calls of one generator and their results, from its construction; [ro]: objects that were read-only before *)
Inductive called (hash : string -> string) (mode : string) (ro : list nat) : list (data * res (list string)) -> env -> Prop :=
| called_new : called hash mode ro [] (new_gen mode, ro)
| called_next l e d e' r : called hash mode ro l e -> gen_call hash d e = (e', r) -> called hash mode ro (l ++ [(d, r)]) e'.
(** the ids handed out, in order *)
Definition handed (l : list (data * res (list string))) : list string :=
  concat (map (fun c => match snd c with Ok ids => ids | Err _ => [] end) l).
(** the bytes of a sample *)
Inductive content : datum -> string -> Prop :=
| content_numpy o b : content (DNumpy o b) b
| content_torch b : content (DTorch (Some b)) b.
(** the NumPy objects among samples *)
Definition numpy_in (o : nat) (l : list datum) : Prop := exists b, In (DNumpy o b) l.
