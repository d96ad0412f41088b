(** Model of the data id generator, /repo/logix/utils.py. *)
From Verif Require Import Py PyStr Monad.
Local Open Scope string_scope.
Local Open Scope list_scope.
Local Open Scope nat_scope.

(** One sample: a NumPy array (its object and its bytes), a torch tensor (its bytes; None for a dtype that NumPy does not
    have, e.g. bfloat16), or something else (a NumPy scalar, a string, a number). Shape and dtype do not occur in tobytes(). *)
Inductive datum := DNumpy (obj : nat) (bytes : string) | DTorch (bytes : option string) | DOther.
(** A batch: what iterating over it yields and its len(), if it supports them *)
Record data := Data { d_items : option (list datum); d_len : option nat }.
(** A generator ([g_count]: the attribute exists only in mode "index") and the NumPy objects that have been made read-only *)
Record gen := Gen { g_mode : string; g_count : option nat }.
Definition env := (gen * list nat)%type.

(** utils.py:228-231 *)
Definition new_gen (mode : string) : gen := Gen mode (if String.eqb mode "index" then Some 0 else None).
(** utils.py:67-79: to_numpy, with the object whose flags are changed (the result of tensor.numpy() is a new object) *)
Definition to_numpy (d : datum) : res (option nat * string) :=
  match d with
  | DNumpy o b => Ok (Some o, b)
  | DTorch (Some b) => Ok (None, b)
  | DTorch None => Err TypeError
  | DOther => Err ValueError
  end.
(** utils.py:241-250; [hash]: sha256(..).hexdigest() *)
Fixpoint hash_ids (hash : string -> string) (l : list datum) (acc : list string) : SM env (list string) :=
  match l with
  | [] => sret acc
  | d :: l' =>
      let! p := lift (to_numpy d) in
      (match fst p with Some o => fun e => ((fst e, o :: snd e), Ok tt) | None => sret tt end) ;;
      hash_ids hash l' (acc ++ [hash (snd p)])
  end.
(** utils.py:252-259: len(data) is evaluated first *)
Definition index_ids (d : data) : SM env (list string) := fun e =>
  match d_len d, g_count (fst e) with
  | Some n, Some c => ((Gen (g_mode (fst e)) (Some (c + n)), snd e), Ok (map dec (seq c n)))
  | None, Some _ => (e, Err TypeError)
  | _, None => (e, Err AttributeError)
  end.
(** utils.py:233-239 *)
Definition gen_call (hash : string -> string) (d : data) : SM env (list string) :=
  let! e := sget in
  if String.eqb (g_mode (fst e)) "hash" then
    match d_items d with Some l => hash_ids hash l [] | None => sfail TypeError end
  else if String.eqb (g_mode (fst e)) "index" then index_ids d
  else sfail ValueError.
