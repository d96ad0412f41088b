(** Vocabulary for the analysis front end: what batches of samples look like. *)
From Verif Require Import Py ModelMmap SpecStore.
Local Open Scope nat_scope.

(** One batch of per-sample records (one array per module): the ids, and the stacked arrays per module. *)
Definition batch_as (ids : list did) (ms : list string) (c : list (did * list array)) : list did * nd array :=
  (ids, nested_of ms (map (stacked c) (seq 0 (length ms)))).
Definition batch_nested (ms : list string) (c : list (did * list array)) : list did * nd array :=
  (map fst c, nested_of ms (map (stacked c) (seq 0 (length ms)))).
(** One batch of flattened records of [n] numbers: a matrix with one row per sample. *)
Definition batch_flat (ids : list did) (n : nat) (dt : dtype) (c : list (did * array)) : list did * nd array :=
  (ids, Leaf (Arr [length c; n] dt (concat (map (fun x => a_bytes (snd x)) c)))).
