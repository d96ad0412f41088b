(** Vocabulary for the sizes of files. *)
From Verif Require Import Py ModelMmap.
Local Open Scope nat_scope.

(** the widths of the element types, in bits *)
Definition bits (dt : dtype) : nat :=
  match dt with F64 | I64 => 64 | F32 | I32 => 32 | F16 | BF16 | I16 => 16 | I8 | U8 | BOOL => 8 end.
(** the arrays of one record *)
Fixpoint arrays_of (x : nd array) : list array :=
  match x with Leaf a => [a] | Node l => concat (map (fun p => arrays_of (snd p)) l) end.
