(** Vocabulary for single records whose metadata does not fit, batches of records of different structure, and stray files. *)
From Verif Require Import Py PyStr ModelMmap ModelLoader ModelSaver SpecStore SpecDamage.
Local Open Scope nat_scope.

(** [q] lies strictly below [r]; [r] is [q] or lies above it *)
Definition below (r q : list string) : Prop := exists k l, q = r ++ k :: l.
Definition above (r q : list string) : Prop := exists l, q = r ++ l.
Definition elements (ss : list (list nat)) : nat := list_sum (map prod ss).
(** The arrays of the paths [ps] with the shapes [ss] can be cut from a block of [n] elements and put into one dictionary. *)
Definition sound (ps : list (list string)) (ss : list (list nat)) (n : nat) : Prop :=
  length ss = length ps /\ Forall (fun s => s <> []) ss /\ elements ss <= n /\
  forall pre q post, ps = pre ++ q :: post -> q <> [] /\ forall r, In r pre -> ~ below r q.
(** the array of shape [sh] that starts at element [start] of a record's block *)
Definition piece (mm : list byte) (e : entry) (start : nat) (sh : list nat) : array :=
  Arr sh (e_dtype e) (firstn (prod sh * itemsize (e_dtype e)) (skipn (e_offset e + start * itemsize (e_dtype e)) mm)).
Definition block_of (mm : list byte) (e : entry) : array := piece mm e 0 [e_block e].
(** Record [i] of the dataset is described by [e] and lies in [mm]. *)
Definition record_at (ds : dataset) (i : nat) (id : did) (e : entry) (mm : list byte) : Prop :=
  exists c, nth_error (ds_map ds) i = Some (id, (c, e)) /\ nth_error (ds_mm ds) c = Some mm.

(** Every entry of the dictionary has its place in the structure [f]. *)
Inductive fits {A} : nd A -> nd A -> Prop :=
| fits_tensor a b : fits (Leaf a) (Leaf b)
| fits_nothing b : fits (Node []) (Leaf b)
| fits_dict l f : (forall k v, In (k, v) l -> exists g, dget k f = Some g /\ fits v g) -> fits (Node l) (Node f).
(** The first entry that has no place in the structure [f], and what it raises. *)
Inductive misfit {A} : list (string * nd A) -> list (string * nd A) -> exn -> Prop :=
| misfit_at pre k v post f e : fits (Node pre) (Node f) -> clash v (dget k f) e -> misfit (pre ++ (k, v) :: post) f e
with clash {A} : nd A -> option (nd A) -> exn -> Prop :=
| clash_missing v : clash v None KeyError
| clash_tensor a f : clash (Leaf a) (Some (Node f)) AttributeError
| clash_dict kv l b : clash (Node (kv :: l)) (Some (Leaf b)) TypeError
| clash_below l f e : misfit l f e -> clash (Node l) (Some (Node f)) e.

(** The name of a chunk followed by dots and letters of "map", and the extension: "log_rank_0_chunk_0.mmap.mmap". *)
Definition copy_name (r c : nat) (s : string) : string := ("log_rank_" ++ dec r ++ "_chunk_" ++ dec c ++ s ++ ".mmap")%string.
Definition copy_suffix (s : string) : Prop := forall x, In x (chars s) -> In x (chars ".map").
