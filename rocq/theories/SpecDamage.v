(** Specification vocabulary for logs that cannot be stored and for damaged log directories. *)
From Verif Require Import Py PyStr ModelMmap ModelLoader ModelSaver SpecStore.
Local Open Scope nat_scope.

(** A logged batch whose tensors may have any rank and element type: module -> log type -> tensor. *)
Definition any_module (x : nd array) : Prop := exists lm, x = Node lm /\ NoDup (dkeys lm) /\ Forall (fun kv => exists t, snd kv = Leaf t) lm.
Definition any_log (l : list (string * nd array)) : Prop := NoDup (dkeys l) /\ Forall (fun kv => any_module (snd kv)) l.
(** Row [i] of the tensor can be stored. *)
Definition storable (i : nat) (t : array) : Prop := a_dtype t <> BF16 /\ exists n rest, a_shape t = n :: rest /\ i < n.
(** What the first row of a tensor that cannot be stored raises. *)
Definition no_row (t : array) (e : exn) : Prop :=
  ((a_shape t = [] \/ exists rest, a_shape t = 0 :: rest) /\ e = IndexError) \/
  (a_dtype t = BF16 /\ (exists n rest, a_shape t = S n :: rest) /\ e = TypeError).
(** All tensors of a module have a first row that can be stored. *)
Definition module_storable (x : nd array) : Prop := forall k t, at_path x [k] = Some (Leaf t) -> storable 0 t.

(** Sample [x] has a well-formed array for every watched module, namely [arrs]; scalars are allowed. *)
Definition held_arrays (ms : list string) (x : nd array) (arrs : list array) : Prop :=
  Forall2 (fun m a => at_path x [m; "grad"%string] = Some (Leaf a) /\ arr_wf a) ms arrs.

(** What opening chunk [(r, c)] of directory [d] raises. *)
Definition chunk_fault (d : fs) (k : nat * nat) (e : exn) : Prop :=
  let n := chunk_file (fst k) (snd k) in
  (dget n d = Some (FData []) /\ e = ValueError) \/
  (exists b bs, dget n d = Some (FData (b :: bs)) /\
     ((dget (meta_name n) d = None /\ e = FileNotFoundError) \/
      (exists f, dget (meta_name n) d = Some f /\ (forall m, f <> FMeta m) /\ e = JSONDecodeError))).
Definition chunk_good (d : fs) (k : nat * nat) (m : list entry) : Prop :=
  let n := chunk_file (fst k) (snd k) in
  (exists b bs, dget n d = Some (FData (b :: bs))) /\ dget (meta_name n) d = Some (FMeta m).
(** The order in which chunks are read. *)
Definition before (a b : nat * nat) : Prop := fst a < fst b \/ (fst a = fst b /\ snd a < snd b).
(** The name contains "rank_<digits>_chunk_<digits>". *)
Definition digits (s : string) : Prop := s <> ""%string /\ forallb is_digit (chars s) = true.
Definition numbered (s : string) : Prop :=
  exists a r c b, digits r /\ digits c /\ s = (a ++ "rank_" ++ r ++ "_chunk_" ++ c ++ b)%string.
(** Two samples of a batch disagree in the shape or element type of module number [j]. *)
Definition disagree (j : nat) (c : list (did * list array)) : Prop :=
  exists x y, In x c /\ In y c /\
    let a := nth j (snd x) (Arr [] F32 []) in let b := nth j (snd y) (Arr [] F32 []) in
    a_shape a <> a_shape b.
(** A file name without an extension. *)
Definition dotless (f : string) : Prop := forallb (fun c => negb (Ascii.eqb c ".")) (chars f) = true /\ f <> ""%string.
(** What a failed write leaves: a data file of the size of the buffered arrays, and a directory that cannot be opened unless
    metadata of that chunk number was already there. *)
Definition after_fault (d : fs) (s : saver) (d' : fs) : Prop :=
  (exists mm, d' = dset (chunk_file (s_rank s) (s_count s)) (FData mm) d /\ length mm = buf_bytes (s_buffer s)) /\
  (dget (meta_name (chunk_file (s_rank s) (s_count s))) d = None -> forall listing, incl (dkeys d') listing -> exists e, open_dataset d' listing = Err e).
(** Every record has one array per watched module. *)
Definition all_of (ms : list string) (c : list (did * list array)) : Prop := Forall (fun x => length (snd x) = length ms) c.
