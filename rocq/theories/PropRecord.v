(** C102: records whose metadata does not fit, batches of records of different structure, stray files (logix/logging/log_loader.py, log_loader_utils.py, mmap.py). *)
From Verif Require Import Py PyStr ModelMmap ModelLoader ModelSaver SpecStore SpecDamage SpecRecord RecordProofs ExStore.
Local Open Scope nat_scope.

(** A block that reaches beyond its file cannot be read; every other block can be read flat. *)
Theorem C102_short ds i id e mm : record_at ds i id e mm -> length mm < e_offset e + e_block e * itemsize (e_dtype e) -> get_nested ds i = Err TypeError /\ get_flat ds i = Err TypeError.
Proof. exact (short_record ds i id e mm). Qed.
Print Assumptions C102_short.
Theorem C102_flat ds i id e mm : record_at ds i id e mm -> e_offset e + e_block e * itemsize (e_dtype e) <= length mm -> get_flat ds i = Ok (id, block_of mm e).
Proof. exact (flat_record ds i id e mm). Qed.
Print Assumptions C102_flat.
(** The first path for which something does not fit decides what reading the record as a dictionary raises. *)
Theorem C102_bad ds i id e mm ps p ps' ss rest : record_at ds i id e mm -> e_offset e + e_block e * itemsize (e_dtype e) <= length mm ->
  e_path e = ps ++ p :: ps' -> e_shape e = ss ++ rest -> sound ps ss (e_block e) ->
  (rest = [] -> get_nested ds i = Err IndexError) /\
  (forall sh rest', rest = sh :: rest' ->
     (sh = [] -> get_nested ds i = Err TypeError) /\
     (sh <> [] -> e_block e < elements ss + prod sh -> get_nested ds i = Err RuntimeError) /\
     (sh <> [] -> elements ss + prod sh <= e_block e -> p = [] -> get_nested ds i = Err IndexError) /\
     (sh <> [] -> elements ss + prod sh <= e_block e -> (exists q, In q ps /\ below q p) -> exists x, get_nested ds i = Err x)).
Proof. exact (bad_record ds i id e mm ps p ps' ss rest). Qed.
Print Assumptions C102_bad.
(** If everything fits, the shapes must use up the block; then every path leads to its part of the block, unless a later path replaces it. *)
Theorem C102_sound ds i id e mm ss rest : record_at ds i id e mm -> e_offset e + e_block e * itemsize (e_dtype e) <= length mm ->
  e_shape e = ss ++ rest -> sound (e_path e) ss (e_block e) ->
  (elements ss <> e_block e -> get_nested ds i = Err AssertionError) /\
  (elements ss = e_block e -> exists x, get_nested ds i = Ok (id, x) /\
     forall j p sh, nth_error (e_path e) j = Some p -> nth_error ss j = Some sh -> (forall k q, j < k -> nth_error (e_path e) k = Some q -> ~ above q p) ->
       at_path x p = Some (Leaf (piece mm e (elements (firstn j ss)) sh))).
Proof. exact (sound_record ds i id e mm ss rest). Qed.
Print Assumptions C102_sound.
(** The first record of a batch with an entry that has no place in the structure of the batch's first record decides what the loader raises. *)
Theorem C102_collate ds k items cs id0 f good id l rest cs' e : all_nested ds = Ok items ->
  chunks k items = cs ++ ((id0, Node f) :: good ++ (id, Node l) :: rest) :: cs' -> Forall (fun c => exists r, collate_nested_dicts stack_arrays c = Ok r) cs ->
  Forall (fun x : did * nd array => fits (snd x) (Node f)) ((id0, Node f) :: good) -> misfit l f e -> dataloader ds k = Err e.
Proof. exact (loader_misfit ds k items cs id0 f good id l rest cs' e). Qed.
Print Assumptions C102_collate.
(** A copy of a chunk's data file is never read: its name stands for the chunk itself. *)
Theorem C102_copy r c s d l1 l2 : copy_suffix s -> open_dataset d (l1 ++ copy_name r c s :: l2) = open_dataset d (l1 ++ chunk_file r c :: l2).
Proof. exact (copy_read r c s d l1 l2). Qed.
Print Assumptions C102_copy.
Theorem C102_copy_refuted r c s d others : copy_suffix s -> (forall n, In n others -> ~ exists mid, n = ("log_" ++ mid ++ ".mmap")%string) -> dget (chunk_file r c) d = None ->
  open_dataset d (copy_name r c s :: others) = Err FileNotFoundError.
Proof. exact (copy_alone r c s d others). Qed.
Print Assumptions C102_copy_refuted.
(** A key of the write order that a record lacks is skipped: an array found without it is stored as if it had been below that key. *)
Theorem C102_skips d f m t (recs : list (did * array)) : m <> t ->
  write d f (map (fun x => (fst x, Node [(t, Leaf (snd x))])) recs) [[m; t]] = write d f (map (fun x => (fst x, Node [(m, Node [(t, Leaf (snd x))])])) recs) [[m; t]].
Proof. exact (write_skips d f m t recs). Qed.
Print Assumptions C102_skips.
(** Records over the eight bytes of one chunk: two arrays, the faults in turn, and two batches that do not fit together. *)
Example C102_example :
  let mm := [x01; x02; x03; x04; x05; x06; x07; x08] in
  let g m := [m; "grad"]%string in let ent ps ss n := Entry (DInt 5) ps 2 ss n F16 in
  let ds es := DS [mm] (map (fun x : Z * entry => (DInt (fst x), (0, snd x))) es) in
  let one e := ds [(5%Z, e)] in let rd e := match get_nested (one e) 0 with Ok (_, x) => Ok x | Err y => Err y end in
  let a := Arr [2] F16 [x03; x04; x05; x06] in let b := Arr [1; 1] F16 [x07; x08] in
  let ab := ent [g "fc1"; g "fc2"]%string [[2]; [1; 1]] 3 in
  record_at (one ab) 0 (DInt 5) ab mm /\ sound [g "fc1"]%string [[2]] 3 /\ sound (e_path ab) (e_shape ab) 3 /\
  rd ab = Ok (Node [("fc1"%string, Node [("grad"%string, Leaf a)]); ("fc2"%string, Node [("grad"%string, Leaf b)])]) /\
  map rd [ent [g "fc1"; g "fc2"]%string [[2]] 3; ent [g "fc1"; g "fc2"]%string [[2]; []] 3; ent [g "fc1"; g "fc2"]%string [[2]; [2]] 3; ent [g "fc1"%string; []] [[2]; [1]] 3;
          ent [g "fc1"%string] [[2]] 3; ent [g "fc1"; g "fc2"]%string [[2]; [1; 1]] 4] =
    [Err IndexError; Err TypeError; Err RuntimeError; Err IndexError; Err AssertionError; Err TypeError] /\
  below (g "fc1"%string) (g "fc1"%string ++ ["x"%string]) /\ (exists y, rd (ent [g "fc1"%string; g "fc1"%string ++ ["x"%string]] [[2]; [1]] 3) = Err y) /\
  (let two e e' := dataloader (ds [(5%Z, e); (6%Z, e')]) 2 in
   let c := ent [g "fc1"]%string [[3]] 3 in let deep := ent [g "fc1"%string ++ ["x"%string]] [[3]] 3 in let flat := ent [["fc1"]]%string [[3]] 3 in let other := ent [g "fc2"]%string [[3]] 3 in
   map (fun p => match two (fst p) (snd p) with Ok _ => None | Err y => Some y end) [(c, c); (c, deep); (c, flat); (c, other); (deep, c)] = [None; Some TypeError; Some AttributeError; Some KeyError; Some AttributeError] /\
   let z := Arr [3] F16 [x03; x04; x05; x06; x07; x08] in
   all_nested (ds [(5%Z, c); (6%Z, deep)]) = Ok [(DInt 5, Node [("fc1"%string, Node [("grad"%string, Leaf z)])]); (DInt 6, Node [("fc1"%string, Node [("grad"%string, Node [("x"%string, Leaf z)])])])] /\
   fits (Node [("fc1"%string, Node [("grad"%string, Leaf z)])]) (Node [("fc1"%string, Node [("grad"%string, Leaf z)])]) /\
   misfit [("fc1"%string, Node [("grad"%string, Node [("x"%string, Leaf z)])])] [("fc1"%string, Node [("grad"%string, Leaf z)])] TypeError) /\
  copy_suffix ".mmap" /\ copy_name 0 3 ".mmap" = "log_rank_0_chunk_3.mmap.mmap"%string /\
  (let d1 := fst (fst (flush_serialized d0 s_b1)) in let cp := ("log_rank_0_chunk_0.mmap.mmap"%string, FData [x01]) in
   let opened d := match open_dataset d (dkeys d) with Ok ds => Ok (ds_ids ds) | Err y => Err y end in
   opened (cp :: d1) = opened d1 /\ opened [cp] = Err FileNotFoundError) /\
  (let w := write [] "part" [(DStr "cat", Node [("grad"%string, Leaf a)])] [g "fc1"%string] in
   snd w = Ok tt /\ dget "part_metadata.json"%string (fst w) = Some (FMeta [Entry (DStr "cat") [g "fc1"%string] 0 [[2]] 2 F16])).
Proof.
  cbv zeta. split; [exists 0; split; reflexivity|]. assert (B : forall x y : string, x <> y -> ~ below [x; "grad"%string] [y; "grad"%string]) by (intros x y N (k & l & E); injection E; intros; subst; contradiction).
  split. { split; [reflexivity|]. split; [repeat constructor; discriminate|]. split; [cbn; lia|]. intros [|? [|]] q post E; try discriminate. injection E as <- _. split; [discriminate|intros r []]. }
  split. { split; [reflexivity|]. split; [repeat constructor; discriminate|]. split; [cbn; lia|]. intros [|? [|? [|]]] q post E; try discriminate.
    - injection E as <- _. split; [discriminate|intros r []].
    - injection E as <- <- _. split; [discriminate|intros r [<-|[]]]. apply B. discriminate. }
  split; [vm_compute; reflexivity|]. split; [vm_compute; reflexivity|]. split; [exists "x"%string, []; reflexivity|]. split; [eexists; vm_compute; reflexivity|].
  split.
  { split; [vm_compute; reflexivity|]. split; [vm_compute; reflexivity|]. split.
    - repeat (constructor; intros k v [E|[]]; injection E as <- <-; eexists; split; [reflexivity|]). constructor.
    - apply (misfit_at []); [constructor; intros k v []|]. apply clash_below. apply (misfit_at []); [constructor; intros k v []|]. apply clash_dict. }
  split. { intros x I. cbn in I |- *. intuition. } repeat (split; [vm_compute; reflexivity|]). split; [split; vm_compute; reflexivity|split; vm_compute; reflexivity].
Qed.
