(** Model of /repo/logix/logging/log_loader_utils.py and log_loader.py. *)
From Verif Require Import Py PyStr ModelMmap.
Local Open Scope nat_scope.

(** log_loader_utils.py:39-40 [re.search(r"rank_(\d+)_chunk_(\d+)", s)] and int() of the groups.
    Greedy digits never need backtracking because the following literal starts with '_'. *)
Definition match_here (s : list ascii) : option (nat * nat) :=
  let lit (p : string) (l : list ascii) : option (list ascii) :=
    if String.prefix p (unchars l) then Some (skipn (String.length p) l) else None in
  match lit "rank_" s with
  | None => None
  | Some s1 =>
      let '(d1, s2) := span is_digit s1 in
      match d1, lit "_chunk_" s2 with
      | _ :: _, Some s3 =>
          let '(d2, _) := span is_digit s3 in
          match d2 with
          | _ :: _ => Some (int_of_digits d1, int_of_digits d2)
          | [] => None
          end
      | _, _ => None
      end
  end.

Fixpoint re_search (s : list ascii) : option (nat * nat) :=
  match match_here s with
  | Some x => Some x
  | None => match s with [] => None | _ :: r => re_search r end
  end.

(** log_loader_utils.py:29-40: [match.group] on None raises AttributeError. *)
Definition extract_rank_and_chunk (filename : string) : res (nat * nat) :=
  match re_search (chars filename) with
  | Some x => Ok x
  | None => Err AttributeError
  end.

(** Stable sort by key (Python's sorted). *)
Definition key_le (a b : nat * nat) : bool :=
  if fst a <? fst b then true else if fst a =? fst b then snd a <=? snd b else false.
Fixpoint insert_by {A} (k : nat * nat) (x : A) (l : list ((nat * nat) * A)) :=
  match l with
  | [] => [(k, x)]
  | (k', y) :: r => if key_le k k' then (k, x) :: l else (k', y) :: insert_by k x r
  end.
Definition sort_by {A} (l : list ((nat * nat) * A)) : list ((nat * nat) * A) :=
  fold_right (fun kx acc => insert_by (fst kx) (snd kx) acc) [] l.

(** log_loader_utils.py:54-57 *)
Definition chunk_index_of (filename : string) : string := strip "log_" (rstrip ".mmap" filename).
Definition is_chunk_file (filename : string) : bool :=
  endswith filename ".mmap" && startswith filename "log_".

(** log_loader_utils.py:43-59 [find_chunk_indices]; [listing] is what os.listdir returns. *)
Definition find_chunk_indices (listing : list string) : res (list string) :=
  let idx := map chunk_index_of (filter is_chunk_file listing) in
  let* keyed := mapM (fun s => let* k := extract_rank_and_chunk s in Ok (k, s)) idx in
  Ok (map snd (sort_by keyed)).

(** log_loader_utils.py:77-87 [get_mmap_metadata]: the first occurrence of an id wins. *)
Definition add_entry (chunk : nat) (m : dict did (nat * entry)) (e : entry)
  : dict did (nat * entry) :=
  if dmem (e_id e) m then m else dset (e_id e) (chunk, e) m.
Definition get_mmap_metadata (m : dict did (nat * entry)) (d : fs) (name : string) (chunk : nat)
  : res (dict did (nat * entry)) :=
  let* meta := read_metafile d name in
  Ok (fold_left (add_entry chunk) meta m).

(** log_loader.py:28-40: the dataset object. *)
Record dataset := DS {
  ds_mm : list (list byte);                    (* memmaps *)
  ds_map : dict did (nat * entry)               (* data_id_to_chunk; data_id_list = its keys *)
}.

(** log_loader.py:42-55 [fetch_data] *)
Definition fetch_one (d : fs) (s : dataset) (chunk_index : string) : res dataset :=
  let file_root := ("log_" ++ chunk_index)%string in
  let* mm := read d (file_root ++ ".mmap")%string in
  let* m := get_mmap_metadata (ds_map s) d (file_root ++ "_metadata.json")%string
                              (length (ds_mm s)) in
  Ok (DS (ds_mm s ++ [mm]) m).

(** log_loader.py:29-40 [LogDataset.__init__] *)
Definition open_dataset (d : fs) (listing : list string) : res dataset :=
  let* idx := find_chunk_indices listing in
  foldM (fetch_one d) idx (DS [] []).

(** log_loader.py:84-85 *)
Definition ds_len (s : dataset) : nat := length (ds_map s).
Definition ds_ids (s : dataset) : list did := dkeys (ds_map s).

(** log_loader_utils.py:121-129 [get_flatten_item]: numpy checks that the buffer is large enough. *)
Definition get_flatten_item (mm : list byte) (offset block : nat) (dt : dtype) : res array :=
  if offset + block * itemsize dt <=? length mm
  then Ok (Arr [block] dt (firstn (block * itemsize dt) (skipn offset mm)))
  else Err TypeError.

(** log_loader_utils.py:132-136 [unflatten_tensor]: the slice is clipped, [view] checks the count. *)
Definition unflatten_tensor (flat : array) (shape : list nat) (start : nat) : res (array * nat) :=
  let* n := reduce_mul shape in
  let len := Nat.min n (prod (a_shape flat) - start) in
  let isz := itemsize (a_dtype flat) in
  if Nat.eqb len n
  then Ok (Arr shape (a_dtype flat) (firstn (len * isz) (skipn (start * isz) (a_bytes flat))),
           start + n)
  else Err RuntimeError.

(** log_loader.py:73-78: set [nested[path[0]]...[path[-1]] = v], creating dicts on the way. *)
Fixpoint nd_set {A} (path : list string) (v : A) (cur : list (string * nd A))
  : res (list (string * nd A)) :=
  match path with
  | [] => Err IndexError                                     (* path[-1] of an empty path *)
  | [k] => Ok (dset k (Leaf v) cur)
  | k :: r =>
      match dget k cur with
      | None => let* sub := nd_set r v [] in Ok (dset k (Node sub) cur)
      | Some (Node l) => let* sub := nd_set r v l in Ok (dset k (Node sub) cur)
      | Some (Leaf _) => Err TypeError                       (* descending into a tensor *)
      end
  end.

(** log_loader.py:68-78: the loop over [entry["path"]] and [entry["shape"]] in parallel. *)
Fixpoint unflatten_all (flat : array) (paths : list (list string)) (shapes : list (list nat))
         (start : nat) (acc : list (string * nd array)) : res (list (string * nd array) * nat) :=
  match paths, shapes with
  | [], _ => Ok (acc, start)
  | _ :: _, [] => Err IndexError
  | p :: ps, sh :: shs =>
      let* (t, start') := unflatten_tensor flat sh start in
      let* acc' := nd_set p t acc in
      unflatten_all flat ps shs start' acc'
  end.

(** log_loader.py:57-82 [__getitem__] for [flatten = true] and [false]. *)
Definition get_record (s : dataset) (i : nat) : res (did * list byte * entry) :=
  match nth_error (ds_map s) i with
  | None => Err IndexError
  | Some (id, (chunk, e)) =>
      match nth_error (ds_mm s) chunk with
      | None => Err IndexError
      | Some mm => Ok (id, mm, e)
      end
  end.

Definition get_flat (s : dataset) (i : nat) : res (did * array) :=
  let* (id, mm, e) := get_record s i in
  let* flat := get_flatten_item mm (e_offset e) (e_block e) (e_dtype e) in
  Ok (id, flat).

Definition get_nested (s : dataset) (i : nat) : res (did * nd array) :=
  let* (id, mm, e) := get_record s i in
  let* flat := get_flatten_item mm (e_offset e) (e_block e) (e_dtype e) in
  let* (nested, stop) := unflatten_all flat (e_path e) (e_shape e) 0 [] in
  if Nat.eqb (e_block e) stop then Ok (id, Node nested) else Err AssertionError.

(** All items in order: what a DataLoader with shuffle=False reads (logix.py:352-363). *)
Definition all_nested (s : dataset) : res (list (did * nd array)) :=
  mapM (get_nested s) (seq 0 (ds_len s)).
Definition all_flat (s : dataset) : res (list (did * array)) :=
  mapM (get_flat s) (seq 0 (ds_len s)).

(** ---- collation, log_loader_utils.py:90-108 and 139-166 ---- *)
Section Collate.
  Context {A B : Type}.
  Variable stack : list A -> res B.                          (* default_collate on tensors *)

  (** log_loader_utils.py:139-144 *)
  Fixpoint init_collate (x : nd A) : nd (list A) :=
    match x with
    | Leaf _ => Leaf []
    | Node l => Node ((fix go l := match l with
                                   | [] => []
                                   | (k, v) :: r => (k, init_collate v) :: go r
                                   end) l)
    end.

  (** log_loader_utils.py:147-155 [_merge_dicts(accumulator, new_data)] *)
  Fixpoint merge_dicts (new : nd A) (acc : nd (list A)) {struct new} : res (nd (list A)) :=
    match new with
    | Leaf _ => Err AttributeError
    | Node items =>
        (fix go items (acc : nd (list A)) : res (nd (list A)) :=
           match items with
           | [] => Ok acc
           | (k, v) :: r =>
               match acc with
               | Leaf _ => Err TypeError                     (* list indices must be integers *)
               | Node l =>
                   let* sub := dgetM k l in
                   match v with
                   | Node _ =>
                       let* sub' := merge_dicts v sub in
                       go r (Node (dset k sub' l))
                   | Leaf a =>
                       match sub with
                       | Leaf xs => go r (Node (dset k (Leaf (xs ++ [a])) l))
                       | Node _ => Err AttributeError        (* dict has no attribute 'append' *)
                       end
                   end
               end
           end) items acc
    end.

  (** log_loader_utils.py:158-166 *)
  Fixpoint collate_structure (x : nd (list A)) : res (nd B) :=
    match x with
    | Leaf xs => let* b := stack xs in Ok (Leaf b)
    | Node l =>
        let* l' := (fix go l : res (list (string * nd B)) :=
           match l with
           | [] => Ok []
           | (k, v) :: r => let* v' := collate_structure v in let* r' := go r in Ok ((k, v') :: r')
           end) l in
        Ok (Node l')
    end.

  (** log_loader_utils.py:90-108 *)
  Definition collate_nested_dicts (batch : list (did * nd A)) : res (list did * nd B) :=
    match batch with
    | [] => Err IndexError
    | (_, Leaf _) :: _ => Err AttributeError
    | (_, Node first) :: _ =>
        let* acc := foldM (fun acc x => merge_dicts (snd x) acc) batch (init_collate (Node first)) in
        let* out := collate_structure acc in
        Ok (map fst batch, out)
    end.
End Collate.

(** torch default_collate on a list of tensors: stack along a new first axis; shapes must agree
    (a dtype mismatch, which torch would promote, is also rejected here). *)
Definition dtype_eqb (a b : dtype) : bool :=
  match a, b with
  | F16, F16 | F32, F32 | F64, F64 | BF16, BF16 | I8, I8 | I16, I16 | I32, I32 | I64, I64
  | U8, U8 | BOOL, BOOL => true
  | _, _ => false
  end.
Fixpoint natlist_eqb (a b : list nat) : bool :=
  match a, b with
  | [], [] => true
  | x :: a', y :: b' => Nat.eqb x y && natlist_eqb a' b'
  | _, _ => false
  end.
Definition stack_arrays (l : list array) : res array :=
  match l with
  | [] => Err IndexError
  | a :: _ =>
      if forallb (fun b => natlist_eqb (a_shape a) (a_shape b) && dtype_eqb (a_dtype a) (a_dtype b)) l
      then Ok (Arr (length l :: a_shape a) (a_dtype a) (concat (map a_bytes l)))
      else Err RuntimeError
  end.

(** logix.py:352-363: DataLoader(batch_size, shuffle=False, collate_fn=collate_nested_dicts). *)
Definition dataloader (s : dataset) (batch_size : nat) : res (list (list did * nd array)) :=
  let* items := all_nested s in
  mapM (collate_nested_dicts stack_arrays) (chunks batch_size items).
(** torch's default_collate on the ids of a batch: strings stay, integers become one int64 tensor (read here as its
    elements); TypeError if a later id is no integer, RuntimeError if one does not fit *)
Definition fits64 (z : Z) : bool := ((- 2 ^ 63 <=? z) && (z <? 2 ^ 63))%Z.
Definition default_ids (l : list did) : res (list did) :=
  match l with
  | [] => Err IndexError
  | DStr _ :: _ => Ok l
  | DInt _ :: _ =>
      let* zs := mapM (fun d => match d with DInt z => Ok z | _ => Err TypeError end) l in
      if forallb fits64 zs then Ok (map DTen zs) else Err RuntimeError
  | _ :: _ => Err TypeError
  end.
(** logix.py:352-363 with flatten=True: default collation of (id, flat tensor) pairs. *)
Definition dataloader_flat (s : dataset) (batch_size : nat) : res (list (list did * array)) :=
  let* items := all_flat s in
  mapM (fun b => let* ids := default_ids (map fst b) in let* t := stack_arrays (map snd b) in Ok (ids, t)) (chunks batch_size items).
