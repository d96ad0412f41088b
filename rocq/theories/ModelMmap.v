(** Model of /repo/logix/logging/mmap.py (all functions) at byte level. *)
From Coq Require Export Init.Byte.
From Verif Require Import Py PyStr.
Local Open Scope nat_scope.

(** Element types. numpy names; [BF16] exists only on the torch side
    (numpy has no bfloat16, see [to_numpy] in ModelSaver.v). *)
Inductive dtype := F16 | F32 | F64 | BF16 | I8 | I16 | I32 | I64 | U8 | BOOL.

Definition itemsize (d : dtype) : nat :=
  match d with
  | F16 => 2 | F32 => 4 | F64 => 8 | BF16 => 2
  | I8 => 1 | I16 => 2 | I32 => 4 | I64 => 8 | U8 => 1 | BOOL => 1
  end.

(** [reduce(lambda x, y: x * y, shape)] (mmap.py:65, log_loader_utils.py:133): raises
    TypeError on an empty shape (no initial value). *)
Definition reduce_mul (l : list nat) : res nat :=
  match l with [] => Err TypeError | _ => Ok (prod l) end.

(** A dense row-major array: shape, element type, raw bytes (an np.ndarray or CPU tensor). *)
Record array := Arr { a_shape : list nat; a_dtype : dtype; a_bytes : list byte }.

(** [arr.nbytes], [arr.size] *)
Definition nbytes (a : array) : nat := itemsize (a_dtype a) * prod (a_shape a).
Definition asize (a : array) : nat := prod (a_shape a).
Definition arr_wf (a : array) : Prop := length (a_bytes a) = nbytes a.

(** Data identifiers. [DTen z] is an integer tensor without dimensions, as torch's collation makes of an integer;
    [DOpaque] stands for other objects json cannot serialise. Two of either kind are equal as dictionary keys only if they
    are one object; the model identifies those of equal value. *)
Inductive did := DStr (s : string) | DInt (z : Z) | DTen (z : Z) | DOpaque (n : nat).

Definition did_eqb (a b : did) : bool :=
  match a, b with
  | DStr s, DStr t => String.eqb s t
  | DInt x, DInt y => Z.eqb x y
  | DTen x, DTen y => Z.eqb x y
  | DOpaque n, DOpaque m => Nat.eqb n m
  | _, _ => false
  end.
Lemma did_eqb_spec a b : reflect (a = b) (did_eqb a b).
Proof.
  destruct a as [s|x|x|n], b as [t|y|y|m]; cbn; try (constructor; congruence).
  - destruct (String.eqb_spec s t); constructor; congruence.
  - destruct (Z.eqb_spec x y); constructor; congruence.
  - destruct (Z.eqb_spec x y); constructor; congruence.
  - destruct (Nat.eqb_spec n m); constructor; congruence.
Defined.
Global Instance Eqb_did : Eqb did := {| eqb := did_eqb; eqb_spec := did_eqb_spec |}.

Definition serialisable (d : did) : bool := match d with DTen _ | DOpaque _ => false | _ => true end.

(** One element of the metadata list, mmap.py:68-77. *)
Record entry := Entry {
  e_id : did;
  e_path : list (list string);
  e_offset : nat;
  e_shape : list (list nat);
  e_block : nat;
  e_dtype : dtype
}.

(** Contents of a file of the log directory. [FBroken] is a truncated JSON file. *)
Inductive file := FData (bs : list byte) | FMeta (m : list entry) | FBroken | FOther.

(** One directory: name -> file. Paths are not modelled ([os.path.join(save_path, f)] is [f]). *)
Definition fs := dict string file.

(** mmap.py:23-28 [extract_arrays]: all arrays of a nested dict with their paths. *)
Fixpoint extract_arrays (base : list string) (x : nd array) : list (list string * array) :=
  match x with
  | Leaf a => [(base, a)]
  | Node l =>
      (fix go l := match l with
                   | [] => []
                   | (k, v) :: r => extract_arrays (base ++ [k]) v ++ go r
                   end) l
  end.

(** mmap.py:31-36 [get_from_nested_dict]: missing keys are skipped. For an ndarray,
    [key in array] compares elementwise with a string and is False. *)
Fixpoint get_from_nested_dict (cur : nd array) (keys : list string) : nd array :=
  match keys with
  | [] => cur
  | k :: r =>
      match cur with
      | Node l => match dget k l with
                  | Some c => get_from_nested_dict c r
                  | None => get_from_nested_dict cur r
                  end
      | Leaf _ => get_from_nested_dict cur r
      end
  end.

Definition sum_nat (l : list nat) : nat := fold_right Nat.add 0 l.

(** mmap.py:49-51 *)
Definition total_size (buf : list (did * nd array)) : nat :=
  sum_nat (map (fun kv => sum_nat (map (fun pa => nbytes (snd pa)) (extract_arrays [] (snd kv)))) buf).

(** [mmap[off : off+n] = bs] for a 1-d uint8 memmap: the slice is clipped to the file;
    lengths must agree (numpy broadcasts a single byte). *)
Definition assign_slice (m : list byte) (off n : nat) (bs : list byte) : res (list byte) :=
  let len := Nat.min n (length m - off) in
  if Nat.eqb (length bs) len then Ok (firstn off m ++ bs ++ skipn (off + len) m)
  else if Nat.eqb (length bs) 1 then
         Ok (firstn off m ++ repeat (hd x00 bs) len ++ skipn (off + len) m)
  else Err ValueError.

(** Loop state of the inner loop, mmap.py:57-67. *)
Record wstate := W { w_mm : list byte; w_off : nat; w_shapes : list (list nat);
                     w_block : nat; w_dt : option dtype }.

(** One iteration of the inner loop, mmap.py:61-67. Any exception leaves the memmap as it was
    before the iteration. *)
Definition write_key (nested : nd array) (s : wstate) (key : list string) : res wstate :=
  match get_from_nested_dict nested key with
  | Node _ => Err AttributeError                      (* dict has no attribute 'nbytes' *)
  | Leaf arr =>
      let* n := reduce_mul (a_shape arr) in
      let* mm := assign_slice (w_mm s) (w_off s) (nbytes arr) (a_bytes arr) in
      Ok (W mm (w_off s + nbytes arr) (w_shapes s ++ [a_shape arr]) (w_block s + n)
            (Some (a_dtype arr)))
  end.

(** The inner loop. On an exception the memmap reached so far is kept on disk. *)
Fixpoint write_keys (nested : nd array) (order : list (list string)) (s : wstate)
  : list byte * res wstate :=
  match order with
  | [] => (w_mm s, Ok s)
  | k :: r => match write_key nested s k with
              | Ok s' => write_keys nested r s'
              | Err e => (w_mm s, Err e)
              end
  end.

(** The outer loop, mmap.py:54-77. [dtype] is unbound if the write order is empty. *)
Fixpoint write_samples (order : list (list string)) (buf : list (did * nd array))
         (mm : list byte) (off : nat) (meta : list entry) : list byte * res (list entry) :=
  match buf with
  | [] => (mm, Ok meta)
  | (i, nested) :: r =>
      match write_keys nested order (W mm off [] 0 None) with
      | (mm', Err e) => (mm', Err e)
      | (mm', Ok s) =>
          match w_dt s with
          | None => (mm', Err UnboundLocalError)
          | Some dt =>
              write_samples order r mm' (w_off s)
                (meta ++ [Entry i order off (w_shapes s) (w_block s) dt])
          end
      end
  end.

(** mmap.py:42-47: data and metadata file names. *)
Definition data_name (filename : string) : string :=
  let '(_, ext) := splitext filename in
  if String.eqb ext "" then (filename ++ ".mmap")%string else filename.
Definition meta_name (filename : string) : string :=
  (fst (splitext filename) ++ "_metadata.json")%string.

(** mmap.py:41-83 [MemoryMapHandler.write]. The memmap is created (truncating an old file) and
    zero-filled first; mapping 0 bytes raises ValueError after the empty file was created; the
    metadata file is written last, and json.dump leaves a truncated file when it meets an id it
    cannot serialise. *)
Definition write (d : fs) (filename : string) (buf : list (did * nd array))
           (order : list (list string)) : fs * res unit :=
  let total := total_size buf in
  if Nat.eqb total 0 then (dset (data_name filename) (FData []) d, Err ValueError)
  else
    match write_samples order buf (repeat x00 total) 0 [] with
    | (mm, Err e) => (dset (data_name filename) (FData mm) d, Err e)
    | (mm, Ok meta) =>
        let d1 := dset (data_name filename) (FData mm) d in
        if forallb (fun e => serialisable (e_id e)) meta
        then (dset (meta_name filename) (FMeta meta) d1, Ok tt)
        else (dset (meta_name filename) FBroken d1, Err TypeError)
    end.

(** mmap.py:87-103 [MemoryMapHandler.read]: open an existing file; an empty file cannot be mapped. *)
Definition read (d : fs) (filename : string) : res (list byte) :=
  let name := data_name filename in
  match dget name d with
  | Some (FData []) => Err ValueError
  | Some (FData bs) => Ok bs
  | Some _ => Err ValueError
  | None => Err FileNotFoundError
  end.

(** mmap.py:106-113 [MemoryMapHandler.read_metafile]. *)
Definition read_metafile (d : fs) (name : string) : res (list entry) :=
  let '(_, ext) := splitext name in
  let name := if String.eqb ext "" then (name ++ ".json")%string else name in
  match dget name d with
  | Some (FMeta m) => Ok m
  | Some _ => Err JSONDecodeError
  | None => Err FileNotFoundError
  end.

(** Directory states a crash during [write] (mmap.py:52-83) can leave: before the data file is opened;
    with a data file of arbitrary contents (np.memmap "w+" truncates, extends, and pages reach the disk
    in any order); with the data file written and the metadata file opened but not completely written
    (any strict prefix of the JSON list is invalid JSON); or after everything. *)
Inductive crash_point := CrashBefore | CrashData (bs : list byte) | CrashMeta | CrashAfter.
Definition crash_write (d : fs) (filename : string) (buf : list (did * nd array))
           (order : list (list string)) (cp : crash_point) : fs :=
  match cp with
  | CrashBefore => d
  | CrashData bs => dset (data_name filename) (FData bs) d
  | CrashMeta =>
      let mm := fst (write_samples order buf (repeat x00 (total_size buf)) 0 []) in
      dset (meta_name filename) FBroken (dset (data_name filename) (FData mm) d)
  | CrashAfter => fst (write d filename buf order)
  end.
