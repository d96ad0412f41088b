(** Model of /repo/logix/logging/log_saver.py. *)
From Verif Require Import Py PyStr ModelMmap.
Local Open Scope nat_scope.

(** utils.py:67-79 [to_numpy] of a torch tensor: numpy has no bfloat16. *)
Definition to_numpy (t : array) : res array :=
  match a_dtype t with BF16 => Err TypeError | _ => Ok t end.

(** [value[idx]] for a tensor and a non-negative integer. *)
Definition tensor_row (t : array) (i : nat) : res array :=
  match a_shape t with
  | [] => Err IndexError
  | n :: rest =>
      if i <? n
      then let sz := itemsize (a_dtype t) * prod rest in
           Ok (Arr rest (a_dtype t) (firstn sz (skipn (i * sz) (a_bytes t))))
      else Err IndexError
  end.

(** log_saver.py:23-37. [s_path] is what [state.model_module["path"]] holds. *)
Record saver := Saver {
  s_rank : nat;
  s_workers : Z;             (* config.num_workers *)
  s_threshold : Z;           (* config.flush_threshold *)
  s_path : list (list string);
  s_count : nat;             (* flush_count *)
  s_buffer : dict did (nd array);
  s_size : nat               (* buffer_size *)
}.

Definition saver_init (rank : nat) (workers thr : Z) (path : list (list string)) : saver :=
  Saver rank workers thr path 0 [] 0.

(** log_saver.py:28 and 92: "log_rank_{rank}_chunk_{count}.mmap" *)
Definition chunk_file (rank count : nat) : string :=
  ("log_rank_" ++ dec rank ++ "_chunk_" ++ dec count ++ ".mmap")%string.

(** log_saver.py:46-53 [_add(log, buffer, idx)]: result buffer, elements added, exception.
    The buffer is a defaultdict, so [buffer[key]] creates missing sub-dictionaries. *)
Fixpoint add_log (log : nd array) (buf : nd array) (idx : nat) {struct log}
  : nd array * nat * option exn :=
  match log with
  | Leaf _ => (buf, 0, Some AttributeError)
  | Node items =>
      (fix go items (buf : nd array) (n : nat) : nd array * nat * option exn :=
         match items with
         | [] => (buf, n, None)
         | (k, v) :: r =>
             match buf with
             | Leaf _ => (buf, n, Some IndexError)           (* ndarray[str] *)
             | Node l =>
                 match v with
                 | Leaf t =>
                     match (let* row := tensor_row t idx in to_numpy row) with
                     | Err e => (buf, n, Some e)
                     | Ok a => go r (Node (dset k (Leaf a) l)) (n + asize a)
                     end
                 | Node _ =>
                     let sub := match dget k l with Some s => s | None => Node [] end in
                     let '(sub', m, ex) := add_log v sub idx in
                     let buf' := Node (dset k sub' l) in
                     match ex with
                     | Some e => (buf', n + m, Some e)
                     | None => go r buf' (n + m)
                     end
                 end
             end
         end) items buf 0
  end.

(** log_saver.py:55-56: the loop over enumerate(data_id). *)
Fixpoint buffer_write_from (log : nd array) (ids : list did) (idx : nat) (s : saver)
  : saver * res unit :=
  match ids with
  | [] => (s, Ok tt)
  | d :: r =>
      let cur := match dget d (s_buffer s) with Some x => x | None => Node [] end in
      let '(b, n, ex) := add_log log cur idx in
      let s' := Saver (s_rank s) (s_workers s) (s_threshold s) (s_path s) (s_count s)
                      (dset d b (s_buffer s)) (s_size s + n) in
      match ex with
      | Some e => (s', Err e)
      | None => buffer_write_from log r (S idx) s'
      end
  end.
(** log_saver.py:39-56 [buffer_write] *)
Definition buffer_write (s : saver) (ids : list did) (log : nd array) : saver * res unit :=
  buffer_write_from log ids 0 s.

(** log_saver.py:120-125 *)
Definition buffer_clear (s : saver) : saver :=
  Saver (s_rank s) (s_workers s) (s_threshold s) (s_path s) (s_count s) [] 0.
Definition incr_count (s : saver) : saver :=
  Saver (s_rank s) (s_workers s) (s_threshold s) (s_path s) (S (s_count s)) (s_buffer s) (s_size s).

(** log_saver.py:63 [[(k, v) for k, v in buffer]]: iterates over the *keys* of the dict and
    unpacks each key into two: a string of two characters unpacks, every other id raises. *)
Definition unpack_key (d : did) : res (string * string) :=
  match d with
  | DStr (String a (String b EmptyString)) => Ok (String a EmptyString, String b EmptyString)
  | DStr _ => Err ValueError
  | DInt _ => Err TypeError
  | DTen _ => Err TypeError
  | DOpaque _ => Err TypeError
  end.

(** log_saver.py:58-67 [_flush_unsafe]. If all keys unpack, the "nested dicts" are one-character
    strings: they contain no array, so MemoryMapHandler.write sees a total size of 0, creates an
    empty data file and raises. *)
Definition flush_unsafe (d : fs) (s : saver) (buf : dict did (nd array)) (count : nat)
  : fs * res unit :=
  match mapM unpack_key (dkeys buf) with
  | Err e => (d, Err e)
  | Ok _ => (dset (data_name (chunk_file (s_rank s) count)) (FData []) d, Err ValueError)
  end.

(** log_saver.py:69-81 [_flush_safe]: the executor is joined on leaving the with-block, the future's
    exception is never retrieved. *)
Definition flush_safe (d : fs) (s : saver) : fs * saver :=
  let buf := s_buffer s in
  let count := s_count s in
  let s' := buffer_clear (incr_count s) in
  (fst (flush_unsafe d s buf count), s').

(** log_saver.py:83-101 [_flush_serialized] *)
Definition flush_serialized (d : fs) (s : saver) : fs * saver * res unit :=
  match s_buffer s with
  | [] => (d, s, Ok tt)
  | buf =>
      match write d (chunk_file (s_rank s) (s_count s)) buf (s_path s) with
      | (d', Err e) => (d', s, Err e)
      | (d', Ok _) => (d', buffer_clear (incr_count s), Ok tt)
      end
  end.

(** log_saver.py:103-112 [flush] *)
Definition flush (d : fs) (s : saver) : fs * saver * res unit :=
  if (0 <? s_threshold s)%Z && (s_threshold s <? Z.of_nat (s_size s))%Z
  then if (1 <? s_workers s)%Z
       then let '(d', s') := flush_safe d s in (d', s', Ok tt)
       else flush_serialized d s
  else (d, s, Ok tt).

(** logger.py:76-79 [save_log] = buffer_write; flush. *)
Definition save_log (d : fs) (s : saver) (ids : list did) (log : nd array) : fs * saver * res unit :=
  match buffer_write s ids log with
  | (s', Err e) => (d, s', Err e)
  | (s', Ok _) => flush d s'
  end.

(** log_saver.py:114-118 [finalize] *)
Definition saver_finalize (d : fs) (s : saver) : fs * saver * res unit := flush_serialized d s.

(** A run of saved batches; the first exception stops it. *)
Fixpoint save_batches (d : fs) (s : saver) (bs : list (list did * nd array)) : fs * saver * res unit :=
  match bs with
  | [] => (d, s, Ok tt)
  | (ids, log) :: r =>
      match save_log d s ids log with
      | (d', s', Ok _) => save_batches d' s' r
      | (d', s', Err e) => (d', s', Err e)
      end
  end.
(** Batches followed by finalize. *)
Definition save_run (d : fs) (s : saver) (bs : list (list did * nd array)) : fs * saver * res unit :=
  match save_batches d s bs with
  | (d', s', Ok _) => saver_finalize d' s'
  | (d', s', Err e) => (d', s', Err e)
  end.

(** ---- several processes sharing one log directory ---- *)
(** One LogSaver per rank (log_saver.py:28 puts the rank in the file name); the ranks' saved batches
    and finalize calls interleave arbitrarily, each call being atomic with respect to the directory
    (ranks write disjoint file names, so finer interleavings reach the same directories). *)
Inductive event := EvBatch (r : nat) (b : list did * nd array) | EvFin (r : nat).
Definition ev_rank (e : event) : nat := match e with EvBatch r _ => r | EvFin r => r end.
Definition upd {A} (f : nat -> A) (r : nat) (x : A) : nat -> A := fun q => if Nat.eqb q r then x else f q.
Definition mp_step (d : fs) (ss : nat -> saver) (e : event) : fs * (nat -> saver) * res unit :=
  let r := ev_rank e in
  let '(d', s', x) := match e with
                      | EvBatch _ b => save_log d (ss r) (fst b) (snd b)
                      | EvFin _ => saver_finalize d (ss r)
                      end in
  (d', upd ss r s', x).
Fixpoint mp_run (d : fs) (ss : nat -> saver) (evs : list event) : fs * (nat -> saver) * res unit :=
  match evs with
  | [] => (d, ss, Ok tt)
  | e :: r => match mp_step d ss e with
              | (d', ss', Ok _) => mp_run d' ss' r
              | (d', ss', Err x) => (d', ss', Err x)
              end
  end.

(** A process that dies inside the write of [_flush_serialized] (log_saver.py:92-97). *)
Definition crash_flush (d : fs) (s : saver) (cp : crash_point) : fs :=
  crash_write d (chunk_file (s_rank s) (s_count s)) (s_buffer s) (s_path s) cp.
