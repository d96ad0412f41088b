(** Specification vocabulary for the storage properties. Independent of the model's helpers:
    it only mentions data (arrays, nested dictionaries, identifiers). *)
From Verif Require Import Py ModelMmap ModelSaver.
Local Open Scope nat_scope.

(** [x[p0][p1]...] *)
Fixpoint at_path {A} (x : nd A) (p : list string) : option (nd A) :=
  match p with
  | [] => Some x
  | k :: r => match x with
              | Leaf _ => None
              | Node l => match dget k l with Some y => at_path y r | None => None end
              end
  end.

(** The paths that watching modules [ms] registers. *)
Definition grad_paths (ms : list string) : list (list string) := map (fun m => [m; "grad"%string]) ms.

(** A per-sample record: one array per watched module, as nested dictionary and as one vector. *)
Definition nested_of (ms : list string) (arrs : list array) : nd array :=
  Node (map (fun ma => (fst ma, Node [("grad"%string, Leaf (snd ma))])) (combine ms arrs)).
Definition total (f : array -> nat) (arrs : list array) : nat := fold_right (fun a n => f a + n) 0 arrs.
Definition flat_of (dt : dtype) (arrs : list array) : array :=
  Arr [total asize arrs] dt (concat (map a_bytes arrs)).

(** Row [i] of a batch tensor of shape [n :: rest]. *)
Definition row (t : array) (i : nat) : array :=
  let rest := tl (a_shape t) in
  let sz := itemsize (a_dtype t) * prod rest in
  Arr rest (a_dtype t) (firstn sz (skipn (i * sz) (a_bytes t))).

(** A logged batch: [n] rows per tensor, two dictionary levels (module, log type). *)
Definition log_leaf (n : nat) (y : nd array) : Prop :=
  exists t rest, y = Leaf t /\ a_shape t = n :: rest /\ arr_wf t /\ a_dtype t <> BF16.
Definition log_module (n : nat) (x : nd array) : Prop :=
  exists lm, x = Node lm /\ NoDup (dkeys lm) /\ Forall (fun kv => log_leaf n (snd kv)) lm.
Definition log_wf (n : nat) (log : nd array) : Prop :=
  exists l, log = Node l /\ NoDup (dkeys l) /\ Forall (fun kv => log_module n (snd kv)) l.

(** The tensor logged for (module, "grad"). *)
Definition grad_tensor (log : nd array) (m : string) : array :=
  match at_path log [m; "grad"%string] with Some (Leaf t) => t | _ => Arr [] F32 [] end.
(** Module [m] has a logged gradient of [n] rows, at least 2 dimensions, element type [dt], no
    empty dimension. *)
Definition has_grad (dt : dtype) (n : nat) (log : nd array) (m : string) : Prop :=
  exists t k rest, at_path log [m; "grad"%string] = Some (Leaf t) /\ a_dtype t = dt /\
    a_shape t = n :: k :: rest /\ 0 < prod (k :: rest).

(** A batch handed to the saver: identifiers and log. It may have more rows than identifiers. *)
Definition batch := (list did * nd array)%type.
Definition json_id (d : did) : Prop := match d with DTen _ | DOpaque _ => False | _ => True end.
Definition batch_ok (ms : list string) (dt : dtype) (b : batch) : Prop :=
  exists n, length (fst b) <= n /\ log_wf n (snd b) /\
    Forall (has_grad dt n (snd b)) ms /\ Forall json_id (fst b).

(** The per-sample gradients of a batch, in identifier order: sample [i] owns row [i] of the
    gradient of every watched module. *)
Definition sample_rows (ms : list string) (log : nd array) (i : nat) : list array :=
  map (fun m => row (grad_tensor log m) i) ms.
Fixpoint samples_from (ms : list string) (log : nd array) (i : nat) (ids : list did)
  : list (did * list array) :=
  match ids with
  | [] => []
  | d :: r => (d, sample_rows ms log i) :: samples_from ms log (S i) r
  end.
Definition batch_samples (ms : list string) (b : batch) : list (did * list array) :=
  samples_from ms (snd b) 0 (fst b).

(** Number of elements one sample of the batch contributes, over all logged tensors. *)
Definition leaf_elems (y : nd array) : nat :=
  match y with Leaf t => prod (tl (a_shape t)) | Node _ => 0 end.
Definition sumf {A} (f : A -> nat) (l : list A) : nat := fold_right (fun x n => f x + n) 0 l.
Definition sample_elems (log : nd array) : nat :=
  match log with
  | Leaf _ => 0
  | Node l => sumf (fun mx => match snd mx with
                              | Leaf _ => 0
                              | Node lm => sumf (fun ky => leaf_elems (snd ky)) lm
                              end) l
  end.
Definition batch_elems (b : batch) : nat := length (fst b) * sample_elems (snd b).

(** Greedy cut of a batch sequence: a group ends with the batch that brings its number of elements
    above a positive threshold. The last group is the remainder (possibly empty). *)
Fixpoint cut_from (thr : Z) (cur : list batch) (sz : nat) (bs : list batch) : list (list batch) :=
  match bs with
  | [] => [cur]
  | b :: r =>
      let sz' := sz + batch_elems b in
      if (0 <? thr)%Z && (thr <? Z.of_nat sz')%Z
      then (cur ++ [b]) :: cut_from thr [] 0 r
      else cut_from thr (cur ++ [b]) sz' r
  end.
Definition cut (thr : Z) (bs : list batch) : list (list batch) := cut_from thr [] 0 bs.

(** Update-or-append of a list of pairs; the first insertion fixes the position, the last value wins. *)
Definition upsert {V} (l : list (did * V)) (x : did * V) : list (did * V) := dset (fst x) (snd x) l.
Definition last_wins {V} (l : list (did * V)) : list (did * V) := fold_left upsert l [].
(** Keep the first pair for each id. *)
Definition first_wins {V} (l : list (did * V)) : list (did * V) :=
  fold_left (fun acc x => if mem (fst x) (map fst acc) then acc else acc ++ [x]) l [].

(** The samples of a group of batches as one chunk stores them. *)
Definition group_samples (ms : list string) (g : list batch) : list (did * list array) :=
  last_wins (concat (map (batch_samples ms) g)).

(** A directory without chunk files. *)
Definition fresh_dir (d : fs) : Prop :=
  NoDup (dkeys d) /\
  forall n, In n (dkeys d) -> ~ exists mid, n = ("log_" ++ mid ++ ".mmap")%string.

(** Sample [x] has a well-formed, non-scalar gradient array of element type [dt] for every watched
    module, namely [arrs] (in watch order). Other logs may be present in [x]. *)
Definition complete (ms : list string) (dt : dtype) (x : nd array) (arrs : list array) : Prop :=
  Forall2 (fun m a => at_path x [m; "grad"%string] = Some (Leaf a) /\ arr_wf a /\
                      a_shape a <> [] /\ a_dtype a = dt) ms arrs.

(** The value of the last pair with key [id]. *)
Fixpoint last_value {V} (id : did) (l : list (did * V)) : option V :=
  match l with
  | [] => None
  | x :: r => match last_value id r with
              | Some v => Some v
              | None => if eqb id (fst x) then Some (snd x) else None
              end
  end.
(** The first defined result. *)
Fixpoint first_some {A B} (f : A -> option B) (l : list A) : option B :=
  match l with
  | [] => None
  | a :: r => match f a with Some b => Some b | None => first_some f r end
  end.

(** Identifiers that are strings of exactly two characters. *)
Definition two_char (d : did) : Prop := exists a b, d = DStr (String a (String b EmptyString)).

(** Number of array elements held by a buffer. *)
Fixpoint nd_elems (x : nd array) : nat :=
  match x with
  | Leaf a => asize a
  | Node l => (fix go l := match l with [] => 0 | (_, v) :: r => nd_elems v + go r end) l
  end.
Definition held (buf : list (did * nd array)) : nat := sumf (fun kv => nd_elems (snd kv)) buf.

(** Sample [x] has a well-formed, non-scalar gradient array for every watched module, namely [arrs];
    element types may differ. *)
Definition recorded (ms : list string) (x : nd array) (arrs : list array) : Prop :=
  Forall2 (fun m a => at_path x [m; "grad"%string] = Some (Leaf a) /\ arr_wf a /\ a_shape a <> []) ms arrs.
(** A sample as logging produces it: module -> log type -> well-formed, non-scalar array. *)
Definition sample_leaf (y : nd array) : Prop := exists a, y = Leaf a /\ arr_wf a /\ a_shape a <> [].
Definition sample_wf (x : nd array) : Prop :=
  exists l, x = Node l /\
    Forall (fun kv => exists lm, snd kv = Node lm /\ Forall (fun kv => sample_leaf (snd kv)) lm) l.
(** Sample [x] has no gradient for module [m]. *)
Definition lacks (x : nd array) (m : string) : Prop :=
  forall a, at_path x [m; "grad"%string] <> Some (Leaf a).
(** Number of bytes of all arrays below [x], of all samples of a buffer. *)
Fixpoint nd_bytes (x : nd array) : nat :=
  match x with
  | Leaf a => nbytes a
  | Node l => (fix go l := match l with [] => 0 | (_, v) :: r => nd_bytes v + go r end) l
  end.
Definition buf_bytes (buf : list (did * nd array)) : nat := sumf (fun kv => nd_bytes (snd kv)) buf.
(** Element type of the last array. *)
Definition last_dtype (arrs : list array) : dtype := last (map a_dtype arrs) F32.
(** [n] bytes of [mm] from [off]. *)
Definition bytes_at (mm : list byte) (off n : nat) : list byte := firstn n (skipn off mm).

(** The batch of samples [c] (same shapes) as one tensor per module. *)
Definition stacked (c : list (did * list array)) (j : nat) : array :=
  let col := map (fun x => nth j (snd x) (Arr [] F32 [])) c in
  Arr (length c :: a_shape (hd (Arr [] F32 []) col)) (a_dtype (hd (Arr [] F32 []) col))
      (concat (map a_bytes col)).

(** The non-empty lists among [ls]. *)
Definition nonempty {A} (ls : list (list A)) : list (list A) :=
  filter (fun l => match l with [] => false | _ => true end) ls.

(** The events of rank [r]. *)
Definition evs_of (r : nat) (evs : list event) : list event := filter (fun e => Nat.eqb (ev_rank e) r) evs.

(** Samples with the same shapes and element types, module by module. *)
Definition uniform (ms : list string) (dt : dtype) (shs : list (list nat)) (l : list (did * list array)) : Prop :=
  length shs = length ms /\ Forall (fun x => map a_shape (snd x) = shs /\ Forall (fun a => a_dtype a = dt) (snd x)) l.

(** the ids of a batch after torch's default collation: a batch that begins with a string keeps its ids, integers become
    tensors *)
Definition torch_ids (l l' : list did) : Prop :=
  (exists s r, l = DStr s :: r /\ l' = l) \/
  (exists zs, zs <> [] /\ l = map DInt zs /\ Forall (fun z => (- 2 ^ 63 <= z < 2 ^ 63)%Z) zs /\ l' = map DTen zs).
