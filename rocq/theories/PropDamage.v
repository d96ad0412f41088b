(** C01, C09, C87, C88: sizes of the files; logs that cannot be stored; damaged log directories (logix/logging/mmap.py, log_saver.py, log_loader.py). *)
From Coq Require Import Permutation.
From Verif Require Import Py PyStr ModelMmap ModelLoader ModelSaver SpecStore SpecDamage SpecSize StoreProofs9 StoreProofs10 StoreProofs12 ExStore.
Local Open Scope nat_scope.

(** C87. Logs that cannot be stored. *)
(** The first tensor whose first row cannot be stored stops the whole batch at its first sample; that sample's record gains nothing
    for the tensor, the other records are untouched, and nothing is written. *)
Theorem C87_row pre m lpre k t lpost post e id ids s :
  let log := pre ++ (m, Node (lpre ++ (k, Leaf t) :: lpost)) :: post in
  any_log log -> Forall (fun kv => module_storable (snd kv)) pre -> module_storable (Node lpre) -> no_row t e ->
  Forall (fun kv => exists l, snd kv = Node l /\ Forall (fun mv => exists lm, snd mv = Node lm) l) (s_buffer s) ->
  exists s' x, buffer_write s (id :: ids) (Node log) = (s', Err e) /\ dget id (s_buffer s') = Some x /\
    at_path x [m; k] = match dget id (s_buffer s) with Some y => at_path y [m; k] | None => None end /\
    (forall j, j <> id -> dget j (s_buffer s') = dget j (s_buffer s)) /\
    forall d, save_log d s (id :: ids) (Node log) = (d, s', Err e).
Proof. exact (buffer_fault pre m lpre k t lpost post e id ids s). Qed.
Print Assumptions C87_row.
(** A buffered scalar makes the write raise; the buffer is kept. *)
Theorem C87_scalar ms d s arrss : ms <> [] -> NoDup ms -> s_path s = grad_paths ms -> 0 < buf_bytes (s_buffer s) ->
  Forall2 (fun x arrs => held_arrays ms (snd x) arrs) (s_buffer s) arrss ->
  (exists arrs a, In arrs arrss /\ In a arrs /\ a_shape a = []) ->
  exists d', flush_serialized d s = (d', s, Err TypeError) /\ after_fault d s d'.
Proof. exact (flush_scalar ms d s arrss). Qed.
Print Assumptions C87_scalar.
(** More bytes to write than the buffer holds, for instance because a module is named twice. *)
Theorem C87_twice ms d s arrss : ms <> [] -> s_path s = grad_paths ms -> 0 < buf_bytes (s_buffer s) ->
  Forall2 (fun x arrs => held_arrays ms (snd x) arrs) (s_buffer s) arrss ->
  Forall (Forall (fun a => a_shape a <> [] /\ nbytes a <> 1)) arrss ->
  buf_bytes (s_buffer s) < sumf (total nbytes) arrss ->
  exists d', flush_serialized d s = (d', s, Err ValueError) /\ after_fault d s d'.
Proof. exact (flush_over ms d s arrss). Qed.
Print Assumptions C87_twice.
(** Nothing but empty arrays: an empty data file that makes the directory unreadable. *)
Theorem C87_empty d s : s_buffer s <> [] -> buf_bytes (s_buffer s) = 0 ->
  exists d', flush_serialized d s = (d', s, Err ValueError) /\ d' = dset (chunk_file (s_rank s) (s_count s)) (FData []) d /\
    forall listing, incl (dkeys d') listing -> exists e, open_dataset d' listing = Err e.
Proof. exact (flush_empty d s). Qed.
Print Assumptions C87_empty.
Example C87_example :
  let lg t := Node [("fc1"%string, Node [("grad"%string, Leaf t1); ("forward"%string, Leaf t)]); ("fc2"%string, Node [("grad"%string, Leaf t2)])] in
  let bf := Arr [2; 2] BF16 [x01; x02; x03; x04; x05; x06; x07; x08] in let sc := Arr [] F16 [x01; x02] in
  let run t := buffer_write s_b1 [DStr "cat"; DStr "dog"] (lg t) in
  let sv ms t := fst (buffer_write (saver_init 0 1 (-1) (grad_paths ms)) [DStr "cat"] (Node [("fc1"%string, Node [("grad"%string, Leaf t)])])) in
  let one := Arr [1] F16 [x01; x02] in let four := Arr [1; 2] F16 [x01; x02; x03; x04] in let none := Arr [1; 0] F16 [] in
  let fl ms t := flush_serialized d0 (sv ms t) in
  any_log [("fc1"%string, Node [("grad"%string, Leaf t1); ("forward"%string, Leaf bf)]); ("fc2"%string, Node [("grad"%string, Leaf t2)])] /\
  module_storable (Node [("grad"%string, Leaf t1)]) /\ no_row bf TypeError /\ no_row sc IndexError /\
  map (fun t => snd (run t)) [bf; sc; t3] = [Err TypeError; Err IndexError; Ok tt] /\
  map (fun t => map fst (s_buffer (fst (run t)))) [bf; t3] = [[DStr "cat"; DInt 7]; [DStr "cat"; DInt 7; DStr "dog"]] /\
  Forall2 (fun x arrs => held_arrays ["fc1"%string] (snd x) arrs) (s_buffer (sv ["fc1"%string] one)) [[Arr [] F16 [x01; x02]]] /\
  snd (fl ["fc1"%string] one) = Err TypeError /\
  Forall2 (fun x arrs => held_arrays ["fc1"; "fc1"]%string (snd x) arrs) (s_buffer (sv ["fc1"; "fc1"]%string four)) [[Arr [2] F16 [x01; x02; x03; x04]; Arr [2] F16 [x01; x02; x03; x04]]] /\
  buf_bytes (s_buffer (sv ["fc1"; "fc1"]%string four)) = 4 /\ snd (fl ["fc1"; "fc1"]%string four) = Err ValueError /\ snd (fl ["fc1"%string] four) = Ok tt /\
  s_buffer (sv ["fc1"%string] none) <> [] /\ buf_bytes (s_buffer (sv ["fc1"%string] none)) = 0 /\ snd (fl ["fc1"%string] none) = Err ValueError /\
  map fst (fst (fst (fl ["fc1"%string] none))) = ["config.yaml"; "log_rank_0_chunk_0.mmap"]%string.
Proof.
  cbv zeta. split.
  { split; [solve_nodup|]. repeat (constructor; [eexists; split; [reflexivity|]; split; [solve_nodup|]; repeat (constructor; [eexists; reflexivity|]); constructor|]). constructor. }
  split.
  { intros k t E. cbn in E. destruct (String.eqb_spec k "grad"); [|discriminate]. cbn in E. injection E as <-. split; [discriminate|]. do 2 eexists. split; [reflexivity|cbn; lia]. }
  split; [right; split; [reflexivity|]; split; [do 2 eexists; reflexivity|reflexivity]|]. split; [left; split; [left; reflexivity|reflexivity]|].
  split; [vm_compute; reflexivity|]. split; [vm_compute; reflexivity|].
  split; [vm_compute; repeat constructor|]. split; [vm_compute; reflexivity|].
  split; [vm_compute; repeat constructor|]. repeat split; try (vm_compute; reflexivity). vm_compute. discriminate.
Qed.

(** C88. Damaged log directories. *)
(** Opening succeeds if every chunk has a non-empty data file and readable metadata. *)
Theorem C88_good d listing (ks : list (nat * nat)) others :
  NoDup ks -> (forall n, In n others -> ~ exists mid, n = ("log_" ++ mid ++ ".mmap")%string) ->
  Permutation listing (map (fun k => chunk_file (fst k) (snd k)) ks ++ others) ->
  (forall k, In k ks -> exists m, chunk_good d k m) ->
  exists ds, open_dataset d listing = Ok ds /\ length (ds_mm ds) = length ks.
Proof. exact (open_all_good d listing ks others). Qed.
Print Assumptions C88_good.
(** Otherwise the first faulty chunk in the order of ranks and chunk numbers decides the exception, in whatever order the files are listed. *)
Theorem C88_first_fault d listing (ks : list (nat * nat)) others k e :
  NoDup ks -> (forall n, In n others -> ~ exists mid, n = ("log_" ++ mid ++ ".mmap")%string) ->
  Permutation listing (map (fun k => chunk_file (fst k) (snd k)) ks ++ others) ->
  In k ks -> chunk_fault d k e -> (forall k', In k' ks -> before k' k -> exists m, chunk_good d k' m) ->
  open_dataset d listing = Err e.
Proof. exact (open_first_bad d listing ks others k e). Qed.
Print Assumptions C88_first_fault.
(** A file log_....mmap that is not numbered makes every directory unreadable. *)
Theorem C88_foreign d listing mid :
  In ("log_" ++ mid ++ ".mmap")%string listing -> ~ numbered ("log_" ++ mid ++ ".mmap")%string -> open_dataset d listing = Err AttributeError.
Proof. exact (open_foreign d listing mid). Qed.
Print Assumptions C88_foreign.
(** A data file cut short after it was written: the directory opens with all identifiers; the records that end before the cut are
    read intact and the others raise, in both views. *)
Theorem C88_truncated ms dt d s arrss : ms <> [] -> NoDup ms -> fresh_dir d ->
  s_path s = grad_paths ms -> s_buffer s <> [] -> NoDup (dkeys (s_buffer s)) ->
  Forall2 (fun x arrs => complete ms dt (snd x) arrs) (s_buffer s) arrss ->
  (exists arrs a, In arrs arrss /\ In a arrs /\ 0 < asize a) ->
  Forall json_id (dkeys (s_buffer s)) ->
  exists d' s' bytes, flush_serialized d s = (d', s', Ok tt) /\ dget (chunk_file (s_rank s) (s_count s)) d' = Some (FData bytes) /\
    forall k listing, 0 < k <= length bytes -> Permutation listing (dkeys d') ->
    exists ds, open_dataset (dset (chunk_file (s_rank s) (s_count s)) (FData (firstn k bytes)) d') listing = Ok ds /\ ds_ids ds = dkeys (s_buffer s) /\
      forall i id arrs, nth_error (dkeys (s_buffer s)) i = Some id -> nth_error arrss i = Some arrs ->
        (sumf (total nbytes) (firstn (S i) arrss) <= k -> get_nested ds i = Ok (id, nested_of ms arrs) /\ get_flat ds i = Ok (id, flat_of dt arrs)) /\
        (k < sumf (total nbytes) (firstn (S i) arrss) -> get_nested ds i = Err TypeError /\ get_flat ds i = Err TypeError).
Proof. exact (truncated ms dt d s arrss). Qed.
Print Assumptions C88_truncated.
(** Indices past the last record raise in both views. *)
Theorem C88_index ds i : ds_len ds <= i -> get_nested ds i = Err IndexError /\ get_flat ds i = Err IndexError.
Proof. exact (index_error ds i). Qed.
Print Assumptions C88_index.
(** Two records of a batch of the log loader that differ in the shape of a module's array. *)
Theorem C88_shapes ds ms k (kept : list (did * list array)) c j : NoDup ms -> 0 < k ->
  all_nested ds = Ok (map (fun x => (fst x, nested_of ms (snd x))) kept) -> all_of ms kept ->
  In c (chunks k kept) -> j < length ms -> disagree j c -> dataloader ds k = Err RuntimeError.
Proof. exact (dataloader_disagree ds ms k kept c j). Qed.
Print Assumptions C88_shapes.
Theorem C88_sizes ds k (kept : list (did * array)) c x y : 0 < k -> all_flat ds = Ok kept ->
  (forall c', In c' (chunks k kept) -> exists ids, torch_ids (map fst c') ids) ->
  In c (chunks k kept) -> In x c -> In y c -> a_shape (snd x) <> a_shape (snd y) -> dataloader_flat ds k = Err RuntimeError.
Proof. exact (dataloader_flat_disagree ds k kept c x y). Qed.
Print Assumptions C88_sizes.
(** A file name without extension is completed in the same way by the writer and by the readers. *)
Theorem C88_bare d f buf order d' : dotless f -> write d f buf order = (d', Ok tt) ->
  exists b bs m, dget (f ++ ".mmap")%string d' = Some (FData (b :: bs)) /\ dget (f ++ "_metadata.json")%string d' = Some (FMeta m) /\
    (forall n, n <> (f ++ ".mmap")%string -> n <> (f ++ "_metadata.json")%string -> dget n d' = dget n d) /\
    read d' f = Ok (b :: bs) /\ read d' (f ++ ".mmap")%string = Ok (b :: bs) /\
    read_metafile d' (f ++ "_metadata")%string = Ok m /\ read_metafile d' (f ++ "_metadata.json")%string = Ok m.
Proof. exact (write_bare d f buf order d'). Qed.
Print Assumptions C88_bare.
Example C88_example :
  let d1 := fst (fst (flush_serialized d0 s_b1)) in
  let f r c := chunk_file r c in let mn r c := meta_name (chunk_file r c) in
  let e0 := Entry (DStr "a") [] 0 [] 0 F16 in
  let three := [(f 0 0, FData [x01]); (mn 0 0, FMeta [e0]); (f 0 2, FData [x01]); (f 1 0, FData []); (mn 1 0, FMeta [])] in
  let opened d := match open_dataset d (rev (dkeys d)) with Ok ds => Ok (ds_ids ds) | Err e => Err e end in
  let cut k := match open_dataset (dset (f 0 0) (FData (firstn k (match dget (f 0 0) d1 with Some (FData b) => b | _ => [] end))) d1) (dkeys d1) with
               | Ok ds => map (fun i => match get_nested ds i with Ok (id, _) => Ok id | Err e => Err e end) [0; 1; 2] | Err e => [Err e] end in
  let mixed := fst (fst (flush_serialized d0 (fst (buffer_write s_b1 [DStr "dog"]
     (Node [("fc1"%string, Node [("grad"%string, Leaf (Arr [1; 3] F16 [x01; x02; x03; x04; x05; x06]))]); ("fc2"%string, Node [("grad"%string, Leaf t2)])]))))) in
  let load k := match open_dataset mixed (dkeys mixed) with Ok ds => (match dataloader ds k with Ok l => Ok (map fst l) | Err e => Err e end, match dataloader_flat ds k with Ok l => Ok (map fst l) | Err e => Err e end) | Err e => (Err e, Err e) end in
  NoDup [(0, 0); (0, 2); (1, 0)] /\ chunk_good three (0, 0) [e0] /\ chunk_fault three (0, 2) FileNotFoundError /\ chunk_fault three (1, 0) ValueError /\ before (0, 0) (0, 2) /\
  opened three = Err FileNotFoundError /\
  opened (dset (mn 0 2) FBroken three) = Err JSONDecodeError /\ opened (dset (mn 0 2) (FMeta []) three) = Err ValueError /\
  opened (dset (f 1 0) (FData [x02]) (dset (mn 0 2) (FMeta []) three)) = Ok [DStr "a"] /\
  ~ numbered "log_backup.mmap" /\ opened (("log_backup.mmap"%string, FData [x01]) :: d1) = Err AttributeError /\ opened (("backup.mmap"%string, FData []) :: d1) = Ok [DStr "cat"; DInt 7] /\
  map cut [12; 11; 5; 0] = [[Ok (DStr "cat"); Ok (DInt 7); Err IndexError]; [Ok (DStr "cat"); Err TypeError; Err IndexError]; [Err TypeError; Err TypeError; Err IndexError]; [Err ValueError]] /\
  load 3 = (Err RuntimeError, Err RuntimeError) /\ load 2 = (Ok [[DStr "cat"; DInt 7]; [DStr "dog"]], Ok [[DStr "cat"; DInt 7]; [DStr "dog"]]) /\
  dotless "part" /\ match write d0 "part" (s_buffer s_b1) (grad_paths ms2) with (d', r) => r = Ok tt /\ map fst d' = ["config.yaml"; "part.mmap"; "part_metadata.json"]%string end.
Proof.
  cbv zeta. split; [repeat constructor; cbn; intuition congruence|]. split; [split; [do 2 eexists; reflexivity|reflexivity]|].
  split; [right; do 2 eexists; split; [reflexivity|]; left; split; reflexivity|]. split; [left; split; reflexivity|]. split; [right; split; [reflexivity|cbn; lia]|].
  do 4 (split; [vm_compute; reflexivity|]). split.
  { intros (a & r & c & b & _ & _ & E). pose proof (contains_mid "rank_" a (r ++ "_chunk_" ++ c ++ b)) as C. rewrite <- E in C. vm_compute in C. discriminate. }
  repeat split; try (vm_compute; reflexivity). discriminate.
Qed.

(** C01. A chunk's data file holds the arrays of the buffer and nothing else: its size is theirs. *)
Theorem C01_file_size d s d' s' : s_buffer s <> [] -> flush_serialized d s = (d', s', Ok tt) ->
  exists bs, dget (data_name (chunk_file (s_rank s) (s_count s))) d' = Some (FData bs) /\
    8 * length bs = sum_nat (map (fun a => bits (a_dtype a) * prod (a_shape a)) (concat (map (fun x : did * nd array => arrays_of (snd x)) (s_buffer s)))).
Proof. exact (chunk_size d s d' s'). Qed.
Print Assumptions C01_file_size.
(** C09. A crash while the metadata is written leaves the same directory as a completed flush, with an unreadable metadata file. *)
Theorem C09_crash_meta d s d' s' n : s_buffer s <> [] -> flush_serialized d s = (d', s', Ok tt) ->
  dget n (crash_flush d s CrashMeta) = if String.eqb n (meta_name (chunk_file (s_rank s) (s_count s))) then Some FBroken else dget n d'.
Proof. exact (crash_meta d s d' s' n). Qed.
Print Assumptions C09_crash_meta.
Example C01_file_size_example : s_buffer s_b1 <> [] /\ snd (flush_serialized d0 s_b1) = Ok tt /\ data_name (chunk_file (s_rank s_b1) (s_count s_b1)) = "log_rank_0_chunk_0.mmap"%string /\
  (exists bs, dget "log_rank_0_chunk_0.mmap"%string (fst (fst (flush_serialized d0 s_b1))) = Some (FData bs) /\ dget "log_rank_0_chunk_0.mmap"%string (crash_flush d0 s_b1 CrashMeta) = Some (FData bs) /\ 0 < length bs) /\
  dget "log_rank_0_chunk_0_metadata.json"%string (crash_flush d0 s_b1 CrashMeta) = Some FBroken.
Proof. split; [vm_compute; discriminate|]. do 2 (split; [vm_compute; reflexivity|]). split; [eexists; vm_compute; repeat split; auto with arith|vm_compute; reflexivity]. Qed.
