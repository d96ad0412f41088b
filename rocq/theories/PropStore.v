(** Storage properties C01-C16. Vocabulary: SpecStore.v. *)
From Coq Require Import Permutation Sorted.
From Verif Require Import Py PyStr ModelMmap ModelLoader ModelSaver SpecStore ExStore
  StoreProofs3 StoreProofs4 StoreProofs5 StoreProofs6 StoreProofs7 StoreProofs8.
Local Open Scope nat_scope.

(** C01. A flush of complete records into a directory without chunks, read back at every index. *)
Theorem C01_flush_roundtrip ms dt d s arrss :
  ms <> [] -> NoDup ms -> fresh_dir d ->
  s_path s = grad_paths ms -> s_buffer s <> [] -> NoDup (dkeys (s_buffer s)) ->
  Forall2 (fun x arrs => complete ms dt (snd x) arrs) (s_buffer s) arrss ->
  (exists arrs a, In arrs arrss /\ In a arrs /\ 0 < asize a) ->
  Forall json_id (dkeys (s_buffer s)) ->
  exists d' s', flush_serialized d s = (d', s', Ok tt) /\ s_buffer s' = [] /\
    forall listing, Permutation listing (dkeys d') ->
    exists ds, open_dataset d' listing = Ok ds /\
      ds_ids ds = dkeys (s_buffer s) /\
      forall i id arrs, nth_error (dkeys (s_buffer s)) i = Some id -> nth_error arrss i = Some arrs ->
        get_nested ds i = Ok (id, nested_of ms arrs) /\ get_flat ds i = Ok (id, flat_of dt arrs).
Proof. exact (flush_roundtrip ms dt d s arrss). Qed.
Print Assumptions C01_flush_roundtrip.
Example C01_example :
  ms2 <> [] /\ NoDup ms2 /\ fresh_dir d0 /\ s_path s_b1 = grad_paths ms2 /\ s_buffer s_b1 <> [] /\
  NoDup (dkeys (s_buffer s_b1)) /\
  Forall2 (fun x arrs => complete ms2 F16 (snd x) arrs) (s_buffer s_b1) arrss_b1 /\
  (exists arrs a, In arrs arrss_b1 /\ In a arrs /\ 0 < asize a) /\
  Forall json_id (dkeys (s_buffer s_b1)).
Proof.
  repeat split; try discriminate; try exact ms2_nodup; try apply d0_fresh; try exact b1_complete.
  - repeat constructor; cbn; intuition discriminate.
  - do 2 eexists. split; [left; reflexivity|]. split; [left; reflexivity|]. cbn. lia.
  - repeat constructor.
Qed.

(** C02. Distinct identifiers, synchronous writer: nothing is lost, whatever the threshold. *)
Theorem C02_no_loss_sync ms dt rank w thr d bs :
  ms <> [] -> NoDup ms -> fresh_dir d -> (w <= 1)%Z -> Forall (batch_ok ms dt) bs ->
  NoDup (concat (map fst bs)) ->
  exists d' s', save_run d (saver_init rank w thr (grad_paths ms)) bs = (d', s', Ok tt) /\
  forall listing, Permutation listing (dkeys d') ->
  exists ds, open_dataset d' listing = Ok ds /\
    let saved := concat (map (batch_samples ms) bs) in
    all_nested ds = Ok (map (fun x => (fst x, nested_of ms (snd x))) saved) /\
    all_flat ds = Ok (map (fun x => (fst x, flat_of dt (snd x))) saved) /\
    ds_ids ds = concat (map fst bs).
Proof. exact (no_loss_sync ms dt rank w thr d bs). Qed.
Print Assumptions C02_no_loss_sync.
Example C02_example : Forall (batch_ok ms2 F16) [b1; b2; b3] /\ NoDup (concat (map fst [b1; b2; b3])) /\
  (* threshold 10: the run really flushes in between *)
  length (cut 10 [b1; b2; b3]) = 3.
Proof.
  split; [repeat constructor; [exact b1_ok|exact b2_ok|exact b3_ok]|].
  split; [repeat constructor; cbn; intuition discriminate|reflexivity].
Qed.

(** C03. Repeated identifiers: the value read is the last one written before the end of the first
    chunk that contains the identifier. *)
Theorem C03_repeated_ids ms dt rank w thr d bs :
  ms <> [] -> NoDup ms -> fresh_dir d -> (w <= 1)%Z -> Forall (batch_ok ms dt) bs ->
  exists d' s', save_run d (saver_init rank w thr (grad_paths ms)) bs = (d', s', Ok tt) /\
  forall listing, Permutation listing (dkeys d') ->
  exists ds vals, open_dataset d' listing = Ok ds /\
    all_nested ds = Ok (map (fun x => (fst x, nested_of ms (snd x))) vals) /\
    NoDup (map fst vals) /\
    (forall id, In id (map fst vals) <-> In id (concat (map fst bs))) /\
    (forall id, dget id vals
       = first_some (fun g => last_value id (concat (map (batch_samples ms) g))) (cut thr bs)).
Proof. exact (repeated_ids ms dt rank w thr d bs). Qed.
Print Assumptions C03_repeated_ids.
Example C03_example : Forall (batch_ok ms2 F16) [b1; bx] /\ ~ NoDup (concat (map fst [b1; bx])).
Proof.
  split; [repeat constructor; [exact b1_ok|exact bx_ok]|].
  cbn. intros H. inversion H; subst. apply H2. cbn. auto.
Qed.
(** Flush transparency fails for repeated identifiers: the same batches, two thresholds, two values. *)
Theorem C03_transparency_refuted :
  exists bs, Forall (batch_ok ms2 F16) bs /\
  let run thr := let '(d', _, _) := save_run d0 (saver_init 0 1 thr (grad_paths ms2)) bs in
                 let* ds := open_dataset d' (dkeys d') in all_nested ds in
  exists x y, run (-1)%Z = Ok x /\ run 1%Z = Ok y /\ dkeys x = dkeys y /\
    dget (DStr "cat") x <> dget (DStr "cat") y.
Proof. exact transparency_refuted. Qed.
Print Assumptions C03_transparency_refuted.

(** C04. Asynchronous writer: exactly the samples after the last threshold crossing survive. *)
Theorem C04_async_discards ms dt rank w thr d bs :
  ms <> [] -> NoDup ms -> fresh_dir d -> (1 < w)%Z -> Forall (batch_ok ms dt) bs ->
  (forall g, In g (removelast (cut thr bs)) -> Exists (fun id => ~ two_char id) (concat (map fst g))) ->
  exists d' s', save_run d (saver_init rank w thr (grad_paths ms)) bs = (d', s', Ok tt) /\
  forall listing, Permutation listing (dkeys d') ->
  exists ds, open_dataset d' listing = Ok ds /\
    let kept := group_samples ms (last (cut thr bs) []) in
    all_nested ds = Ok (map (fun x => (fst x, nested_of ms (snd x))) kept) /\
    ds_ids ds = map fst kept.
Proof. exact (async_discards ms dt rank w thr d bs). Qed.
Print Assumptions C04_async_discards.
Example C04_example : Forall (batch_ok ms2 F16) [b1; b2] /\
  (forall g, In g (removelast (cut 10 [b1; b2])) -> Exists (fun id => ~ two_char id) (concat (map fst g))) /\
  map fst (group_samples ms2 (last (cut 10 [b1; b2]) [])) = [DStr "dog"].
Proof.
  split; [repeat constructor; [exact b1_ok|exact b2_ok]|]. split; [|reflexivity].
  intros g [<-|[]]. cbn. left. intros (a & b & E). discriminate.
Qed.
(** If all buffered identifiers are two-character strings the flush instead leaves an empty data file,
    still raises nothing, and the directory can no longer be opened. *)
Theorem C04_async_two_char d s b s1 : (1 < s_workers s)%Z ->
  buffer_write s (fst b) (snd b) = (s1, Ok tt) ->
  (0 < s_threshold s1 < Z.of_nat (s_size s1))%Z -> Forall two_char (dkeys (s_buffer s1)) ->
  s_workers s1 = s_workers s ->
  exists d' s', save_log d s (fst b) (snd b) = (d', s', Ok tt) /\
    forall listing, incl (dkeys d') listing -> exists e, open_dataset d' listing = Err e.
Proof. exact (async_two_char d s b s1). Qed.
Print Assumptions C04_async_two_char.
Example C04_two_char_example :
  let s := saver_init 0 4 1 (grad_paths ms2) in
  let s1 := fst (buffer_write s [DStr "17"; DStr "18"] log2) in
  buffer_write s [DStr "17"; DStr "18"] log2 = (s1, Ok tt) /\
  (0 < s_threshold s1 < Z.of_nat (s_size s1))%Z /\ Forall two_char (dkeys (s_buffer s1)).
Proof.
  split; [reflexivity|]. split; [vm_compute; auto|]. cbn. repeat constructor; do 2 eexists; reflexivity.
Qed.

(** C05. File names: writer and reader agree for every rank and chunk number. *)
Theorem C05_names_agree r c :
  let n := chunk_file r c in
  is_chunk_file n = true /\
  extract_rank_and_chunk (chunk_index_of n) = Ok (r, c) /\
  ("log_" ++ chunk_index_of n ++ ".mmap")%string = data_name n /\
  ("log_" ++ chunk_index_of n ++ "_metadata.json")%string = meta_name n.
Proof. exact (names_agree r c). Qed.
Print Assumptions C05_names_agree.
Example C05_example : chunk_file 12 305 = "log_rank_12_chunk_305.mmap"%string.
Proof. reflexivity. Qed.
(** Chunks are visited in numeric (rank, chunk) order for every listing order. *)
Theorem C05_chunk_order (ks : list (nat * nat)) (others listing : list string) :
  NoDup ks -> (forall n, In n others -> ~ exists mid, n = ("log_" ++ mid ++ ".mmap")%string) ->
  Permutation listing (map (fun k => chunk_file (fst k) (snd k)) ks ++ others) ->
  exists sorted, Permutation ks sorted /\
    StronglySorted (fun a b => fst a < fst b \/ (fst a = fst b /\ snd a < snd b)) sorted /\
    find_chunk_indices listing
    = Ok (map (fun k => chunk_index_of (chunk_file (fst k) (snd k))) sorted).
Proof. exact (chunk_order ks others listing). Qed.
Print Assumptions C05_chunk_order.
Example C05_order_example :
  find_chunk_indices ["log_rank_10_chunk_0.mmap"; "log_rank_2_chunk_10.mmap"; "config.yaml"; "log_rank_2_chunk_9.mmap"]%string
  = Ok ["rank_2_chunk_9"; "rank_2_chunk_10"; "rank_10_chunk_0"]%string.
Proof. reflexivity. Qed.

(** C06. Several ranks, any interleaving of their saves: rank-ordered concatenation. *)
Theorem C06_multi_rank ms dt R d (w : nat -> Z) (thr : nat -> Z) (hist : nat -> list batch) evs :
  ms <> [] -> NoDup ms -> fresh_dir d -> (forall r, (w r <= 1)%Z) ->
  (forall r, r < R -> Forall (batch_ok ms dt) (hist r)) ->
  (forall e, In e evs -> ev_rank e < R) ->
  (forall r, r < R -> evs_of r evs = map (EvBatch r) (hist r) ++ [EvFin r]) ->
  NoDup (concat (map (fun r => concat (map fst (hist r))) (seq 0 R))) ->
  exists d' ss', mp_run d (fun r => saver_init r (w r) (thr r) (grad_paths ms)) evs = (d', ss', Ok tt) /\
  forall listing, Permutation listing (dkeys d') ->
  exists ds, open_dataset d' listing = Ok ds /\
    all_nested ds = Ok (map (fun x => (fst x, nested_of ms (snd x)))
                            (concat (map (fun r => concat (map (batch_samples ms) (hist r))) (seq 0 R)))) /\
    ds_ids ds = concat (map (fun r => concat (map fst (hist r))) (seq 0 R)).
Proof. exact (multi_rank_distinct ms dt R d w thr hist evs). Qed.
Print Assumptions C06_multi_rank.
Example C06_example :
  let hist r := match r with 0 => [b1] | _ => [b2; b3] end in
  let evs := [EvBatch 1 b2; EvBatch 0 b1; EvBatch 1 b3; EvFin 0; EvFin 1] in
  (forall r, r < 2 -> Forall (batch_ok ms2 F16) (hist r)) /\
  (forall e, In e evs -> ev_rank e < 2) /\
  (forall r, r < 2 -> evs_of r evs = map (EvBatch r) (hist r) ++ [EvFin r]) /\
  NoDup (concat (map (fun r => concat (map fst (hist r))) (seq 0 2))).
Proof.
  cbn zeta. split.
  { intros [|[|r]] H; [repeat constructor; exact b1_ok|repeat constructor; [exact b2_ok|exact b3_ok]|lia]. }
  split; [intros e H; cbn in H; intuition (subst; cbn; lia)|].
  split; [intros [|[|r]] H; [reflexivity|reflexivity|lia]|].
  repeat constructor; cbn; intuition discriminate.
Qed.

(** C07. Mixed element types: everything comes back with the element type of the last module, so a
    record is read back as written only if all its element types agree. *)
Theorem C07_mixed_dtypes ms d s arrss : ms <> [] -> NoDup ms -> fresh_dir d ->
  s_path s = grad_paths ms -> s_buffer s <> [] -> NoDup (dkeys (s_buffer s)) ->
  0 < buf_bytes (s_buffer s) ->
  Forall2 (fun x arrs => recorded ms (snd x) arrs) (s_buffer s) arrss ->
  Forall json_id (dkeys (s_buffer s)) ->
  exists d' s', flush_serialized d s = (d', s', Ok tt) /\
  forall listing, Permutation listing (dkeys d') ->
  exists ds, open_dataset d' listing = Ok ds /\
  forall i id arrs, nth_error (dkeys (s_buffer s)) i = Some id -> nth_error arrss i = Some arrs ->
    (forall x, get_flat ds i = Ok x ->
       fst x = id /\ a_dtype (snd x) = last_dtype arrs /\ a_shape (snd x) = [total asize arrs] /\
       length (a_bytes (snd x)) = total asize arrs * itemsize (last_dtype arrs)) /\
    (forall x, get_nested ds i = Ok x ->
       forall p a, at_path (snd x) p = Some (Leaf a) -> a_dtype a = last_dtype arrs) /\
    (get_nested ds i = Ok (id, nested_of ms arrs) -> Forall (fun a => a_dtype a = last_dtype arrs) arrs).
Proof. exact (mixed_dtypes ms d s arrss). Qed.
Print Assumptions C07_mixed_dtypes.
(** For two modules of different item size the bytes covered never number the bytes written. *)
Theorem C07_two_dtypes_count a b : itemsize (a_dtype a) <> itemsize (a_dtype b) -> 0 < asize a ->
  total asize [a; b] * itemsize (last_dtype [a; b]) <> total nbytes [a; b].
Proof. exact (two_dtypes_count a b). Qed.
Print Assumptions C07_two_dtypes_count.
Example C07_example :
  s_path s_m = grad_paths ms2 /\ s_buffer s_m <> [] /\ NoDup (dkeys (s_buffer s_m)) /\
  0 < buf_bytes (s_buffer s_m) /\
  Forall2 (fun x arrs => recorded ms2 (snd x) arrs) (s_buffer s_m) arrss_m /\
  Forall json_id (dkeys (s_buffer s_m)) /\
  (let '(d', _, _) := flush_serialized d0 s_m in
   let* ds := open_dataset d' (dkeys d') in get_flat ds 0)
  = Ok (DStr "cat", Arr [2] F16 [x01; x02; x03; x04]).
Proof.
  repeat split; try discriminate; try exact m_recorded.
  - repeat constructor; cbn; auto.
  - cbn. lia.
  - repeat constructor.
Qed.

(** C08. Logs other than the watched modules' gradients never reach the dataset. *)
Theorem C08_only_grads ms dt rank w thr thr2 d bs bs2 :
  ms <> [] -> NoDup ms -> fresh_dir d -> (w <= 1)%Z ->
  Forall (batch_ok ms dt) bs -> Forall (batch_ok ms dt) bs2 -> NoDup (concat (map fst bs)) ->
  Forall2 (fun b b2 => fst b = fst b2 /\
    forall m, In m ms -> grad_tensor (snd b) m = grad_tensor (snd b2) m) bs bs2 ->
  exists d1 s1 d2 s2,
    save_run d (saver_init rank w thr (grad_paths ms)) bs = (d1, s1, Ok tt) /\
    save_run d (saver_init rank w thr2 (grad_paths ms)) bs2 = (d2, s2, Ok tt) /\
  exists ds1 ds2 saved,
    open_dataset d1 (dkeys d1) = Ok ds1 /\ open_dataset d2 (dkeys d2) = Ok ds2 /\
    all_nested ds1 = Ok saved /\ all_nested ds2 = Ok saved /\
    forall id x, In (id, x) saved -> exists arrs, length arrs = length ms /\ x = nested_of ms arrs.
Proof. exact (only_grads ms dt rank w thr thr2 d bs bs2). Qed.
Print Assumptions C08_only_grads.
Example C08_example :
  Forall2 (fun b b2 => fst b = fst b2 /\
    forall m, In m ms2 -> grad_tensor (snd b) m = grad_tensor (snd b2) m) [b1; b2] [b1'; b2'] /\
  Forall (batch_ok ms2 F16) [b1; b2] /\ Forall (batch_ok ms2 F16) [b1'; b2'] /\ snd b1 <> snd b1'.
Proof.
  split.
  { repeat constructor; intros m [<-|[<-|[]]]; reflexivity. }
  split; [repeat constructor; [exact b1_ok|exact b2_ok]|].
  split; [repeat constructor; [exact b1'_ok|exact b2'_ok]|discriminate].
Qed.
(** A sample without the gradient of some watched module: the flush raises AttributeError, keeps the
    buffer, and leaves a data file without metadata, so the directory cannot be opened any more. *)
Theorem C08_missing_grad ms d s : ms <> [] -> NoDup ms -> s_path s = grad_paths ms ->
  0 < buf_bytes (s_buffer s) -> Forall (fun kv => sample_wf (snd kv)) (s_buffer s) ->
  Exists (fun kv => Exists (lacks (snd kv)) ms) (s_buffer s) ->
  exists d', flush_serialized d s = (d', s, Err AttributeError) /\
    (exists mm, dget (chunk_file (s_rank s) (s_count s)) d' = Some (FData mm)) /\
    (dget (meta_name (chunk_file (s_rank s) (s_count s))) d = None ->
     forall listing, incl (dkeys d') listing -> exists e, open_dataset d' listing = Err e).
Proof. exact (missing_grad ms d s). Qed.
Print Assumptions C08_missing_grad.
Example C08_missing_example :
  s_path s_f = grad_paths ms2 /\ 0 < buf_bytes (s_buffer s_f) /\
  Forall (fun kv => sample_wf (snd kv)) (s_buffer s_f) /\
  Exists (fun kv => Exists (lacks (snd kv)) ms2) (s_buffer s_f).
Proof.
  split; [reflexivity|]. split; [cbn; lia|]. split; [exact f_wf|].
  cbn. left. left. intros a. discriminate.
Qed.

(** C09. Crash during the next flush after any synchronous history. *)
Theorem C09_crash_consistency ms dt rank w thr d bs b d1 s1 s2 :
  ms <> [] -> NoDup ms -> fresh_dir d -> (w <= 1)%Z -> Forall (batch_ok ms dt) (bs ++ [b]) ->
  NoDup (concat (map fst (bs ++ [b]))) ->
  (forall c, ~ In (meta_name (chunk_file rank c)) (dkeys d)) ->
  save_batches d (saver_init rank w thr (grad_paths ms)) bs = (d1, s1, Ok tt) ->
  buffer_write s1 (fst b) (snd b) = (s2, Ok tt) -> s_buffer s2 <> [] ->
  exists old : list batch,
   (exists new, bs = old ++ new) /\
   forall cp listing, Permutation listing (dkeys (crash_flush d1 s2 cp)) ->
    match cp with
    | CrashBefore => exists ds, open_dataset (crash_flush d1 s2 cp) listing = Ok ds /\
        all_nested ds = Ok (map (fun x => (fst x, nested_of ms (snd x))) (concat (map (batch_samples ms) old)))
    | CrashAfter => exists ds, open_dataset (crash_flush d1 s2 cp) listing = Ok ds /\
        all_nested ds = Ok (map (fun x => (fst x, nested_of ms (snd x))) (concat (map (batch_samples ms) (bs ++ [b]))))
    | CrashData _ | CrashMeta => exists e, open_dataset (crash_flush d1 s2 cp) listing = Err e
    end.
Proof. exact (crash_consistency ms dt rank w thr d bs b d1 s1 s2). Qed.
Print Assumptions C09_crash_consistency.
Example C09_example :
  (let '(d1, s1, r) := save_batches d0 (saver_init 0 1 10 (grad_paths ms2)) [b1; b2] in
   let (s2, r2) := buffer_write s1 (fst b3) (snd b3) in
   (r, r2, map fst (s_buffer s2), dkeys d1))
  = (Ok tt, Ok tt, [DStr "dog"; DInt 9; DStr "cow"],
     ["config.yaml"; "log_rank_0_chunk_0.mmap"; "log_rank_0_chunk_0_metadata.json"]%string) /\
  Forall (batch_ok ms2 F16) ([b1; b2] ++ [b3]) /\ NoDup (concat (map fst ([b1; b2] ++ [b3]))).
Proof.
  split; [vm_compute; reflexivity|]. split.
  - repeat constructor; [exact b1_ok|exact b2_ok|exact b3_ok].
  - repeat constructor; cbn; intuition discriminate.
Qed.
(** If an earlier run left a chunk of the same name, a crash between the two files is not even
    detected: the dataset opens and returns wrong bytes under the old identifiers. *)
Theorem C09_rerun_crash_refuted :
  exists d1 s1 s2 ds id x,
    save_run d0 (saver_init 0 1 (-1) (grad_paths ms2)) [b1] = (d1, s1, Ok tt) /\
    buffer_write (saver_init 0 1 (-1) (grad_paths ms2)) (fst b3) log2x = (s2, Ok tt) /\
    ~ In id (fst b3) /\
    let mm := fst (write_samples (s_path s2) (s_buffer s2) (repeat x00 (total_size (s_buffer s2))) 0 []) in
    open_dataset (crash_flush d1 s2 (CrashData mm)) (dkeys (crash_flush d1 s2 (CrashData mm))) = Ok ds /\
    get_nested ds 0 = Ok (id, x) /\
    x <> nested_of ms2 (sample_rows ms2 log2 0) /\ x = nested_of ms2 (sample_rows ms2 log2x 0).
Proof. exact rerun_crash_refuted. Qed.
Print Assumptions C09_rerun_crash_refuted.

(** C10. A second run in the same directory. *)
Theorem C10_rerun ms dt rank w thr d bs w2 thr2 bs2 :
  ms <> [] -> NoDup ms -> fresh_dir d -> (w <= 1)%Z -> (w2 <= 1)%Z ->
  Forall (batch_ok ms dt) bs -> Forall (batch_ok ms dt) bs2 ->
  exists d1 s1, save_run d (saver_init rank w thr (grad_paths ms)) bs = (d1, s1, Ok tt) /\
  exists d2 s2, save_run d1 (saver_init rank w2 thr2 (grad_paths ms)) bs2 = (d2, s2, Ok tt) /\
  forall listing, Permutation listing (dkeys d2) ->
  exists ds, open_dataset d2 listing = Ok ds /\
    let old := nonempty (map (group_samples ms) (cut thr bs)) in
    let new := nonempty (map (group_samples ms) (cut thr2 bs2)) in
    let kept := first_wins (concat (new ++ skipn (length new) old)) in
    all_nested ds = Ok (map (fun x => (fst x, nested_of ms (snd x))) kept) /\
    ds_ids ds = map fst kept.
Proof. exact (rerun ms dt rank w thr d bs w2 thr2 bs2). Qed.
Print Assumptions C10_rerun.
(** ... which is the new run alone iff the surviving old chunks add no new identifier. *)
Theorem C10_rerun_clean (new old : list (list (did * list array))) :
  first_wins (concat (new ++ skipn (length new) old)) = first_wins (concat new) <->
  incl (map fst (concat (skipn (length new) old))) (map fst (concat new)).
Proof. exact (rerun_clean new old). Qed.
Print Assumptions C10_rerun_clean.
Example C10_example :
  let old := nonempty (map (group_samples ms2) (cut 10 [b1; b2; b3])) in
  let new := nonempty (map (group_samples ms2) (cut (-1) [b2])) in
  map fst (first_wins (concat (new ++ skipn (length new) old))) = [DStr "dog"; DInt 9; DStr "cow"].
Proof. reflexivity. Qed.

(** C11. The buffer is bounded by the threshold after every saved batch. *)
Theorem C11_bounded_buffer rank w thr path d bs d' s' r :
  save_batches d (saver_init rank w thr path) bs = (d', s', r) ->
  held (s_buffer s') <= s_size s' /\
  (r = Ok tt -> (0 < thr)%Z -> (Z.of_nat (s_size s') <= thr)%Z).
Proof. exact (bounded_buffer rank w thr path d bs d' s' r). Qed.
Print Assumptions C11_bounded_buffer.
Example C11_example : (* one batch stays, the next crosses the threshold *)
  let '(_, s1, _) := save_batches d0 (saver_init 0 1 13 (grad_paths ms2)) [b1] in
  let '(_, s2, _) := save_batches d0 (saver_init 0 1 13 (grad_paths ms2)) [b1; b2] in
  let '(_, s3, _) := save_batches d0 (saver_init 0 1 13 (grad_paths ms2)) [b1; b2; b3] in
  (s_size s1, held (s_buffer s1), s_size s2, s_size s3) = (12, 12, 0, 6).
Proof. vm_compute. reflexivity. Qed.

(** C12. Layout of a chunk. *)
Theorem C12_layout ms d s arrss : ms <> [] -> NoDup ms ->
  s_path s = grad_paths ms -> s_buffer s <> [] -> 0 < buf_bytes (s_buffer s) ->
  Forall2 (fun x arrs => recorded ms (snd x) arrs) (s_buffer s) arrss ->
  Forall json_id (dkeys (s_buffer s)) ->
  exists d' s' mm meta, flush_serialized d s = (d', s', Ok tt) /\
    dget (chunk_file (s_rank s) (s_count s)) d' = Some (FData mm) /\
    dget (meta_name (chunk_file (s_rank s) (s_count s))) d' = Some (FMeta meta) /\
    length mm = buf_bytes (s_buffer s) /\
    map e_id meta = dkeys (s_buffer s) /\
    forall i e, nth_error meta i = Some e -> exists arrs, nth_error arrss i = Some arrs /\
      e_offset e = sumf (total nbytes) (firstn i arrss) /\
      e_offset e + total nbytes arrs <= length mm /\
      e_shape e = map a_shape arrs /\ e_path e = grad_paths ms /\
      bytes_at mm (e_offset e) (total nbytes arrs) = concat (map a_bytes arrs).
Proof. exact (layout ms d s arrss). Qed.
Print Assumptions C12_layout.
Example C12_example :
  s_path s_b1 = grad_paths ms2 /\ 0 < buf_bytes (s_buffer s_b1) /\
  Forall2 (fun x arrs => recorded ms2 (snd x) arrs) (s_buffer s_b1) arrss_b1 /\
  map (fun i => sumf (total nbytes) (firstn i arrss_b1)) [0; 1; 2] = [0; 6; 12].
Proof. split; [reflexivity|]. split; [cbn; lia|]. split; [exact b1_recorded|reflexivity]. Qed.

(** C13. An identifier JSON cannot represent. *)
Theorem C13_unserialisable ms d s arrss : ms <> [] -> NoDup ms ->
  s_path s = grad_paths ms -> 0 < buf_bytes (s_buffer s) ->
  Forall2 (fun x arrs => recorded ms (snd x) arrs) (s_buffer s) arrss ->
  Exists (fun id => ~ json_id id) (dkeys (s_buffer s)) ->
  exists d', flush_serialized d s = (d', s, Err TypeError) /\
    (exists mm, dget (chunk_file (s_rank s) (s_count s)) d' = Some (FData mm)) /\
    forall listing, incl (dkeys d') listing -> exists e, open_dataset d' listing = Err e.
Proof. exact (unserialisable ms d s arrss). Qed.
Print Assumptions C13_unserialisable.
Example C13_example :
  s_path s_t = grad_paths ms2 /\ 0 < buf_bytes (s_buffer s_t) /\
  Forall2 (fun x arrs => recorded ms2 (snd x) arrs) (s_buffer s_t) arrss_t /\
  Exists (fun id => ~ json_id id) (dkeys (s_buffer s_t)).
Proof. split; [reflexivity|]. split; [cbn; lia|]. split; [exact t_recorded|]. cbn. left. cbn. auto. Qed.

(** C14. Whenever the nested view of a record exists, the flattened view is its concatenation. *)
Theorem C14_views_agree ds i id chunk e ms x : NoDup ms ->
  nth_error (ds_map ds) i = Some (id, (chunk, e)) -> e_path e = grad_paths ms ->
  get_nested ds i = Ok x ->
  exists arrs, length arrs = length ms /\ Forall (fun a => a_dtype a = e_dtype e) arrs /\
    x = (id, nested_of ms arrs) /\ get_flat ds i = Ok (id, flat_of (e_dtype e) arrs).
Proof. exact (views_agree ds i id chunk e ms x). Qed.
Print Assumptions C14_views_agree.
Example C14_example :
  let '(d', _, _) := flush_serialized d0 s_b1 in
  exists ds chunk e x, open_dataset d' (dkeys d') = Ok ds /\
    nth_error (ds_map ds) 1 = Some (DInt 7, (chunk, e)) /\ e_path e = grad_paths ms2 /\
    get_nested ds 1 = Ok x.
Proof. vm_compute. do 4 eexists. repeat split. Qed.

(** C15. Iterating the log dataloader. *)
Theorem C15_dataloader ds ms dt shs k kept : NoDup ms -> 0 < k ->
  all_nested ds = Ok (map (fun x => (fst x, nested_of ms (snd x))) kept) -> uniform ms dt shs kept ->
  dataloader ds k
  = Ok (map (fun c => (map fst c, nested_of ms (map (stacked c) (seq 0 (length ms))))) (chunks k kept)).
Proof. exact (dataloader_ok ds ms dt shs k kept). Qed.
Print Assumptions C15_dataloader.
(** the pieces: consecutive, covering, of size k except possibly the last *)
Theorem C15_pieces {A} k (l : list A) : 0 < k ->
  concat (chunks k l) = l /\
  Forall (fun c => length c <= k) (chunks k l) /\
  forall i c, nth_error (chunks k l) i = Some c -> S i < length (chunks k l) -> length c = k.
Proof. exact (pieces k l). Qed.
Print Assumptions C15_pieces.
(** slice i of each batch tensor belongs to id i of the batch *)
Theorem C15_row_aligned (c : list (did * list array)) ms dt shs j i : uniform ms dt shs c -> j < length ms ->
  Forall (fun x => Forall arr_wf (snd x)) c -> i < length c ->
  row (stacked c j) i = nth j (snd (nth i c (DInt 0, []))) (Arr [] F32 []).
Proof. exact (row_stacked c ms dt shs j i). Qed.
Print Assumptions C15_row_aligned.
Theorem C15_dataloader_flat ds dt n k (kept : list (did * array)) (ids : list (did * array) -> list did) : 0 < k ->
  all_flat ds = Ok kept -> Forall (fun x => a_shape (snd x) = [n] /\ a_dtype (snd x) = dt) kept ->
  (forall c, In c (chunks k kept) -> torch_ids (map fst c) (ids c)) ->
  dataloader_flat ds k
  = Ok (map (fun c => (ids c, Arr [length c; n] dt (concat (map (fun x => a_bytes (snd x)) c)))) (chunks k kept)).
Proof. exact (dataloader_flat_ok ds dt n k kept ids). Qed.
Print Assumptions C15_dataloader_flat.
(** integer ids that are no int64 numbers, or followed by a string, stop the flat loader *)
Theorem C15_flat_ids ds k (kept : list (did * array)) c cs : 0 < k -> all_flat ds = Ok kept -> chunks k kept = c :: cs ->
  (forall z r d, map fst c = DInt z :: r -> In d r -> (forall z', d <> DInt z') -> dataloader_flat ds k = Err TypeError) /\
  (forall zs z, map fst c = map DInt zs -> In z zs -> ~ (- 2 ^ 63 <= z < 2 ^ 63)%Z -> dataloader_flat ds k = Err RuntimeError).
Proof. exact (dataloader_flat_ids ds k kept c cs). Qed.
Print Assumptions C15_flat_ids.
(** a sample with a module the first sample does not have is rejected *)
Theorem C15_extra_key ms (ms' : list string) (arrs arrs' : list array) id id' : NoDup ms ->
  length arrs = length ms -> length arrs' = length ms' -> (exists m, In m ms' /\ ~ In m ms) ->
  collate_nested_dicts stack_arrays [(id, nested_of ms arrs); (id', nested_of ms' arrs')] = Err KeyError.
Proof. exact (collate_extra ms ms' arrs arrs' id id'). Qed.
Print Assumptions C15_extra_key.
(** ... but one that lacks a module is silently misaligned: three ids, two rows *)
Theorem C15_missing_key_refuted :
  exists (batch : list (did * nd array)) out a,
    collate_nested_dicts stack_arrays batch = Ok (map fst batch, out) /\ length batch = 3 /\
    at_path out ["fc2"; "grad"]%string = Some (Leaf a) /\ hd 0 (a_shape a) = 2.
Proof. exact missing_key_refuted. Qed.
Print Assumptions C15_missing_key_refuted.
Example C15_example :
  uniform ms2 F16 [[2]; [1]] (concat (map (batch_samples ms2) [b1; b2; b3])) /\
  Forall (fun x => Forall arr_wf (snd x)) (concat (map (batch_samples ms2) [b1; b2; b3])) /\
  map (map fst) (chunks 2 (concat (map (batch_samples ms2) [b1; b2; b3])))
  = [[DStr "cat"; DInt 7]; [DStr "dog"; DInt 9]; [DStr "cow"]].
Proof. split; [|split]; [split; [reflexivity|]|..]; repeat constructor. Qed.

(** Flat batches of two from the ids (cat, 7), (dog, 9), (cow): the ids stay, integers beside strings too. Saved as (7, 9): one
    integer tensor. (9, cow) and (2^63, 9) stop the flat loader; the nested loader delivers both. *)
Example C15_flat_example :
  (let '(d, _, _) := save_run d0 (saver_init 0 1 (-1) (grad_paths ms2)) [b1'; b2'; b3] in
   match open_dataset d (dkeys d) with
   | Ok ds => match dataloader_flat ds 2 with Ok l => map fst l = [[DStr "cat"; DInt 7]; [DStr "dog"; DInt 9]; [DStr "cow"]] | Err _ => False end
   | Err _ => False end) /\
  (let flat ids := let '(d, _, _) := save_run d0 (saver_init 0 1 (-1) (grad_paths ms2)) [(ids, log2')] in
     match open_dataset d (dkeys d) with
     | Ok ds => (match dataloader_flat ds 2 with Ok l => Ok (map fst l) | Err e => Err e end, match dataloader ds 2 with Ok l => Ok (map fst l) | Err e => Err e end)
     | Err e => (Err e, Err e) end in
   flat [DInt 7; DInt 9] = (Ok [[DTen 7; DTen 9]], Ok [[DInt 7; DInt 9]]) /\
   flat [DInt 9; DStr "cow"] = (Err TypeError, Ok [[DInt 9; DStr "cow"]]) /\
   flat [DInt (2 ^ 63); DInt 9] = (Err RuntimeError, Ok [[DInt (2 ^ 63); DInt 9]])) /\
  torch_ids [DStr "cat"; DInt 7] [DStr "cat"; DInt 7] /\ torch_ids [DInt 7; DInt 9] [DTen 7; DTen 9].
Proof.
  split; [vm_compute; reflexivity|]. split; [cbv zeta; repeat split; vm_compute; reflexivity|]. split.
  - left. do 2 eexists. split; reflexivity.
  - right. exists [7; 9]%Z. split; [discriminate|]. split; [reflexivity|]. split; [|reflexivity]. repeat constructor; lia || (vm_compute; intuition discriminate).
Qed.

(** C16. More rows than identifiers: the surplus rows never reach the dataset. *)
Theorem C16_fewer_ids ms dt rank w thr d ids log n :
  ms <> [] -> NoDup ms -> fresh_dir d -> (w <= 1)%Z -> NoDup ids ->
  log_wf n log -> Forall (has_grad dt n log) ms -> Forall json_id ids -> length ids < n ->
  exists d' s' ds, save_run d (saver_init rank w thr (grad_paths ms)) [(ids, log)] = (d', s', Ok tt) /\
    open_dataset d' (dkeys d') = Ok ds /\ ds_len ds = length ids /\
    forall i id, nth_error ids i = Some id ->
      get_nested ds i = Ok (id, nested_of ms (map (fun m => row (grad_tensor log m) i) ms)).
Proof. exact (fewer_ids ms dt rank w thr d ids log n). Qed.
Print Assumptions C16_fewer_ids.
(** More identifiers than rows: IndexError after the existing rows were buffered; the first surplus
    identifier is left in the buffer with an empty record. *)
Theorem C16_too_many_ids n m0 k0 t0 lm0 l0 s ids1 id ids2 :
  let log := Node ((m0, Node ((k0, Leaf t0) :: lm0)) :: l0) in
  log_wf n log -> length ids1 = n ->
  Forall (fun kv => two_level (snd kv)) (s_buffer s) ->
  exists s1 s', buffer_write s ids1 log = (s1, Ok tt) /\
    buffer_write s (ids1 ++ id :: ids2) log = (s', Err IndexError) /\
    s_size s' = s_size s1 /\
    (forall j, j <> id -> dget j (s_buffer s') = dget j (s_buffer s1)) /\
    (dget id (s_buffer s1) = None -> dget id (s_buffer s') = Some (Node [(m0, Node [])])).
Proof. exact (too_many_ids n m0 k0 t0 lm0 l0 s ids1 id ids2). Qed.
Print Assumptions C16_too_many_ids.
Example C16_example : log_wf 2 log2 /\ Forall (has_grad F16 2 log2) ms2 /\ length (fst b2) < 2 /\
  snd (buffer_write (saver_init 0 1 (-1) (grad_paths ms2)) [DInt 1; DInt 2; DInt 3] log2) = Err IndexError.
Proof.
  split; [exact log2_wf|]. split; [repeat (constructor; [solve_grad|]); constructor|]. split; [cbn; lia|reflexivity].
Qed.
