(** Storage proofs, part 8: witnesses and corollaries used by PropStore.v. *)
From Coq Require Import Permutation Sorted.
From Verif Require Import Py PyStr ModelMmap ModelLoader ModelSaver SpecStore ExStore
  StoreProofs1 StoreProofs2 StoreProofs3 StoreProofs4 StoreProofs5 StoreProofs6 StoreProofs7.
Local Open Scope nat_scope.

Lemma transparency_refuted :
  exists bs, Forall (batch_ok ms2 F16) bs /\
  let run thr := let '(d', _, _) := save_run d0 (saver_init 0 1 thr (grad_paths ms2)) bs in
                 let* ds := open_dataset d' (dkeys d') in all_nested ds in
  exists x y, run (-1)%Z = Ok x /\ run 1%Z = Ok y /\ dkeys x = dkeys y /\
    dget (DStr "cat") x <> dget (DStr "cat") y.
Proof.
  exists [b1; bx]. split; [repeat constructor; [exact b1_ok|exact bx_ok]|]. cbn zeta.
  vm_compute. do 2 eexists. split; [reflexivity|]. split; [reflexivity|]. split; [reflexivity|]. discriminate.
Qed.

Lemma rerun_crash_refuted :
  exists d1 s1 s2 ds id x,
    save_run d0 (saver_init 0 1 (-1) (grad_paths ms2)) [b1] = (d1, s1, Ok tt) /\
    buffer_write (saver_init 0 1 (-1) (grad_paths ms2)) (fst b3) log2x = (s2, Ok tt) /\
    ~ In id (fst b3) /\
    let mm := fst (write_samples (s_path s2) (s_buffer s2) (repeat x00 (total_size (s_buffer s2))) 0 []) in
    open_dataset (crash_flush d1 s2 (CrashData mm)) (dkeys (crash_flush d1 s2 (CrashData mm))) = Ok ds /\
    get_nested ds 0 = Ok (id, x) /\
    x <> nested_of ms2 (sample_rows ms2 log2 0) /\ x = nested_of ms2 (sample_rows ms2 log2x 0).
Proof.
  eexists _, _, _, _, (DStr "cat"), _. split; [vm_compute; reflexivity|]. split; [vm_compute; reflexivity|].
  split; [intros [E|[E|[]]]; discriminate|]. cbn zeta. split; [vm_compute; reflexivity|].
  split; [vm_compute; reflexivity|]. split; [vm_compute; discriminate|reflexivity].
Qed.

Lemma missing_key_refuted :
  exists (batch : list (did * nd array)) out a,
    collate_nested_dicts stack_arrays batch = Ok (map fst batch, out) /\ length batch = 3 /\
    at_path out ["fc2"; "grad"]%string = Some (Leaf a) /\ hd 0 (a_shape a) = 2.
Proof.
  exists [(DInt 0, nested_of ms2 (sample_rows ms2 log2 0)); (DInt 1, nested_of ["fc1"%string] [row t1 0]);
          (DInt 2, nested_of ms2 (sample_rows ms2 log2 1))].
  do 2 eexists. split; [vm_compute; reflexivity|]. split; [reflexivity|]. split; vm_compute; reflexivity.
Qed.

Lemma fw_app_notin {V} (l acc : list (did * V)) : incl (map fst l) (map fst acc) -> fold_left fw_step l acc = acc.
Proof.
  induction l as [|x l IH]; intros H; cbn; [reflexivity|]. unfold fw_step at 2.
  assert (I : In (fst x) (map fst acc)) by (apply H; left; reflexivity).
  apply mem_In in I. rewrite I. apply IH. intros y Iy. apply H. right. exact Iy.
Qed.
Lemma fw_length {V} (l acc : list (did * V)) : length acc <= length (fold_left fw_step l acc).
Proof.
  revert acc. induction l as [|x l IH]; intros acc; cbn; [lia|]. etransitivity; [|apply IH]. unfold fw_step.
  destruct (mem _ _); [lia|]. rewrite app_length. lia.
Qed.
Lemma fw_same {V} (l acc : list (did * V)) : fold_left fw_step l acc = acc -> incl (map fst l) (map fst acc).
Proof.
  revert acc. induction l as [|x l IH]; intros acc E y Iy; cbn in *; [tauto|]. unfold fw_step in E at 2.
  destruct (mem (fst x) (map fst acc)) eqn:M.
  - destruct Iy as [<-|Iy]; [apply mem_In; exact M|]. apply (IH acc E). exact Iy.
  - exfalso. pose proof (fw_length l (acc ++ [x])) as L. rewrite E, app_length in L. cbn in L. lia.
Qed.
Lemma rerun_clean (new old : list (list (did * list array))) :
  first_wins (concat (new ++ skipn (length new) old)) = first_wins (concat new) <->
  incl (map fst (concat (skipn (length new) old))) (map fst (concat new)).
Proof.
  rewrite concat_app, !first_wins_fold, fold_left_app, <- first_wins_fold. split; intros H.
  - apply fw_same in H. intros x I. apply fw_keys_In. apply H. exact I.
  - apply fw_app_notin. intros x I. apply fw_keys_In. apply H. exact I.
Qed.

Lemma bounded_buffer rank w thr path d bs d' s' r :
  save_batches d (saver_init rank w thr path) bs = (d', s', r) ->
  held (s_buffer s') <= s_size s' /\
  (r = Ok tt -> (0 < thr)%Z -> (Z.of_nat (s_size s') <= thr)%Z).
Proof.
  intros E. destruct (save_batches_bound bs _ _ _ _ _ (held_init rank w thr path) E) as (H & _ & B).
  split; [apply H|]. intros Hr P. destruct bs as [|b bs].
  - cbn in E. injection E as _ <- _. cbn. lia.
  - apply B; auto. discriminate.
Qed.

Lemma pieces {A} k (l : list A) : 0 < k ->
  concat (chunks k l) = l /\
  Forall (fun c => length c <= k) (chunks k l) /\
  forall i c, nth_error (chunks k l) i = Some c -> S i < length (chunks k l) -> length c = k.
Proof. intros K. split; [apply chunks_concat; exact K|]. apply chunks_sizes. exact K. Qed.

Lemma samples_from_nth ms log ids : forall i k id, nth_error ids i = Some id ->
  nth_error (samples_from ms log k ids) i = Some (id, sample_rows ms log (k + i)).
Proof.
  induction ids as [|d ids IH]; intros [|i] k id E; cbn in *; try discriminate.
  - injection E as ->. rewrite Nat.add_0_r. reflexivity.
  - rewrite (IH i (S k) id E). do 3 f_equal. lia.
Qed.
Lemma fewer_ids ms dt rank w thr d ids log n :
  ms <> [] -> NoDup ms -> fresh_dir d -> (w <= 1)%Z -> NoDup ids ->
  log_wf n log -> Forall (has_grad dt n log) ms -> Forall json_id ids -> length ids < n ->
  exists d' s' ds, save_run d (saver_init rank w thr (grad_paths ms)) [(ids, log)] = (d', s', Ok tt) /\
    open_dataset d' (dkeys d') = Ok ds /\ ds_len ds = length ids /\
    forall i id, nth_error ids i = Some id ->
      get_nested ds i = Ok (id, nested_of ms (map (fun m => row (grad_tensor log m) i) ms)).
Proof.
  intros NE N Fd W ND L G J Lt.
  assert (B : Forall (batch_ok ms dt) [(ids, log)]).
  { repeat constructor. exists n. cbn [fst snd]. repeat split; auto. lia. }
  assert (ND2 : NoDup (concat (map fst [(ids, log)]))) by (cbn; rewrite app_nil_r; exact ND).
  destruct (no_loss_sync ms dt rank w thr d _ NE N Fd W B ND2) as (d' & s' & E & O).
  destruct (O _ (Permutation_refl _)) as (ds & Eo & A & _ & I). cbn zeta in *.
  exists d', s', ds. split; [exact E|]. split; [exact Eo|]. cbn [map concat fst snd] in I. rewrite app_nil_r in I.
  split. { unfold ds_len. rewrite <- I. unfold ds_ids, dkeys. rewrite map_length. reflexivity. }
  intros i id Ei. cbn [map concat] in A. rewrite app_nil_r in A. unfold all_nested in A.
  apply (mapM_seq_nth (get_nested ds) (ds_len ds) 0 _ i) with (2 := eq_trans (nth_error_map _ _ _) (f_equal _ (samples_from_nth ms log ids i 0 id Ei))) in A.
  exact A.
Qed.
