(** Storage proofs, part 6: layout, dtypes, missing gradients, unserialisable ids, ids/rows mismatch. *)
From Coq Require Import Permutation Sorted.
From Verif Require Import Py PyStr ModelMmap ModelLoader ModelSaver SpecStore
  StoreProofs1 StoreProofs2 StoreProofs3 StoreProofs4 StoreProofs5.
Local Open Scope nat_scope.

Lemma recorded_resolves ms x arrs : recorded ms x arrs -> resolves x (grad_paths ms) arrs.
Proof.
  unfold recorded, resolves, grad_paths. induction 1; cbn [map]; constructor; auto.
Qed.
Lemma recorded_all ms (buf : list (did * nd array)) arrss :
  Forall2 (fun x arrs => recorded ms (snd x) arrs) buf arrss ->
  Forall2 (fun x arrs => resolves (snd x) (grad_paths ms) arrs) buf arrss.
Proof. induction 1; constructor; auto. apply recorded_resolves; auto. Qed.

Lemma extract_bytes x : forall base,
  sum_nat (map (fun pa => nbytes (snd pa)) (extract_arrays base x)) = nd_bytes x.
Proof.
  induction x as [a|l IH] using nd_ind'; intros base.
  - cbn. lia.
  - cbn [extract_arrays nd_bytes]. induction l as [|[k v] l IHl]; [reflexivity|].
    inversion IH; subst. rewrite map_app. unfold sum_nat in *. rewrite fold_right_app.
    cbn [snd] in H1. rewrite IHl by auto.
    assert (A : forall n l, fold_right Nat.add n l = fold_right Nat.add 0 l + n).
    { clear. intros n l. induction l; cbn; [auto|]. rewrite IHl. lia. }
    rewrite A, H1. reflexivity.
Qed.
Lemma total_size_bytes buf : total_size buf = buf_bytes buf.
Proof.
  unfold total_size, buf_bytes, sumf, sum_nat. induction buf as [|[i x] buf IH]; cbn [map fold_right snd]; [auto|].
  rewrite IH. f_equal. apply extract_bytes.
Qed.

(** Flushing a buffer whose samples all have all gradients. *)
Lemma flush_recorded ms d s arrss : ms <> [] -> NoDup ms ->
  s_path s = grad_paths ms -> s_buffer s <> [] -> 0 < buf_bytes (s_buffer s) ->
  Forall2 (fun x arrs => recorded ms (snd x) arrs) (s_buffer s) arrss ->
  Forall json_id (dkeys (s_buffer s)) ->
  flush_serialized d s
  = (dset (mfile (s_rank s, s_count s)) (FMeta (entries (grad_paths ms) 0 (dkeys (s_buffer s)) arrss))
      (dset (cfile (s_rank s, s_count s))
        (FData (records arrss ++ repeat x00 (buf_bytes (s_buffer s) - totals arrss))) d),
     buffer_clear (incr_count s), Ok tt).
Proof.
  intros NE N P B T F J. rewrite <- total_size_bytes in *. unfold flush_serialized.
  destruct (s_buffer s) as [|x0 r0] eqn:Eb; [congruence|]. rewrite <- Eb in *. rewrite P.
  rewrite (write_ok d _ (s_buffer s) (grad_paths ms) arrss); auto using grad_paths_ne, grad_paths_NoDup, recorded_all.
  - fold (cfile (s_rank s, s_count s)).
    change (chunk_file (s_rank s) (s_count s)) with (cfile (s_rank s, s_count s)).
    rewrite data_name_cfile, meta_name_cfile. reflexivity.
  - apply json_serialisable. exact J.
Qed.

Lemma get_meta k m b (d : fs) : dget (mfile k) (dset (mfile k) m (dset (cfile k) b d)) = Some m.
Proof. apply dget_dset_eq. Qed.
Lemma get_data k m b (d : fs) : dget (cfile k) (dset (mfile k) m (dset (cfile k) b d)) = Some b.
Proof.
  rewrite dget_dset_neq by (intros E; apply (mfile_cfile k k); congruence). apply dget_dset_eq.
Qed.

Lemma totals_app a b : totals (a ++ b) = totals a + totals b.
Proof. unfold totals, sum_nat. rewrite map_app. induction (map (total nbytes) a); cbn; auto. rewrite IHl. lia. Qed.
Lemma totals_cons a b : totals (a :: b) = total nbytes a + totals b.
Proof. reflexivity. Qed.

Lemma entries_nth order ids : forall arrss off i e, nth_error (entries order off ids arrss) i = Some e ->
  exists id arrs, nth_error ids i = Some id /\ nth_error arrss i = Some arrs /\
    e = Entry id order (off + totals (firstn i arrss)) (map a_shape arrs) (total asize arrs)
          (match last_dt None arrs with Some d => d | None => U8 end).
Proof.
  induction ids as [|id ids IH]; intros [|arrs arrss] off [|i] e E; cbn [entries nth_error] in E; try discriminate.
  - injection E as <-. exists id, arrs. cbn [nth_error firstn]. do 2 (split; [reflexivity|]).
    unfold totals. cbn. rewrite Nat.add_0_r. reflexivity.
  - apply IH in E as (id' & arrs' & E1 & E2 & ->). exists id', arrs'. cbn [nth_error firstn].
    rewrite totals_cons, Nat.add_assoc. auto.
Qed.
Lemma last_dt_last arrs : arrs <> [] -> match last_dt None arrs with Some d => d | None => U8 end = last_dtype arrs.
Proof.
  intros H. destruct (exists_last H) as (l & a & ->). unfold last_dt, last_dtype.
  rewrite rev_app_distr, map_app. cbn. rewrite last_last. reflexivity.
Qed.

Lemma records_at order (buf : list (did * nd array)) arrss z i arrs :
  Forall2 (fun x arrs => resolves (snd x) order arrs) buf arrss -> nth_error arrss i = Some arrs ->
  bytes_at (records arrss ++ z) (totals (firstn i arrss)) (total nbytes arrs) = concat (map a_bytes arrs).
Proof.
  intros F E. unfold bytes_at. apply nth_error_split in E as (l1 & l2 & -> & <-).
  rewrite firstn_app, firstn_all, Nat.sub_diag. cbn [firstn]. rewrite app_nil_r.
  apply Forall2_app_inv_r in F as (b1 & b2 & F1 & F2 & ->). inversion F2; subst.
  unfold records. rewrite map_app, concat_app. cbn [map concat]. rewrite <- !app_assoc.
  apply firstn_skipn_mid.
  - symmetry. apply (records_length order b1); auto.
  - symmetry. apply concat_bytes_length. eapply resolves_wf; eauto.
Qed.

(** ---- C12 ---- *)
Lemma layout ms d s arrss : ms <> [] -> NoDup ms ->
  s_path s = grad_paths ms -> s_buffer s <> [] -> 0 < buf_bytes (s_buffer s) ->
  Forall2 (fun x arrs => recorded ms (snd x) arrs) (s_buffer s) arrss ->
  Forall json_id (dkeys (s_buffer s)) ->
  exists d' s' mm meta, flush_serialized d s = (d', s', Ok tt) /\
    dget (chunk_file (s_rank s) (s_count s)) d' = Some (FData mm) /\
    dget (meta_name (chunk_file (s_rank s) (s_count s))) d' = Some (FMeta meta) /\
    length mm = buf_bytes (s_buffer s) /\
    map e_id meta = dkeys (s_buffer s) /\
    forall i e, nth_error meta i = Some e -> exists arrs, nth_error arrss i = Some arrs /\
      e_offset e = sumf (total nbytes) (firstn i arrss) /\
      e_offset e + total nbytes arrs <= length mm /\
      e_shape e = map a_shape arrs /\ e_path e = grad_paths ms /\
      bytes_at mm (e_offset e) (total nbytes arrs) = concat (map a_bytes arrs).
Proof.
  intros NE N P B T F J. rewrite (flush_recorded ms d s arrss NE N P B T F J).
  do 4 eexists. split; [reflexivity|]. 
  change (chunk_file (s_rank s) (s_count s)) with (cfile (s_rank s, s_count s)).
  rewrite meta_name_cfile. split; [apply get_data|]. split; [apply get_meta|].
  pose proof (recorded_all _ _ _ F) as F'.
  pose proof (totals_le _ _ _ (grad_paths_NoDup _ N) F') as LE. rewrite total_size_bytes in LE.
  assert (LM : length (records arrss ++ repeat x00 (buf_bytes (s_buffer s) - totals arrss)) = buf_bytes (s_buffer s)).
  { rewrite app_length, (records_length _ _ _ F'), repeat_length. lia. }
  split; [exact LM|]. split.
  { apply entries_ids. unfold dkeys. rewrite map_length. eapply Forall2_length; eauto. }
  intros i e E. apply entries_nth in E as (id & arrs & E1 & E2 & ->). exists arrs. split; [exact E2|].
  cbn [e_offset e_shape e_path]. rewrite LM.
  assert (SF : sumf (total nbytes) (firstn i arrss) = totals (firstn i arrss)).
  { unfold sumf, totals, sum_nat. induction (firstn i arrss); cbn; auto. }
  split; [symmetry; exact SF|].
  split.
  { transitivity (totals arrss); [|exact LE]. apply nth_error_split in E2 as (l1 & l2 & -> & <-).
    rewrite firstn_app, firstn_all, Nat.sub_diag. cbn [firstn]. rewrite app_nil_r, totals_app, totals_cons. cbn. lia. }
  split; [reflexivity|]. split; [reflexivity|].
  eapply records_at; eauto.
Qed.

(** ---- C13 ---- *)
Lemma write_bad_id d name (buf : list (did * nd array)) order arrss :
  order <> [] -> NoDup order ->
  Forall2 (fun x arrs => resolves (snd x) order arrs) buf arrss ->
  0 < total_size buf ->
  forallb serialisable (map fst buf) = false ->
  exists mm, write d name buf order
  = (dset (meta_name name) FBroken (dset (data_name name) (FData mm) d), Err TypeError).
Proof.
  intros NE N F T S. pose proof (totals_le _ _ _ N F) as LE. unfold write.
  replace (Nat.eqb (total_size buf) 0) with false by (symmetry; apply Nat.eqb_neq; lia).
  pose proof (write_samples_ok order buf arrss NE F [] (repeat x00 (total_size buf)) []) as E.
  rewrite repeat_length in E. specialize (E LE). cbn [app length] in E. rewrite E.
  rewrite <- (forallb_map e_id serialisable).
  rewrite entries_ids by (rewrite map_length; eapply Forall2_length; eauto). rewrite S. eauto.
Qed.
Lemma unserialisable ms d s arrss : ms <> [] -> NoDup ms ->
  s_path s = grad_paths ms -> 0 < buf_bytes (s_buffer s) ->
  Forall2 (fun x arrs => recorded ms (snd x) arrs) (s_buffer s) arrss ->
  Exists (fun id => ~ json_id id) (dkeys (s_buffer s)) ->
  exists d', flush_serialized d s = (d', s, Err TypeError) /\
    (exists mm, dget (chunk_file (s_rank s) (s_count s)) d' = Some (FData mm)) /\
    forall listing, incl (dkeys d') listing -> exists e, open_dataset d' listing = Err e.
Proof.
  intros NE N P T F J. rewrite <- total_size_bytes in *. unfold flush_serialized.
  destruct (s_buffer s) as [|x0 r0] eqn:Eb; [cbn in T; lia|]. rewrite <- Eb in *. rewrite P.
  destruct (write_bad_id d (cfile (s_rank s, s_count s)) (s_buffer s) (grad_paths ms) arrss) as (mm & E);
    auto using grad_paths_ne, grad_paths_NoDup, recorded_all.
  { apply not_true_iff_false. intros C. rewrite forallb_forall in C. apply Exists_exists in J as (id & I & H).
    apply C in I. apply H. destruct id; cbn in *; auto; discriminate. }
  unfold cfile in E. cbn [fst snd] in E. rewrite E.
  change (chunk_file (s_rank s) (s_count s)) with (cfile (s_rank s, s_count s)).
  rewrite data_name_cfile, meta_name_cfile. eexists. split; [reflexivity|]. split; [eexists; apply get_data|].
  intros listing I. apply (open_unreadable _ _ (s_rank s, s_count s)).
  - apply I. apply In_dkeys_dset. right. apply In_dkeys_dset. auto.
  - right. left. apply get_meta.
Qed.

(** ---- C07 ---- *)
Lemma unflatten_dtype flat : forall paths shapes start acc r stop,
  unflatten_all flat paths shapes start acc = Ok (r, stop) ->
  forall (P : dtype -> Prop), P (a_dtype flat) ->
  (forall p a, at_path (Node acc) p = Some (Leaf a) -> P (a_dtype a)) ->
  forall p a, at_path (Node r) p = Some (Leaf a) -> P (a_dtype a).
Proof.
  assert (NS : forall path (v : array) cur r, nd_set path v cur = Ok r ->
    forall (P : dtype -> Prop), P (a_dtype v) ->
    (forall p a, at_path (Node cur) p = Some (Leaf a) -> P (a_dtype a)) ->
    forall p a, at_path (Node r) p = Some (Leaf a) -> P (a_dtype a)).
  { induction path as [|k path IH]; intros v cur r E P Pv Pc p a; [discriminate|].
    destruct path as [|k2 path].
    - cbn in E. injection E as <-. destruct p as [|q p]; [discriminate|]. cbn [at_path].
      rewrite dget_dset. destruct (eqb_spec q k) as [->|].
      + destruct p; cbn; [intros [= <-]; auto|discriminate].
      + intros H. apply (Pc (q :: p)). exact H.
    - change (nd_set (k :: k2 :: path) v cur) with
        (match dget k cur with
         | None => let* sub := nd_set (k2 :: path) v [] in Ok (dset k (Node sub) cur)
         | Some (Node l) => let* sub := nd_set (k2 :: path) v l in Ok (dset k (Node sub) cur)
         | Some (Leaf _) => Err TypeError end) in E.
      destruct (dget k cur) as [[x|l]|] eqn:D; [discriminate| |].
      + destruct (nd_set (k2 :: path) v l) as [sub|] eqn:Es; [|discriminate]. cbn in E. injection E as <-.
        destruct p as [|q p]; [discriminate|]. cbn [at_path]. rewrite dget_dset. destruct (eqb_spec q k) as [->|].
        * apply (IH v l sub Es P Pv). intros p' a' H. apply (Pc (k :: p')). cbn. rewrite D. exact H.
        * intros H. apply (Pc (q :: p)). exact H.
      + destruct (nd_set (k2 :: path) v []) as [sub|] eqn:Es; [|discriminate]. cbn in E. injection E as <-.
        destruct p as [|q p]; [discriminate|]. cbn [at_path]. rewrite dget_dset. destruct (eqb_spec q k) as [->|].
        * apply (IH v [] sub Es P Pv). intros p' a' H. destruct p'; discriminate.
        * intros H. apply (Pc (q :: p)). exact H. }
  induction paths as [|k paths IH]; intros shapes start acc r stop E P Pf Pa.
  - cbn in E. injection E as <- _. exact Pa.
  - destruct shapes as [|sh shapes]; cbn [unflatten_all] in E; [discriminate|].
    destruct (unflatten_tensor flat sh start) as [[t st]|] eqn:Et; [|discriminate]. cbn [bind] in E.
    destruct (nd_set k t acc) as [acc'|] eqn:Es; [|discriminate]. cbn [bind] in E.
    apply (IH _ _ _ _ _ E P Pf). apply (NS _ _ _ _ Es P).
    + unfold unflatten_tensor in Et. destruct (reduce_mul sh); [|discriminate]. cbn [bind] in Et.
      destruct (Nat.eqb _ _); [|discriminate]. injection Et as <- _. exact Pf.
    + exact Pa.
Qed.

Lemma nested_of_at ms : forall arrs m a, NoDup ms -> In (m, a) (combine ms arrs) ->
  at_path (nested_of ms arrs) [m; "grad"%string] = Some (Leaf a).
Proof.
  intros arrs m a N I. unfold nested_of. cbn [at_path].
  rewrite (In_dget m (Node [("grad"%string, Leaf a)])).
  - cbn. reflexivity.
  - unfold dkeys. rewrite map_map. cbn [fst]. clear I. revert arrs.
    induction N as [|m0 ms H N IH]; intros arrs; cbn; [constructor|].
    destruct arrs as [|a0 arrs]; cbn; [constructor|]. constructor; auto. intros C. apply H.
    apply in_map_iff in C as ([m' a'] & <- & C). apply in_combine_l in C. exact C.
  - apply in_map_iff. exists (m, a). auto.
Qed.

(** What a flush of any buffer with all gradients looks like to the reader. *)
Lemma open_recorded ms d s arrss : ms <> [] -> NoDup ms -> fresh_dir d ->
  s_path s = grad_paths ms -> s_buffer s <> [] -> NoDup (dkeys (s_buffer s)) ->
  0 < buf_bytes (s_buffer s) ->
  Forall2 (fun x arrs => recorded ms (snd x) arrs) (s_buffer s) arrss ->
  Forall json_id (dkeys (s_buffer s)) ->
  exists d' s' mm, flush_serialized d s = (d', s', Ok tt) /\
    mm = records arrss ++ repeat x00 (buf_bytes (s_buffer s) - totals arrss) /\
    forall listing, Permutation listing (dkeys d') ->
      open_dataset d' listing = Ok (DS [mm] (map (fun e => (e_id e, (0, e)))
        (entries (grad_paths ms) 0 (dkeys (s_buffer s)) arrss))).
Proof.
  intros NE N Fd P B ND T F J. rewrite (flush_recorded ms d s arrss NE N P B T F J).
  do 3 eexists. split; [reflexivity|]. split; [reflexivity|].
  set (k := (s_rank s, s_count s)). set (mm := records arrss ++ _).
  set (meta := entries _ _ _ _). intros listing Pm.
  pose proof (fresh_dir_holds ms d Fd) as (H1 & _ & H3 & _).
  assert (DO : dir_ok (dset (mfile k) (FMeta meta) (dset (cfile k) (FData mm) d)) [(k, (mm, meta))]).
  { split; [apply NoDup_dset, NoDup_dset; exact H1|]. split; [repeat constructor; auto|]. split.
    - intros n I C. apply In_dkeys_dset in I as [->|I].
      { rewrite is_chunk_file_mfile in C. discriminate. }
      apply In_dkeys_dset in I as [->|I].
      { exists k. cbn. auto. }
      destruct (H3 n I C) as (k' & [] & _).
    - intros k' bs m [E|[]]. injection E as <- <- <-. split; [|split; [apply get_data|apply get_meta]].
      unfold mm. intros C. apply (f_equal (@length byte)) in C.
      pose proof (recorded_all _ _ _ F) as F'.
      pose proof (totals_le _ _ _ (grad_paths_NoDup _ N) F') as LE. rewrite total_size_bytes in LE.
      rewrite app_length, (records_length _ _ _ F'), repeat_length in C. cbn in C. lia. }
  rewrite (open_ok _ _ _ DO Pm). cbn [sort_by fold_right insert_by map fst snd items].
  rewrite app_nil_r. f_equal. f_equal. apply first_wins_nodup. rewrite map_map. cbn [fst].
  unfold meta. rewrite entries_ids; [exact ND|]. unfold dkeys. rewrite map_length. eapply Forall2_length; eauto.
Qed.

Lemma mixed_dtypes ms d s arrss : ms <> [] -> NoDup ms -> fresh_dir d ->
  s_path s = grad_paths ms -> s_buffer s <> [] -> NoDup (dkeys (s_buffer s)) ->
  0 < buf_bytes (s_buffer s) ->
  Forall2 (fun x arrs => recorded ms (snd x) arrs) (s_buffer s) arrss ->
  Forall json_id (dkeys (s_buffer s)) ->
  exists d' s', flush_serialized d s = (d', s', Ok tt) /\
  forall listing, Permutation listing (dkeys d') ->
  exists ds, open_dataset d' listing = Ok ds /\
  forall i id arrs, nth_error (dkeys (s_buffer s)) i = Some id -> nth_error arrss i = Some arrs ->
    (forall x, get_flat ds i = Ok x ->
       fst x = id /\ a_dtype (snd x) = last_dtype arrs /\ a_shape (snd x) = [total asize arrs] /\
       length (a_bytes (snd x)) = total asize arrs * itemsize (last_dtype arrs)) /\
    (forall x, get_nested ds i = Ok x ->
       forall p a, at_path (snd x) p = Some (Leaf a) -> a_dtype a = last_dtype arrs) /\
    (get_nested ds i = Ok (id, nested_of ms arrs) -> Forall (fun a => a_dtype a = last_dtype arrs) arrs).
Proof.
  intros NE N Fd P B ND T F J.
  destruct (open_recorded ms d s arrss NE N Fd P B ND T F J) as (d' & s' & mm & E & Emm & O).
  exists d', s'. split; [exact E|]. intros listing Pm. eexists. split; [exact (O listing Pm)|].
  intros i id arrs Ei Ea. set (ds := DS _ _).
  assert (NEa : arrs <> []).
  { assert (X : exists x, In (x, arrs) (combine (s_buffer s) arrss) /\ recorded ms (snd x) arrs).
    { clear -F Ea. revert i Ea. induction F; intros [|i] Ea; cbn in *; try discriminate.
      - injection Ea as ->. eauto.
      - apply IHF in Ea as (x0 & I & R). eauto. }
    destruct X as (x & _ & R). inversion R; [subst; congruence|discriminate]. }
  assert (Lids : length (dkeys (s_buffer s)) = length arrss).
  { unfold dkeys. rewrite map_length. eapply Forall2_length; eauto. }
  assert (Lent : forall order ids ass off, length ids = length ass -> length (entries order off ids ass) = length ids).
  { clear. intros order. induction ids as [|a ids IH]; intros [|b ass] off L; cbn in *; try discriminate; auto. }
  destruct (nth_error (entries (grad_paths ms) 0 (dkeys (s_buffer s)) arrss) i) as [e|] eqn:Ee.
  2:{ apply nth_error_None in Ee. rewrite Lent in Ee by auto. apply nth_error_None in Ee. congruence. }
  assert (Er : get_record ds i = Ok (id, mm, e)).
  { unfold get_record, ds. cbn [ds_map ds_mm]. rewrite nth_error_map, Ee. cbn [option_map nth_error].
    apply entries_nth in Ee as (id2 & a2 & I1 & I2 & ->). cbn [e_id]. congruence. }
  apply entries_nth in Ee as (id2 & a2 & I1 & I2 & ->).
  assert (a2 = arrs) by congruence. assert (id2 = id) by congruence. subst a2 id2. clear I1 I2.
  rewrite last_dt_last in Er by exact NEa.
  assert (FL : forall x, get_flat ds i = Ok x ->
       fst x = id /\ a_dtype (snd x) = last_dtype arrs /\ a_shape (snd x) = [total asize arrs] /\
       length (a_bytes (snd x)) = total asize arrs * itemsize (last_dtype arrs)).
  { intros x Ex. unfold get_flat in Ex. rewrite Er in Ex. cbn [bind e_offset e_block e_dtype] in Ex.
    unfold get_flatten_item in Ex. destruct (_ <=? _) eqn:L; [|discriminate]. cbn [bind] in Ex.
    injection Ex as <-. cbn [fst snd a_dtype a_shape a_bytes]. apply Nat.leb_le in L.
    repeat split. rewrite firstn_length, skipn_length. lia. }
  assert (NS : forall x, get_nested ds i = Ok x ->
       forall p a, at_path (snd x) p = Some (Leaf a) -> a_dtype a = last_dtype arrs).
  { intros x Ex. unfold get_nested in Ex. rewrite Er in Ex. cbn [bind e_offset e_block e_dtype e_path e_shape] in Ex.
    destruct (get_flatten_item _ _ _ _) as [fl|] eqn:Ef; [|discriminate]. cbn [bind] in Ex.
    destruct (unflatten_all _ _ _ _ _) as [[nn st]|] eqn:Eu; [|discriminate]. cbn [bind] in Ex.
    destruct (Nat.eqb _ _); [|discriminate]. injection Ex as <-. cbn [snd].
    apply (unflatten_dtype _ _ _ _ _ _ _ Eu (fun t => t = last_dtype arrs)).
    - unfold get_flatten_item in Ef. destruct (_ <=? _); [|discriminate]. injection Ef as <-. reflexivity.
    - intros p a C. destruct p; discriminate. }
  split; [exact FL|]. split; [exact NS|].
  intros Ex. specialize (NS _ Ex). cbn [snd] in NS. apply Forall_forall. intros a Ia.
  assert (La : length arrs = length ms).
  { clear -F Ea. revert i Ea. induction F; intros [|i] Ea; cbn in *; try discriminate.
    - injection Ea as ->. symmetry. eapply Forall2_length; eauto.
    - eauto. }
  assert (M : exists m, In (m, a) (combine ms arrs)).
  { clear -Ia La. revert arrs Ia La. induction ms as [|m ms IH]; intros [|b arrs] Ia La; cbn in *; try discriminate; [tauto|].
    destruct Ia as [->|Ia]; [eauto|]. destruct (IH arrs Ia) as (m' & I); [lia|]. eauto. }
  destruct M as (m & Im). apply (NS [m; "grad"%string] a). apply nested_of_at; auto.
Qed.

(** Two modules with different item sizes: the bytes covered are never the bytes written. *)
Lemma two_dtypes_count a b : itemsize (a_dtype a) <> itemsize (a_dtype b) -> 0 < asize a ->
  total asize [a; b] * itemsize (last_dtype [a; b]) <> total nbytes [a; b].
Proof.
  intros D P. unfold last_dtype. cbn. unfold nbytes, asize in *.
  set (x := prod (a_shape a)) in *. set (y := prod (a_shape b)).
  intros E. apply D. assert (x * itemsize (a_dtype b) = x * itemsize (a_dtype a)) by lia.
  apply Nat.mul_cancel_l in H; lia.
Qed.

(** ---- C08 ---- *)
Lemma write_keys_app x o1 : forall o2 s mm s1, write_keys x o1 s = (mm, Ok s1) ->
  write_keys x (o1 ++ o2) s = write_keys x o2 s1.
Proof.
  induction o1 as [|k o1 IH]; intros o2 s mm s1 E; cbn [write_keys app] in *.
  - injection E as _ <-. reflexivity.
  - destruct (write_key x s k); [|discriminate]. eapply IH; eauto.
Qed.
Lemma sample_get x m : sample_wf x ->
  (lacks x m /\ exists l, get_from_nested_dict x [m; "grad"%string] = Node l) \/
  (exists a, at_path x [m; "grad"%string] = Some (Leaf a) /\ arr_wf a /\ a_shape a <> []).
Proof.
  intros (l & -> & F). unfold lacks. cbn [at_path get_from_nested_dict]. destruct (dget m l) as [y|] eqn:D.
  - apply dget_In in D. rewrite Forall_forall in F. destruct (F _ D) as (lm & E & Fl). cbn in E. subst y.
    destruct (dget "grad"%string lm) as [z|] eqn:Dz.
    + apply dget_In in Dz. rewrite Forall_forall in Fl. destruct (Fl _ Dz) as (a & E & W & S). cbn in E. subst z.
      right. eauto.
    + left. split; [congruence|]. eauto.
  - left. split; [congruence|]. destruct (dget "grad"%string l) as [y|] eqn:Dg; [|eauto].
    apply dget_In in Dg. rewrite Forall_forall in F. destruct (F _ Dg) as (lm & E & _). cbn in E. subst y. eauto.
Qed.
Lemma sample_split x ms : sample_wf x ->
  (exists arrs, recorded ms x arrs) \/
  (exists m1 m m2 arrs, ms = m1 ++ m :: m2 /\ recorded m1 x arrs /\ lacks x m /\
     exists l, get_from_nested_dict x [m; "grad"%string] = Node l).
Proof.
  intros W. induction ms as [|m ms IH].
  - left. exists []. constructor.
  - destruct (sample_get x m W) as [(L & G)|(a & H)].
    + right. exists [], m, ms, []. repeat split; auto. constructor.
    + destruct IH as [(arrs & R)|(m1 & m' & m2 & arrs & -> & R & L)].
      * left. exists (a :: arrs). constructor; auto.
      * right. exists (m :: m1), m', m2, (a :: arrs). repeat split; auto; try apply L. constructor; auto.
Qed.
Lemma grad_paths_app a b : grad_paths (a ++ b) = grad_paths a ++ grad_paths b.
Proof. apply map_app. Qed.
Lemma NoDup_app_l {A} (a b : list A) : NoDup (a ++ b) -> NoDup a.
Proof. intros H. rewrite <- (map_id (a ++ b)) in H. rewrite <- (map_id a). eapply NoDup_map_app_l; eauto. Qed.

Lemma total_size_cons i x buf : total_size ((i, x) :: buf) =
  sum_nat (map (fun pa => nbytes (snd pa)) (extract_arrays [] x)) + total_size buf.
Proof. reflexivity. Qed.

Lemma write_samples_lack ms : ms <> [] -> NoDup ms -> forall (buf : list (did * nd array)) pre rest meta,
  Forall (fun kv => sample_wf (snd kv)) buf ->
  Exists (fun kv => Exists (lacks (snd kv)) ms) buf ->
  total_size buf <= length rest ->
  exists mm, write_samples (grad_paths ms) buf (pre ++ rest) (length pre) meta = (mm, Err AttributeError).
Proof.
  intros NE N. induction buf as [|[i x] buf IH]; intros pre rest meta W X L; [inversion X|].
  inversion W as [|? ? Wx Wb]; subst. cbn [snd] in *. rewrite total_size_cons in L. cbn [write_samples].
  destruct (sample_split x ms Wx) as [(arrs & R)|(m1 & m & m2 & arrs & -> & R & La & (l & G))].
  - pose proof (recorded_resolves _ _ _ R) as R'. pose proof (resolves_le _ _ _ (grad_paths_NoDup _ N) R') as LE.
    rewrite (write_keys_ok x _ _ R') by lia. cbn zeta. cbn [w_dt w_off app].
    assert (NEa : arrs <> []) by (inversion R; [subst; congruence|discriminate]).
    destruct (last_dt_some arrs NEa) as (a & _ & Ea). rewrite Ea. cbn [w_shapes w_block].
    rewrite app_assoc. rewrite <- (concat_bytes_length arrs) by (eapply resolves_wf; eauto).
    rewrite <- app_length. apply IH; auto.
    + inversion X; subst; auto. exfalso. cbn [snd] in *. apply Exists_exists in H0 as (m & Im & Hm).
      clear -R Im Hm. induction R; destruct Im; subst; auto. destruct H as (H & _). apply (Hm y). exact H.
    + rewrite skipn_length. rewrite concat_bytes_length by (eapply resolves_wf; eauto). lia.
  - pose proof (recorded_resolves _ _ _ R) as R'.
    assert (N1 : NoDup m1) by (eapply NoDup_app_l; eauto).
    pose proof (resolves_le _ _ _ (grad_paths_NoDup _ N1) R') as LE.
    rewrite grad_paths_app. erewrite write_keys_app by (apply (write_keys_ok x _ _ R'); lia).
    cbn [grad_paths map write_keys]. unfold write_key. rewrite G. eauto.
Qed.

Lemma missing_grad ms d s : ms <> [] -> NoDup ms -> s_path s = grad_paths ms ->
  0 < buf_bytes (s_buffer s) -> Forall (fun kv => sample_wf (snd kv)) (s_buffer s) ->
  Exists (fun kv => Exists (lacks (snd kv)) ms) (s_buffer s) ->
  exists d', flush_serialized d s = (d', s, Err AttributeError) /\
    (exists mm, dget (chunk_file (s_rank s) (s_count s)) d' = Some (FData mm)) /\
    (dget (meta_name (chunk_file (s_rank s) (s_count s))) d = None ->
     forall listing, incl (dkeys d') listing -> exists e, open_dataset d' listing = Err e).
Proof.
  intros NE N P T W X. rewrite <- total_size_bytes in T. unfold flush_serialized.
  destruct (s_buffer s) as [|x0 r0] eqn:Eb; [cbn in T; lia|]. rewrite <- Eb in *. rewrite P.
  unfold write. replace (Nat.eqb (total_size (s_buffer s)) 0) with false by (symmetry; apply Nat.eqb_neq; lia).
  destruct (write_samples_lack ms NE N (s_buffer s) [] (repeat x00 (total_size (s_buffer s))) [] W X) as (mm & E).
  { rewrite repeat_length. lia. }
  cbn [app length] in E. rewrite E.
  change (chunk_file (s_rank s) (s_count s)) with (cfile (s_rank s, s_count s)).
  rewrite data_name_cfile, meta_name_cfile. eexists. split; [reflexivity|].
  split; [eexists; apply dget_dset_eq|]. intros M listing I.
  apply (open_unreadable _ _ (s_rank s, s_count s)).
  - apply I. apply In_dkeys_dset. auto.
  - right. right. rewrite dget_dset_neq; [exact M|]. apply mfile_cfile.
Qed.

Lemma samples_from_ext ms log log2 ids : (forall m, In m ms -> grad_tensor log m = grad_tensor log2 m) ->
  forall i, samples_from ms log i ids = samples_from ms log2 i ids.
Proof.
  intros H. induction ids as [|d ids IH]; intros i; cbn [samples_from]; [auto|]. rewrite IH. f_equal. f_equal.
  unfold sample_rows. apply map_ext_in. intros m I. rewrite H by exact I. reflexivity.
Qed.

Lemma only_grads ms dt rank w thr thr2 d bs bs2 :
  ms <> [] -> NoDup ms -> fresh_dir d -> (w <= 1)%Z ->
  Forall (batch_ok ms dt) bs -> Forall (batch_ok ms dt) bs2 -> NoDup (concat (map fst bs)) ->
  Forall2 (fun b b2 => fst b = fst b2 /\
    forall m, In m ms -> grad_tensor (snd b) m = grad_tensor (snd b2) m) bs bs2 ->
  exists d1 s1 d2 s2,
    save_run d (saver_init rank w thr (grad_paths ms)) bs = (d1, s1, Ok tt) /\
    save_run d (saver_init rank w thr2 (grad_paths ms)) bs2 = (d2, s2, Ok tt) /\
  exists ds1 ds2 saved, 
    open_dataset d1 (dkeys d1) = Ok ds1 /\ open_dataset d2 (dkeys d2) = Ok ds2 /\
    all_nested ds1 = Ok saved /\ all_nested ds2 = Ok saved /\
    forall id x, In (id, x) saved -> exists arrs, length arrs = length ms /\ x = nested_of ms arrs.
Proof.
  intros NE N Fd W F F2 ND R.
  assert (Eids : map fst bs = map fst bs2).
  { clear -R. induction R; cbn; auto. destruct H as (H & _). rewrite H, IHR. reflexivity. }
  assert (Es : map (batch_samples ms) bs = map (batch_samples ms) bs2).
  { clear -R. induction R; cbn; auto. destruct H as (H & H2). rewrite IHR. f_equal.
    unfold batch_samples. rewrite H. apply samples_from_ext. exact H2. }
  destruct (no_loss_sync ms dt rank w thr d bs NE N Fd W F ND) as (d1 & s1 & E1 & O1).
  assert (ND2 : NoDup (concat (map fst bs2))) by (rewrite <- Eids; exact ND).
  destruct (no_loss_sync ms dt rank w thr2 d bs2 NE N Fd W F2 ND2) as (d2 & s2 & E2 & O2).
  exists d1, s1, d2, s2. split; [exact E1|]. split; [exact E2|].
  destruct (O1 _ (Permutation_refl _)) as (ds1 & P1 & A1 & _).
  destruct (O2 _ (Permutation_refl _)) as (ds2 & P2 & A2 & _). cbn zeta in *.
  rewrite <- Es in A2. exists ds1, ds2. eexists. split; [exact P1|]. split; [exact P2|].
  split; [exact A1|]. split; [exact A2|]. intros id x I. apply in_map_iff in I as ([i arrs] & E & I).
  cbn [fst snd] in E. injection E as <- <-. exists arrs. split; [|reflexivity].
  apply in_concat in I as (l & Il & I). apply in_map_iff in Il as (b & <- & _). unfold batch_samples in I.
  clear -I. revert I. generalize 0. induction (fst b) as [|a l IH]; intros n I; cbn in I; [tauto|].
  destruct I as [E|I]; [|eauto]. injection E as _ <-. unfold sample_rows. apply map_length.
Qed.

(** ---- C16 ---- *)
Lemma buffer_write_app log : forall ids1 ids2 i s s1, buffer_write_from log ids1 i s = (s1, Ok tt) ->
  buffer_write_from log (ids1 ++ ids2) i s = buffer_write_from log ids2 (i + length ids1) s1.
Proof.
  induction ids1 as [|d ids1 IH]; intros ids2 i s s1 E; cbn [buffer_write_from app length] in *.
  - injection E as <-. rewrite Nat.add_0_r. reflexivity.
  - destruct (add_log log _ i) as [[b n] ex]. destruct ex; [discriminate|].
    rewrite (IH _ _ _ _ E). f_equal. lia.
Qed.

Lemma buffer_write_rows n log : log_wf n log -> forall ids i s, i + length ids <= n ->
  Forall (fun kv => two_level (snd kv)) (s_buffer s) ->
  exists s', buffer_write_from log ids i s = (s', Ok tt) /\
    Forall (fun kv => two_level (snd kv)) (s_buffer s') /\
    s_size s' = s_size s + length ids * sample_elems log.
Proof.
  intros (items & -> & ND & F). induction ids as [|d ids IH]; intros i s L T; cbn [buffer_write_from length].
  - exists s. split; [reflexivity|]. split; [exact T|]. lia.
  - cbn [length] in L.
    assert (TL : exists l, match dget d (s_buffer s) with Some x => x | None => Node [] end = Node l /\ node_vals l).
    { destruct (dget d (s_buffer s)) as [x|] eqn:D.
      - apply dget_In in D. rewrite Forall_forall in T. destruct (T _ D) as (l & E & Nv). cbn in E. eauto.
      - exists []. split; [auto|constructor]. }
    destruct TL as (l & E & Nv). rewrite E, add_log_items.
    destruct (add_log_ok n i ltac:(lia) items F ND l 0 Nv) as (l' & Ea & Nv' & _). rewrite Ea.
    destruct (IH (S i) (Saver (s_rank s) (s_workers s) (s_threshold s) (s_path s) (s_count s)
                      (dset d (Node l') (s_buffer s)) (s_size s + (0 + sample_elems (Node items))))) as (s' & Es & T' & Z).
    { lia. }
    { cbn [s_buffer]. apply (Forall_dset two_level); auto. exists l'; auto. }
    exists s'. split; [exact Es|]. split; [exact T'|]. rewrite Z. cbn [s_size]. lia.
Qed.

Lemma too_many_ids n m0 k0 t0 lm0 l0 s ids1 id ids2 :
  let log := Node ((m0, Node ((k0, Leaf t0) :: lm0)) :: l0) in
  log_wf n log -> length ids1 = n ->
  Forall (fun kv => two_level (snd kv)) (s_buffer s) ->
  exists s1 s', buffer_write s ids1 log = (s1, Ok tt) /\
    buffer_write s (ids1 ++ id :: ids2) log = (s', Err IndexError) /\
    s_size s' = s_size s1 /\
    (forall j, j <> id -> dget j (s_buffer s') = dget j (s_buffer s1)) /\
    (dget id (s_buffer s1) = None -> dget id (s_buffer s') = Some (Node [(m0, Node [])])).
Proof.
  intros log W L T. destruct (buffer_write_rows n log W ids1 0 s ltac:(lia) T) as (s1 & E1 & T1 & _).
  assert (T0 : exists rest, a_shape t0 = n :: rest).
  { destruct W as (l & E & _ & F). injection E as <-. inversion F as [|? ? (lm & E & _ & Fl) _]; subst.
    cbn in E. injection E as <-. inversion Fl as [|? ? (t & rest & E & S & _) _]; subst. cbn in E.
    injection E as <-. eauto. }
  destruct T0 as (rest & S0).
  unfold buffer_write. rewrite (buffer_write_app _ _ _ _ _ _ E1). rewrite Nat.add_0_l, L.
  cbn [buffer_write_from].
  assert (R : (let* row := tensor_row t0 n in to_numpy row) = Err IndexError).
  { unfold tensor_row. rewrite S0, Nat.ltb_irrefl. reflexivity. }
  destruct (dget id (s_buffer s1)) as [x|] eqn:D.
  - apply dget_In in D as D'. rewrite Forall_forall in T1. destruct (T1 _ D') as (l & E & Nv). cbn in E. subst x.
    unfold log. rewrite add_log_items. cbn [add_items].
    destruct (two_level_sub l m0 Nv) as (lm & Elm). rewrite Elm.
    rewrite add_log_items. cbn [add_items]. rewrite R.
    eexists s1, _. split; [exact E1|]. split; [reflexivity|]. cbn [s_size s_buffer]. split; [lia|].
    split; [|congruence]. intros j Hj. rewrite dget_dset_neq; auto.
  - unfold log. rewrite add_log_items. cbn [add_items dget]. rewrite add_log_items. cbn [add_items]. rewrite R.
    eexists s1, _. split; [exact E1|]. split; [reflexivity|]. cbn [s_size s_buffer]. split; [lia|].
    split; [intros j Hj; apply dget_dset_neq; auto|]. intros _. rewrite dget_dset_eq. reflexivity.
Qed.
