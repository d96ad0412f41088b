(** Proofs for the storage properties C01-C05. *)
From Coq Require Import Permutation Sorted.
From Verif Require Import Py PyStr ModelMmap ModelLoader ModelSaver SpecStore
  StoreProofs1 StoreProofs2 StoreProofs3.
Local Open Scope nat_scope.

Lemma mapM_seq_nth {B} (f : nat -> res B) n off l i b :
  mapM f (seq off n) = Ok l -> nth_error l i = Some b -> f (off + i) = Ok b.
Proof.
  revert off l i. induction n as [|n IH]; intros off l i E H; cbn [seq mapM] in E.
  - injection E as <-. destruct i; discriminate.
  - destruct (f off) as [b0|] eqn:E0; cbn [bind] in E; [|discriminate].
    destruct (mapM f (seq (S off) n)) as [l0|] eqn:E1; cbn [bind] in E; [|discriminate].
    injection E as <-. destruct i as [|i]; cbn [nth_error] in H.
    + injection H as <-. rewrite Nat.add_0_r. exact E0.
    + rewrite <- (IH _ _ _ E1 H). f_equal. lia.
Qed.

(** ---- C01 ---- *)
Lemma complete_resolves ms dt x arrs : complete ms dt x arrs ->
  resolves x (grad_paths ms) arrs /\ good_arrs dt arrs /\ length arrs = length ms.
Proof.
  unfold complete, resolves, good_arrs, grad_paths.
  induction 1 as [|m a ms arrs (H1 & H2 & H3 & H4) F (IH1 & IH2 & IH3)]; cbn [map length].
  - repeat split; constructor.
  - repeat split; try (constructor; auto). lia.
Qed.

Lemma total_size_pos ms dt (buf : list (did * nd array)) arrss : NoDup ms ->
  Forall2 (fun x arrs => complete ms dt (snd x) arrs) buf arrss ->
  (exists arrs a, In arrs arrss /\ In a arrs /\ 0 < asize a) -> 0 < total_size buf.
Proof.
  intros N F (arrs & a & I1 & I2 & P).
  assert (F2 : Forall2 (fun x arrs => resolves (snd x) (grad_paths ms) arrs) buf arrss).
  { clear -F. induction F as [|? ? ? ? H]; constructor; auto. apply (complete_resolves _ _ _ _ H). }
  pose proof (totals_le _ _ _ (grad_paths_NoDup ms N) F2) as L.
  assert (Q : 0 < total nbytes arrs).
  { apply (total_pos arrs a I2). unfold nbytes. pose proof (itemsize_pos (a_dtype a)).
    unfold asize in P. nia. }
  assert (T : total nbytes arrs <= totals arrss).
  { clear -I1. unfold totals. induction arrss as [|b r IH]; [destruct I1|].
    cbn [map sum_nat fold_right]. destruct I1 as [->|I1]; [lia|]. specialize (IH I1). unfold sum_nat in IH. lia. }
  lia.
Qed.

Lemma flush_complete ms dt d s arrss cs : ms <> [] -> NoDup ms -> dir_holds ms d cs ->
  s_path s = grad_paths ms -> s_buffer s <> [] ->
  Forall2 (fun x arrs => complete ms dt (snd x) arrs) (s_buffer s) arrss ->
  (exists arrs a, In arrs arrss /\ In a arrs /\ 0 < asize a) ->
  Forall json_id (dkeys (s_buffer s)) ->
  exists d', flush_serialized d s = (d', buffer_clear (incr_count s), Ok tt) /\
    dir_holds ms d' (dset (s_rank s, s_count s) (combine (dkeys (s_buffer s)) arrss) cs) /\
    good_samples ms dt (combine (dkeys (s_buffer s)) arrss).
Proof.
  intros NE N D P NB F EX J.
  pose proof (total_size_pos _ _ _ _ N F EX) as TP.
  assert (F2 : Forall2 (fun x arrs => resolves (snd x) (s_path s) arrs) (s_buffer s) arrss).
  { rewrite P. clear -F. induction F as [|? ? ? ? H]; constructor; auto. apply (complete_resolves _ _ _ _ H). }
  set (k := (s_rank s, s_count s)).
  assert (EQ : flush_serialized d s
    = let '(d', r) := write d (cfile k) (s_buffer s) (s_path s) in
      match r with Err e => (d', s, Err e) | Ok _ => (d', buffer_clear (incr_count s), Ok tt) end).
  { unfold flush_serialized, k, cfile. cbn [fst snd]. destruct (s_buffer s); [congruence|].
    destruct (write d _ _ _) as [d' [|]]; reflexivity. }
  rewrite EQ.
  rewrite (write_ok d (cfile k) (s_buffer s) (s_path s) arrss);
    [| rewrite P; apply grad_paths_ne; auto | rewrite P; apply grad_paths_NoDup; auto
     | exact F2 | exact TP | apply json_serialisable; exact J ].
  rewrite meta_name_cfile, data_name_cfile. eexists. split; [reflexivity|].
  assert (L : length (dkeys (s_buffer s)) = length arrss).
  { unfold dkeys. rewrite map_length. eapply Forall2_length; eauto. }
  assert (C1 : map fst (combine (dkeys (s_buffer s)) arrss) = dkeys (s_buffer s)).
  { revert L. generalize (dkeys (s_buffer s)). clear. intros l. revert arrss.
    induction l; intros [|b r] L; cbn in *; try lia; auto. f_equal. apply IHl. lia. }
  assert (C2 : map snd (combine (dkeys (s_buffer s)) arrss) = arrss).
  { revert L. generalize (dkeys (s_buffer s)). clear. intros l. revert arrss.
    induction l; intros [|b r] L; cbn in *; try lia; auto. f_equal. apply IHl. lia. }
  split.
  - apply dir_holds_write; auto.
    + intros E. apply (f_equal (@length _)) in E. rewrite app_length, repeat_length in E.
      rewrite (records_length _ _ _ F2) in E. cbn in E.
      pose proof (totals_le (s_path s) _ _ ltac:(rewrite P; apply grad_paths_NoDup; auto) F2). lia.
    + eexists. cbn [fst snd]. rewrite C1, C2, P. split; reflexivity.
  - unfold good_samples. rewrite Forall_forall. intros [i arrs] I. apply in_combine_r in I. cbn [snd].
    clear -F I. induction F as [|? ? ? ? H F IH]; [destruct I|].
    destruct I as [->|I]; [|auto]. destruct (complete_resolves _ _ _ _ H) as (_ & ? & ?). auto.
Qed.

Lemma flush_roundtrip ms dt d s arrss : ms <> [] -> NoDup ms -> fresh_dir d ->
  s_path s = grad_paths ms -> s_buffer s <> [] -> NoDup (dkeys (s_buffer s)) ->
  Forall2 (fun x arrs => complete ms dt (snd x) arrs) (s_buffer s) arrss ->
  (exists arrs a, In arrs arrss /\ In a arrs /\ 0 < asize a) ->
  Forall json_id (dkeys (s_buffer s)) ->
  exists d' s', flush_serialized d s = (d', s', Ok tt) /\ s_buffer s' = [] /\
    forall listing, Permutation listing (dkeys d') ->
    exists ds, open_dataset d' listing = Ok ds /\
      ds_ids ds = dkeys (s_buffer s) /\
      forall i id arrs, nth_error (dkeys (s_buffer s)) i = Some id -> nth_error arrss i = Some arrs ->
        get_nested ds i = Ok (id, nested_of ms arrs) /\ get_flat ds i = Ok (id, flat_of dt arrs).
Proof.
  intros NE N Fd P NB ND F EX J.
  destruct (flush_complete ms dt d s arrss [] NE N (fresh_dir_holds ms d Fd) P NB F EX J)
    as (d' & E & D & G).
  exists d', (buffer_clear (incr_count s)). split; [exact E|]. split; [reflexivity|].
  intros listing PL. cbn [dset] in D.
  destruct (load_ok ms dt d' _ listing NE N D) as (ds & O & R1 & R2 & R3); auto.
  { constructor; [exact G|constructor]. }
  exists ds. split; [exact O|].
  assert (L : length (dkeys (s_buffer s)) = length arrss).
  { unfold dkeys. rewrite map_length. eapply Forall2_length; eauto. }
  assert (C1 : map fst (combine (dkeys (s_buffer s)) arrss) = dkeys (s_buffer s)).
  { revert L. generalize (dkeys (s_buffer s)). clear. intros l. revert arrss.
    induction l; intros [|b r] L; cbn in *; try lia; auto. f_equal. apply IHl. lia. }
  cbn [sort_by fold_right insert_by map concat fst snd] in R1, R2, R3. rewrite app_nil_r in *.
  rewrite first_wins_nodup in * by (rewrite C1; exact ND).
  rewrite C1 in R3. split; [exact R3|].
  intros i id arrs H1 H2.
  assert (HN : nth_error (combine (dkeys (s_buffer s)) arrss) i = Some (id, arrs)).
  { revert H1 H2. generalize (dkeys (s_buffer s)). clear. intros l. revert arrss i.
    induction l; intros [|b r] [|i]; cbn; try discriminate; try congruence. apply IHl. }
  unfold all_nested, all_flat in *.
  split.
  - apply (mapM_seq_nth _ _ 0 _ i _ R1). rewrite nth_error_map, HN. reflexivity.
  - apply (mapM_seq_nth _ _ 0 _ i _ R2). rewrite nth_error_map, HN. reflexivity.
Qed.

(** ---- C02 ---- *)
Lemma fold_upsert_app {V} (l : list (did * V)) : forall acc, NoDup (map fst (acc ++ l)) ->
  fold_left upsert l acc = acc ++ l.
Proof.
  induction l as [|x l IH]; intros acc N; cbn [fold_left]; [rewrite app_nil_r; auto|].
  unfold upsert at 2. rewrite dset_notin.
  - rewrite IH; rewrite <- app_assoc; cbn [app]; destruct x; auto.
  - rewrite map_app in N. cbn [map fst] in N. apply NoDup_remove_2 in N.
    intros H. apply N. apply in_or_app. left; auto.
Qed.
Lemma last_wins_nodup {V} (l : list (did * V)) : NoDup (map fst l) -> last_wins l = l.
Proof. intros N. apply (fold_upsert_app l []). exact N. Qed.

Lemma cut_from_concat thr bs : forall cur sz, concat (cut_from thr cur sz bs) = cur ++ bs.
Proof.
  induction bs as [|b bs IH]; intros cur sz; cbn [cut_from concat].
  - rewrite !app_nil_r. reflexivity.
  - destruct (_ && _); cbn [concat]; rewrite IH; rewrite <- app_assoc; reflexivity.
Qed.
Lemma cut_concat thr bs : concat (cut thr bs) = bs.
Proof. apply cut_from_concat. Qed.

Lemma NoDup_map_app_l {A B} (f : A -> B) l1 l2 : NoDup (map f (l1 ++ l2)) -> NoDup (map f l1).
Proof. rewrite map_app. intros N. induction (map f l1); [constructor|]. cbn in N. inversion N; subst.
  constructor; auto. intros H. apply H1. apply in_or_app; auto. Qed.
Lemma NoDup_map_app_r {A B} (f : A -> B) l1 l2 : NoDup (map f (l1 ++ l2)) -> NoDup (map f l2).
Proof. rewrite map_app. intros N. induction (map f l1); auto. cbn in N. inversion N; auto. Qed.

Lemma groups_nodup ms (gs : list (list batch)) :
  NoDup (map fst (concat (map (batch_samples ms) (concat gs)))) ->
  concat (map (group_samples ms) gs) = concat (map (batch_samples ms) (concat gs)).
Proof.
  induction gs as [|g gs IH]; cbn [map concat]; intros N; [reflexivity|].
  rewrite map_app, concat_app in N |- *.
  unfold group_samples at 1. rewrite last_wins_nodup by (eapply NoDup_map_app_l; eauto).
  f_equal. apply IH. eapply NoDup_map_app_r; eauto.
Qed.

Lemma samples_from_ids ms log i ids : map fst (samples_from ms log i ids) = ids.
Proof. revert i. induction ids; intros; cbn; [auto|]. f_equal. auto. Qed.
Lemma all_ids ms bs : map fst (concat (map (batch_samples ms) bs)) = concat (map fst bs).
Proof.
  induction bs as [|[ids log] bs IH]; cbn [map concat fst]; [auto|].
  rewrite map_app, IH. unfold batch_samples. cbn [fst snd]. rewrite samples_from_ids. reflexivity.
Qed.

Lemma no_loss_sync ms dt rank w thr d bs :
  ms <> [] -> NoDup ms -> fresh_dir d -> (w <= 1)%Z -> Forall (batch_ok ms dt) bs ->
  NoDup (concat (map fst bs)) ->
  exists d' s', save_run d (saver_init rank w thr (grad_paths ms)) bs = (d', s', Ok tt) /\
  forall listing, Permutation listing (dkeys d') ->
  exists ds, open_dataset d' listing = Ok ds /\
    let saved := concat (map (batch_samples ms) bs) in
    all_nested ds = Ok (map (fun x => (fst x, nested_of ms (snd x))) saved) /\
    all_flat ds = Ok (map (fun x => (fst x, flat_of dt (snd x))) saved) /\
    ds_ids ds = concat (map fst bs).
Proof.
  intros NE N Fd W F ND.
  destruct (save_load_sync ms dt rank w thr d bs NE N Fd W F) as (d' & s' & E & _ & L).
  exists d', s'. split; [exact E|]. intros listing P. destruct (L listing P) as (ds & O & R).
  exists ds. split; [exact O|]. cbn zeta in *.
  rewrite groups_nodup in R by (rewrite cut_concat, all_ids; exact ND).
  rewrite cut_concat in R. rewrite first_wins_nodup in R by (rewrite all_ids; exact ND).
  rewrite all_ids in R. exact R.
Qed.

(** ---- C03 ---- *)
Lemma dget_fold_upsert {V} (l : list (did * V)) id : forall acc,
  dget id (fold_left upsert l acc) = match last_value id l with Some v => Some v | None => dget id acc end.
Proof.
  induction l as [|x l IH]; intros acc; cbn [fold_left last_value]; [reflexivity|].
  rewrite IH. destruct (last_value id l); [reflexivity|]. unfold upsert. rewrite dget_dset.
  destruct (eqb id (fst x)); reflexivity.
Qed.
Lemma dget_last_wins {V} (l : list (did * V)) id : dget id (last_wins l) = last_value id l.
Proof. unfold last_wins. rewrite dget_fold_upsert. destruct (last_value id l); reflexivity. Qed.

Lemma dget_fw {V} (l : list (did * V)) id : forall acc,
  dget id (fold_left fw_step l acc) = dget id (acc ++ l).
Proof.
  induction l as [|x l IH]; intros acc; cbn [fold_left]; [rewrite app_nil_r; auto|].
  rewrite IH. unfold fw_step. destruct (mem (fst x) (map fst acc)) eqn:M.
  - rewrite !dget_app. destruct (dget id acc) eqn:D; [reflexivity|]. destruct x as [k v]. cbn [dget].
    destruct (eqb_spec id k) as [->|]; [|reflexivity]. apply mem_In in M. cbn in M.
    apply dget_None_keys in D. contradiction.
  - rewrite <- app_assoc. reflexivity.
Qed.
Lemma dget_first_wins {V} (l : list (did * V)) id : dget id (first_wins l) = dget id l.
Proof. apply (dget_fw l id []). Qed.

Lemma dget_concat_groups ms gs id :
  dget id (concat (map (group_samples ms) gs))
  = first_some (fun g => last_value id (concat (map (batch_samples ms) g))) gs.
Proof.
  induction gs as [|g gs IH]; cbn [map concat first_some]; [reflexivity|].
  rewrite dget_app, IH. unfold group_samples. rewrite dget_last_wins. reflexivity.
Qed.

Lemma fw_NoDup {V} (l : list (did * V)) : forall acc, NoDup (map fst acc) -> NoDup (map fst (fold_left fw_step l acc)).
Proof.
  induction l as [|x l IH]; intros acc N; cbn [fold_left]; [auto|]. apply IH.
  unfold fw_step. destruct (mem (fst x) (map fst acc)) eqn:M; [auto|].
  apply mem_false in M. rewrite map_app. cbn [map].
  apply Permutation_NoDup with (l := fst x :: map fst acc); [apply Permutation_cons_append|].
  constructor; auto.
Qed.
Lemma first_wins_NoDup {V} (l : list (did * V)) : NoDup (map fst (first_wins l)).
Proof. apply (fw_NoDup l []). constructor. Qed.

Lemma fw_keys_In {V} (l : list (did * V)) id :
  In id (map fst (first_wins l)) <-> In id (map fst l).
Proof.
  change (map fst (first_wins l)) with (dkeys (first_wins l)). change (map fst l) with (dkeys l).
  rewrite <- !dget_In_keys, dget_first_wins. reflexivity.
Qed.

Lemma repeated_ids ms dt rank w thr d bs :
  ms <> [] -> NoDup ms -> fresh_dir d -> (w <= 1)%Z -> Forall (batch_ok ms dt) bs ->
  exists d' s', save_run d (saver_init rank w thr (grad_paths ms)) bs = (d', s', Ok tt) /\
  forall listing, Permutation listing (dkeys d') ->
  exists ds vals, open_dataset d' listing = Ok ds /\
    all_nested ds = Ok (map (fun x => (fst x, nested_of ms (snd x))) vals) /\
    NoDup (map fst vals) /\
    (forall id, In id (map fst vals) <-> In id (concat (map fst bs))) /\
    (forall id, dget id vals
       = first_some (fun g => last_value id (concat (map (batch_samples ms) g))) (cut thr bs)).
Proof.
  intros NE N Fd W F.
  destruct (save_load_sync ms dt rank w thr d bs NE N Fd W F) as (d' & s' & E & _ & L).
  exists d', s'. split; [exact E|]. intros listing P. destruct (L listing P) as (ds & O & R1 & R2 & R3).
  exists ds, (first_wins (concat (map (group_samples ms) (cut thr bs)))).
  split; [exact O|]. split; [exact R1|]. split; [apply first_wins_NoDup|].
  assert (G : forall id, dget id (first_wins (concat (map (group_samples ms) (cut thr bs))))
       = first_some (fun g => last_value id (concat (map (batch_samples ms) g))) (cut thr bs)).
  { intros id. rewrite dget_first_wins. apply dget_concat_groups. }
  split; [|exact G].
  intros id. change (In id (map fst ?l)) with (In id (dkeys l)). rewrite <- dget_In_keys, G.
  replace (concat (map fst bs)) with (concat (map fst (concat (cut thr bs)))) by (rewrite cut_concat; auto).
  generalize (cut thr bs). clear.
  assert (A : forall l : samples, (exists v, last_value id l = Some v) <-> In id (map fst l)).
  { intros l. rewrite <- dget_last_wins. rewrite dget_In_keys.
    assert (B : forall (l acc : samples), In id (dkeys (fold_left upsert l acc)) <-> In id (map fst l) \/ In id (dkeys acc)).
    { clear. induction l as [|x l IH]; intros acc; cbn [fold_left map]; [cbn; tauto|].
      rewrite IH. unfold upsert. rewrite In_dkeys_dset. cbn [In]. intuition. }
    unfold last_wins. rewrite B. cbn. tauto. }
  intros gs. induction gs as [|g gs IH]; cbn [first_some concat].
  - cbn. split; [intros (v & H); discriminate|tauto].
  - rewrite map_app, concat_app, in_app_iff, <- IH.
    pose proof (A (concat (map (batch_samples ms) g))) as Ag. rewrite all_ids in Ag.
    transitivity ((exists v, last_value id (concat (map (batch_samples ms) g)) = Some v) \/
      exists v, first_some (fun g0 => last_value id (concat (map (batch_samples ms) g0))) gs = Some v);
      [|apply or_iff_compat_r; exact Ag].
    destruct (last_value id (concat (map (batch_samples ms) g))) as [v|].
    + split; [left; eauto|eauto].
    + split; [auto|]. intros [(v & H)|H]; [discriminate|auto].
Qed.

(** ---- C05 ---- *)
Lemma names_agree r c :
  let n := chunk_file r c in
  is_chunk_file n = true /\
  extract_rank_and_chunk (chunk_index_of n) = Ok (r, c) /\
  ("log_" ++ chunk_index_of n ++ ".mmap")%string = data_name n /\
  ("log_" ++ chunk_index_of n ++ "_metadata.json")%string = meta_name n.
Proof.
  cbn zeta. change (chunk_file r c) with (cfile (r, c)).
  rewrite is_chunk_file_cfile, chunk_index_of_cfile, extract_idx, data_name_cfile, meta_name_cfile.
  repeat split. symmetry. apply cfile_eq.
Qed.

Lemma klt_spec a b : klt a b <-> fst a < fst b \/ (fst a = fst b /\ snd a < snd b).
Proof. reflexivity. Qed.

Lemma chunk_order (ks : list (nat * nat)) (others listing : list string) :
  NoDup ks -> (forall n, In n others -> ~ exists mid, n = ("log_" ++ mid ++ ".mmap")%string) ->
  Permutation listing (map (fun k => chunk_file (fst k) (snd k)) ks ++ others) ->
  exists sorted, Permutation ks sorted /\
    StronglySorted (fun a b => fst a < fst b \/ (fst a = fst b /\ snd a < snd b)) sorted /\
    find_chunk_indices listing
    = Ok (map (fun k => chunk_index_of (chunk_file (fst k) (snd k))) sorted).
Proof.
  intros N O P.
  set (keyed := map (fun k => (k, tt)) ks).
  assert (KF : map fst keyed = ks) by (unfold keyed; rewrite map_map; apply map_id).
  exists (map fst (sort_by keyed)).
  assert (PS : Permutation ks (map fst (sort_by keyed))).
  { rewrite <- KF at 1. apply Permutation_map, sort_perm. }
  split; [exact PS|]. split; [apply sort_sorted; rewrite KF; exact N|].
  assert (Q : Permutation (filter is_chunk_file listing) (map cfile ks)).
  { assert (FP : forall l1 l2, Permutation l1 l2 -> Permutation (filter is_chunk_file l1) (filter is_chunk_file l2)).
    { induction 1; cbn.
      - constructor.
      - destruct (is_chunk_file x); [constructor|]; auto.
      - destruct (is_chunk_file x), (is_chunk_file y); (apply perm_swap || reflexivity).
      - etransitivity; eauto. }
    rewrite (FP _ _ P), filter_app.
    assert (E1 : filter is_chunk_file (map (fun k => chunk_file (fst k) (snd k)) ks) = map cfile ks).
    { change (fun k : nat * nat => chunk_file (fst k) (snd k)) with cfile. clear.
      induction ks as [|k r IH]; cbn [map filter]; [auto|]. rewrite is_chunk_file_cfile. f_equal. auto. }
    assert (E2 : filter is_chunk_file others = []).
    { clear -O. induction others as [|n r IH]; cbn [filter]; [auto|].
      destruct (is_chunk_file n) eqn:C; [|apply IH; intros; apply O; right; auto].
      apply is_chunk_file_spec in C. destruct (O n (or_introl eq_refl) C). }
    rewrite E1, E2, app_nil_r. reflexivity. }
  apply Permutation_map_inv in Q as (ks' & E & Pk).
  unfold find_chunk_indices. rewrite E, map_map.
  rewrite (map_ext _ chunk_idx) by apply chunk_index_of_cfile.
  assert (M : mapM (fun s => let* k := extract_rank_and_chunk s in Ok (k, s)) (map chunk_idx ks')
              = Ok (map (fun k => (k, chunk_idx k)) ks')).
  { clear. induction ks' as [|k r IH]; cbn [map mapM]; [reflexivity|].
    rewrite extract_idx. cbn [bind]. rewrite IH. reflexivity. }
  rewrite M. cbn [bind]. f_equal.
  rewrite (sort_unique (map (fun k => (k, chunk_idx k)) ks')
                       (map (fun k => (k, chunk_idx k)) (map fst (sort_by keyed)))).
  - rewrite !map_map. apply map_ext. intros [k u]. cbn [fst snd]. symmetry. apply (chunk_index_of_cfile k).
  - unfold ssorted. rewrite !map_map. cbn [fst]. rewrite <- map_map with (f := fst) (g := fun x => x), map_id.
    apply sort_sorted. rewrite KF. exact N.
  - apply Permutation_map. rewrite <- Pk. exact PS.
Qed.
