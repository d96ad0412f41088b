(** Storage proofs, part 7: crashes, flattened view, collation. *)
From Coq Require Import Permutation Sorted.
From Verif Require Import Py PyStr ModelMmap ModelLoader ModelSaver SpecStore
  StoreProofs1 StoreProofs2 StoreProofs3 StoreProofs4 StoreProofs5 StoreProofs6.
Local Open Scope nat_scope.

(** ---- C09 ---- *)
Lemma save_batches_sync ms dt : ms <> [] -> NoDup ms ->
  forall bs d s cs cur,
  Forall (batch_ok ms dt) bs -> (s_workers s <= 1)%Z ->
  sinv ms dt s cur -> dir_holds ms d cs ->
  exists d' s' fl cur', save_batches d s bs = (d', s', Ok tt) /\
    cut_from (s_threshold s) cur (s_size s) bs = fl ++ [cur'] /\
    s_rank s' = s_rank s /\ s_threshold s' = s_threshold s /\ (s_workers s' <= 1)%Z /\
    s_count s' = s_count s + length fl /\ sinv ms dt s' cur' /\
    dir_holds ms d' (puts cs (number (s_rank s) (s_count s) (map (group_samples ms) fl))) /\
    Forall (good_samples ms dt) (map (group_samples ms) fl).
Proof.
  intros NE N. induction bs as [|b bs IH]; intros d s cs cur F W I D; cbn [save_batches cut_from].
  - exists d, s, [], cur. cbn [map length app]. repeat split; auto; try apply I; try apply D; lia.
  - pose proof (Forall_inv F) as Hb. pose proof (Forall_inv_tail F) as F'.
    destruct (save_log_sync ms dt d s cs cur b NE N W Hb I D) as (d1 & s1 & E & R1 & R2 & R3 & Q).
    destruct b as [ids log]. cbn [fst snd] in E. rewrite E. fold (crossing s (ids, log)).
    destruct (crossing s (ids, log)).
    + destruct Q as (I1 & C1 & Z1 & G1 & NN & D1).
      destruct (IH d1 s1 _ [] F' ltac:(lia) I1 D1) as (d2 & s2 & fl & cur' & E2 & Cu & A1 & A2 & A3 & A4 & A5 & A6 & A7).
      exists d2, s2, ((cur ++ [(ids, log)]) :: fl), cur'. rewrite E2. split; [reflexivity|].
      rewrite R3, Z1 in Cu. rewrite Cu. split; [reflexivity|]. split; [congruence|]. split; [congruence|].
      split; [exact A3|]. split; [cbn [length]; lia|]. split; [exact A5|]. split.
      * cbn [map]. rewrite number_cons. unfold puts in *. cbn [fold_left fst snd]. rewrite <- R1, <- C1. 
        rewrite R1. rewrite R1 in A6. exact A6.
      * cbn [map]. constructor; auto.
    + destruct Q as (-> & I1 & C1 & Z1).
      destruct (IH d s1 cs _ F' ltac:(lia) I1 D) as (d2 & s2 & fl & cur' & E2 & Cu & A1 & A2 & A3 & A4 & A5 & A6 & A7).
      exists d2, s2, fl, cur'. rewrite E2. split; [reflexivity|].
      rewrite R3, Z1 in Cu. rewrite R1, C1 in *. repeat split; auto; try congruence; try apply A5; try apply A6.
Qed.

Lemma crash_consistency ms dt rank w thr d bs b d1 s1 s2 :
  ms <> [] -> NoDup ms -> fresh_dir d -> (w <= 1)%Z -> Forall (batch_ok ms dt) (bs ++ [b]) ->
  NoDup (concat (map fst (bs ++ [b]))) ->
  (* metadata files left over from earlier runs are excluded *)
  (forall c, ~ In (meta_name (chunk_file rank c)) (dkeys d)) ->
  save_batches d (saver_init rank w thr (grad_paths ms)) bs = (d1, s1, Ok tt) ->
  buffer_write s1 (fst b) (snd b) = (s2, Ok tt) -> s_buffer s2 <> [] ->
  exists old : list batch,
   (exists new, bs = old ++ new) /\
   forall cp listing, Permutation listing (dkeys (crash_flush d1 s2 cp)) ->
    match cp with
    | CrashBefore => exists ds, open_dataset (crash_flush d1 s2 cp) listing = Ok ds /\
        all_nested ds = Ok (map (fun x => (fst x, nested_of ms (snd x))) (concat (map (batch_samples ms) old)))
    | CrashAfter => exists ds, open_dataset (crash_flush d1 s2 cp) listing = Ok ds /\
        all_nested ds = Ok (map (fun x => (fst x, nested_of ms (snd x))) (concat (map (batch_samples ms) (bs ++ [b]))))
    | CrashData _ | CrashMeta => exists e, open_dataset (crash_flush d1 s2 cp) listing = Err e
    end.
Proof.
  intros NE N Fd W F ND NM E Eb B.
  apply Forall_app in F as (F & Fb). pose proof (Forall_inv Fb) as Hb.
  destruct (save_batches_sync ms dt NE N bs d (saver_init rank w thr (grad_paths ms)) [] [] F W)
    as (d1' & s1' & fl & cur & E' & Cu & R1 & R2 & R3 & R4 & I1 & D1 & G1).
  { apply (sinv_nil ms dt (saver_init rank w thr (grad_paths ms))). reflexivity. }
  { apply fresh_dir_holds. exact Fd. }
  rewrite E in E'. injection E' as <- <-. cbn [saver_init s_rank s_threshold s_size s_count] in *.
  rewrite puts_nil in D1 by (rewrite number_keys; apply FinFun.Injective_map_NoDup; [intros ? ? [=]; auto|apply seq_NoDup]).
  rewrite Nat.add_0_l in R4.
  destruct (buffer_write_inv ms dt s1 cur b NE Hb I1) as (buf' & Eb' & I2). rewrite Eb in Eb'. injection Eb' as ->.
  set (s2 := with_buf s1 buf' (s_size s1 + batch_elems b)) in *.
  assert (NR : s_rank s2 = rank /\ s_count s2 = length fl) by (split; [exact R1|exact R4]).
  destruct NR as (K1 & K2).
  assert (CC : cut thr bs = fl ++ [cur]) by exact Cu.
  assert (BS : bs = concat fl ++ cur).
  { rewrite <- (cut_concat thr bs), CC, concat_app. cbn. rewrite app_nil_r. reflexivity. }
  assert (NDs : NoDup (map fst (concat (map (batch_samples ms) (bs ++ [b]))))) by (rewrite all_ids; exact ND).
  exists (concat fl). split; [exists cur; exact BS|]. intros cp listing P.
  assert (GO : concat (map (group_samples ms) fl) = concat (map (batch_samples ms) (concat fl))).
  { apply groups_nodup. rewrite BS in NDs. rewrite <- app_assoc, map_app, concat_app in NDs.
    eapply NoDup_map_app_l; eauto. }
  assert (GN : concat (map (group_samples ms) (fl ++ [cur ++ [b]])) = concat (map (batch_samples ms) (bs ++ [b]))).
  { replace (bs ++ [b]) with (concat (fl ++ [cur ++ [b]])).
    - apply groups_nodup. rewrite concat_app. cbn [concat]. rewrite app_nil_r, app_assoc, <- BS. exact NDs.
    - rewrite concat_app. cbn [concat]. rewrite app_nil_r, app_assoc, <- BS. reflexivity. }
  unfold crash_flush in *. rewrite K1, K2 in *. set (k := (rank, length fl)).
  change (chunk_file rank (length fl)) with (cfile k) in *.
  assert (NG : group_samples ms (cur ++ [b]) <> []).
  { destruct I2 as (_ & (F2 & _) & _). intros C. apply B. change (s_buffer s2) with buf' in *. inversion F2; congruence. }
  assert (MK : forall n, In n (dkeys d1) -> n <> mfile k).
  { (* the directory never holds this metadata file *)
    intros n In1 ->. clear -E NM In1 W K1 R4. 
    assert (X : forall bs d s d' s', save_batches d s bs = (d', s', Ok tt) -> (s_workers s <= 1)%Z ->
              s_rank s' = s_rank s /\ s_count s <= s_count s' /\
              forall c, In (mfile (s_rank s, c)) (dkeys d') -> In (mfile (s_rank s, c)) (dkeys d) \/ s_count s <= c < s_count s').
    { clear. induction bs as [|[ids log] bs IH]; intros d s d' s' E W; cbn [save_batches] in E.
      - injection E as <- <-. repeat split; auto.
      - destruct (save_log d s ids log) as [[d1 s1] [[]|e]] eqn:Es; [|discriminate].
        assert (Y : s_workers s1 = s_workers s /\ s_rank s1 = s_rank s /\ s_count s <= s_count s1 /\
           forall c, In (mfile (s_rank s, c)) (dkeys d1) -> In (mfile (s_rank s, c)) (dkeys d) \/ s_count s <= c < s_count s1).
        { unfold save_log in Es. destruct (buffer_write s ids log) as [sb [[]|e]] eqn:Ebw; [|discriminate].
          assert (Z : s_workers sb = s_workers s /\ s_rank sb = s_rank s /\ s_count sb = s_count s).
          { clear -Ebw. unfold buffer_write in Ebw. revert Ebw. generalize 0. revert s.
            induction ids as [|id ids IH]; intros s i Ebw; cbn [buffer_write_from] in Ebw.
            - injection Ebw as <-. auto.
            - destruct (add_log log _ i) as [[bb n] ex]. destruct ex; [discriminate|]. apply IH in Ebw. exact Ebw. }
          destruct Z as (Z1 & Z2 & Z3). rewrite <- Z1, <- Z2, <- Z3. unfold flush in Es.
          destruct (_ && _); [|injection Es as <- <-; auto].
          replace (1 <? s_workers sb)%Z with false in Es by (symmetry; apply Z.ltb_ge; lia).
          unfold flush_serialized in Es. destruct (s_buffer sb) as [|x0 r0] eqn:Bs; [injection Es as <- <-; auto|].
          unfold write in Es.
          change (chunk_file (s_rank sb) (s_count sb)) with (cfile (s_rank sb, s_count sb)) in Es.
          rewrite data_name_cfile, meta_name_cfile in Es.
          destruct (Nat.eqb _ 0); [discriminate|].
          destruct (write_samples _ _ _ _ _) as [mm [meta|e]]; [|discriminate].
          destruct (forallb _ meta); [|discriminate]. injection Es as <- <-. cbn [buffer_clear incr_count s_workers s_rank s_count].
          do 2 (split; [reflexivity|]). split; [lia|]. intros c I. apply In_dkeys_dset in I as [I|I].
          + apply mfile_inj in I. injection I as ->. right. lia.
          + apply In_dkeys_dset in I as [I|I]; [destruct (mfile_cfile _ _ I)|auto]. }
        destruct Y as (Y1 & Y2 & Y3 & Y4). destruct (IH _ _ _ _ E ltac:(lia)) as (X1 & X2 & X3).
        split; [congruence|]. split; [lia|]. intros c I. rewrite <- Y2 in I. apply X3 in I as [I|I]; [|lia].
        rewrite Y2 in I. apply Y4 in I as [I|I]; [auto|lia]. }
    destruct (X _ _ _ _ _ E W) as (_ & _ & X3). cbn [saver_init s_rank s_count] in X3.
    apply X3 in In1 as [I|I]; [|lia]. apply (NM (length fl)).
    change (chunk_file rank (length fl)) with (cfile (rank, length fl)). rewrite meta_name_cfile. exact I. }
  destruct cp as [|bs0| |]; cbn [crash_write] in *; rewrite ?data_name_cfile, ?meta_name_cfile in *.
  - destruct (load_ok ms dt d1 _ listing NE N D1) as (ds & O & A & _); auto.
    { rewrite number_snd. exact G1. }
    exists ds. split; [exact O|]. cbn zeta in A. rewrite A. f_equal. f_equal.
    rewrite sort_sorted_id by apply number_sorted. rewrite number_snd, GO. apply first_wins_nodup.
    rewrite BS in NDs. rewrite <- app_assoc, map_app, concat_app in NDs. eapply NoDup_map_app_l; eauto.
  - apply (open_unreadable _ _ k).
    + eapply Permutation_in; [symmetry; exact P|]. apply In_dkeys_dset. auto.
    + right. right. rewrite dget_dset_neq by (apply mfile_cfile). apply dget_None_keys. intros C. apply (MK _ C). reflexivity.
  - apply (open_unreadable _ _ k).
    + eapply Permutation_in; [symmetry; exact P|]. apply In_dkeys_dset. right. apply In_dkeys_dset. auto.
    + right. left. apply get_meta.
  - destruct (flush_serialized_ok ms dt d1 s2 (group_samples ms (cur ++ [b]))
      (number rank 0 (map (group_samples ms) fl)) NE N) as (d2 & Ef & D2); auto.
    { apply I2. } { apply I2. }
    assert (Ew : fst (write d1 (cfile k) (s_buffer s2) (s_path s2)) = d2).
    { unfold flush_serialized in Ef. destruct (s_buffer s2) as [|x0 r0] eqn:Bs; [congruence|]. rewrite <- Bs in *.
      rewrite K1, K2 in Ef. change (chunk_file rank (length fl)) with (cfile k) in Ef.
      destruct (write d1 (cfile k) (s_buffer s2) (s_path s2)) as [dw [u|e]]; [|discriminate]. injection Ef as <-. reflexivity. }
    rewrite Ew in *. rewrite K1, K2 in D2. fold k in D2.
    rewrite dset_notin in D2.
    2:{ unfold dkeys. rewrite number_keys, map_length. intros C. apply in_map_iff in C as (i & [= <-] & C). apply in_seq in C. lia. }
    assert (DN : number rank 0 (map (group_samples ms) fl) ++ [(k, group_samples ms (cur ++ [b]))]
                 = number rank 0 (map (group_samples ms) (fl ++ [cur ++ [b]]))).
    { rewrite map_app. cbn [map]. rewrite number_snoc, map_length. reflexivity. }
    assert (D3 : dir_holds ms d2 (number rank 0 (map (group_samples ms) (fl ++ [cur ++ [b]])))).
    { rewrite <- DN. exact D2. }
    destruct (load_ok ms dt d2 _ listing NE N D3) as (ds & O & A & _); auto.
    { rewrite number_snd, map_app. apply Forall_app. split; [exact G1|]. repeat constructor. eapply group_good; eauto. }
    exists ds. split; [exact O|]. cbn zeta in A. rewrite A. f_equal. f_equal.
    rewrite sort_sorted_id by apply number_sorted. rewrite number_snd, GN. apply first_wins_nodup. exact NDs.
Qed.

(** ---- C14 ---- *)
Lemma skipn_firstn_len {X} (l : list X) n k : n + k <= length l -> length (firstn k (skipn n l)) = k.
Proof. intros H. rewrite firstn_length, skipn_length. lia. Qed.
Lemma firstn_split {X} (l : list X) n m : firstn (n + m) l = firstn n l ++ firstn m (skipn n l).
Proof.
  revert l. induction n as [|n IH]; intros l; cbn; [reflexivity|]. destruct l; cbn; [rewrite firstn_nil; reflexivity|].
  rewrite IH. reflexivity.
Qed.

Lemma unflatten_view (flat : array) blk ms : a_shape flat = [blk] -> NoDup ms ->
  forall shs start acc r stop, (forall m, In m ms -> ~ In m (dkeys acc)) ->
  unflatten_all flat (grad_paths ms) shs start acc = Ok (r, stop) ->
  exists arrs, length arrs = length ms /\ Forall (fun a => a_dtype a = a_dtype flat) arrs /\
    r = acc ++ map (fun ma => (fst ma, Node [("grad"%string, Leaf (snd ma))])) (combine ms arrs) /\
    stop = start + total asize arrs /\
    concat (map a_bytes arrs)
    = firstn ((stop - start) * itemsize (a_dtype flat)) (skipn (start * itemsize (a_dtype flat)) (a_bytes flat)).
Proof.
  intros Sh. induction ms as [|m ms IH]; intros N shs start acc r stop Fr E.
  - cbn in E. injection E as <- <-. exists []. cbn. rewrite app_nil_r, Nat.add_0_r, Nat.sub_diag. cbn.
    repeat split; auto.
  - inversion N as [|? ? Hm N']; subst. destruct shs as [|sh shs]; cbn [grad_paths map unflatten_all] in E; [discriminate|].
    fold (grad_paths ms) in E.
    destruct (unflatten_tensor flat sh start) as [[t st]|] eqn:Et; [|discriminate]. cbn [bind] in E.
    rewrite nd_set_fresh in E by (apply Fr; left; auto). cbn [bind] in E.
    apply IH in E as (arrs & L & Dt & -> & -> & By); auto.
    2:{ intros m' I C. unfold dkeys in C. rewrite map_app, in_app_iff in C. destruct C as [C|[C|[]]].
        - apply (Fr m'); [right; auto|exact C].
        - cbn in C. congruence. }
    unfold unflatten_tensor in Et. destruct (reduce_mul sh) as [n|] eqn:Er; [|discriminate]. cbn [bind] in Et.
    assert (n = prod sh) as -> by (destruct sh; [discriminate|injection Er as <-; reflexivity]).
    destruct (Nat.eqb_spec (Nat.min (prod sh) (prod (a_shape flat) - start)) (prod sh)) as [Em|]; [|discriminate].
    injection Et as <- <-. rewrite Em in *.
    exists (Arr sh (a_dtype flat) (firstn (prod sh * itemsize (a_dtype flat))
              (skipn (start * itemsize (a_dtype flat)) (a_bytes flat))) :: arrs).
    cbn [length map combine concat a_bytes fst snd]. rewrite total_cons.
    match goal with |- context [asize (Arr sh ?d ?b)] => change (asize (Arr sh d b)) with (prod sh) end.
    split; [lia|]. split; [constructor; auto|]. split; [rewrite <- app_assoc; reflexivity|].
    split; [lia|]. rewrite By.
    replace (start + prod sh + total asize arrs - start) with (prod sh + total asize arrs) by lia.
    replace (start + prod sh + total asize arrs - (start + prod sh)) with (total asize arrs) by lia.
    rewrite (Nat.mul_add_distr_r (prod sh)), firstn_split, skipn_skipn. f_equal. f_equal. f_equal. ring.
Qed.

Lemma views_agree ds i id chunk e ms x : NoDup ms ->
  nth_error (ds_map ds) i = Some (id, (chunk, e)) -> e_path e = grad_paths ms ->
  get_nested ds i = Ok x ->
  exists arrs, length arrs = length ms /\ Forall (fun a => a_dtype a = e_dtype e) arrs /\
    x = (id, nested_of ms arrs) /\ get_flat ds i = Ok (id, flat_of (e_dtype e) arrs).
Proof.
  intros N En Ep Ex. unfold get_nested, get_flat, get_record in *. rewrite En in *.
  destruct (nth_error (ds_mm ds) chunk) as [mm|]; [|discriminate]. cbn [bind] in *.
  unfold get_flatten_item in *. destruct (_ <=? _) eqn:L; [|discriminate]. apply Nat.leb_le in L. cbn [bind] in *.
  rewrite Ep in Ex. destruct (unflatten_all _ _ _ _ _) as [[r stop]|] eqn:Eu; [|discriminate]. cbn [bind] in Ex.
  destruct (Nat.eqb_spec (e_block e) stop) as [Es|]; [|discriminate]. injection Ex as <-.
  eapply unflatten_view in Eu as (arrs & La & Dt & -> & -> & By); [|reflexivity|exact N|intros m _ []].
  cbn [a_dtype a_bytes] in *. exists arrs. split; [exact La|]. split; [exact Dt|]. split; [reflexivity|].
  rewrite Es in By. unfold flat_of. rewrite Es. f_equal. f_equal. f_equal. rewrite By, !Nat.add_0_l, Nat.sub_0_r.
  rewrite Nat.mul_0_l. cbn [skipn]. rewrite firstn_firstn, Nat.min_id. reflexivity.
Qed.

(** ---- C15 ---- *)
Definition accf {A} (ms : list string) (f : string -> list A) : nd (list A) :=
  Node (map (fun m => (m, Node [("grad"%string, Leaf (f m))])) ms).
Definition supd {A} (f : string -> A) (m : string) (x : A) : string -> A :=
  fun q => if String.eqb q m then x else f q.
Definition nest {A} (ms : list string) (l : list A) : nd A :=
  Node (map (fun ma => (fst ma, Node [("grad"%string, Leaf (snd ma))])) (combine ms l)).

Lemma accf_get {A} ms (f : string -> list A) m : In m ms ->
  dget m (map (fun m => (m, Node [("grad"%string, Leaf (f m))])) ms) = Some (Node [("grad"%string, Leaf (f m))]).
Proof.
  intros I. induction ms as [|m' ms IH]; [destruct I|]. cbn [map dget]. destruct (eqb_spec m m') as [->|]; auto.
  apply IH. destruct I; congruence.
Qed.
Lemma accf_get_none {A} ms (f : string -> list A) m : ~ In m ms ->
  dget m (map (fun m => (m, Node [("grad"%string, Leaf (f m))])) ms) = None.
Proof. intros I. apply dget_None_keys. unfold dkeys. rewrite map_map. cbn. rewrite map_id. exact I. Qed.
Lemma accf_set {A} ms (f : string -> list A) m x : NoDup ms -> In m ms ->
  dset m (Node [("grad"%string, Leaf x)]) (map (fun m => (m, Node [("grad"%string, Leaf (f m))])) ms)
  = map (fun q => (q, Node [("grad"%string, Leaf (supd f m x q))])) ms.
Proof.
  intros N I. induction N as [|m' ms H N IH]; [destruct I|]. cbn [map dset].
  destruct (eqb_spec m m') as [->|Ne].
  - unfold supd at 1. rewrite String.eqb_refl. f_equal. apply map_ext_in. intros q Iq. unfold supd.
    destruct (String.eqb_spec q m'); [subst; contradiction|reflexivity].
  - destruct I as [->|I]; [congruence|]. rewrite IH by exact I. f_equal. unfold supd.
    destruct (String.eqb_spec m' m); [subst; congruence|reflexivity].
Qed.

Fixpoint put_cols {A} (l : list (string * A)) (f : string -> list A) : string -> list A :=
  match l with [] => f | (m, a) :: r => put_cols r (supd f m (f m ++ [a])) end.

Lemma merge_ok {A} ms (l : list (string * A)) : NoDup ms -> Forall (fun ma => In (fst ma) ms) l -> forall f,
  merge_dicts (Node (map (fun ma => (fst ma, Node [("grad"%string, Leaf (snd ma))])) l)) (accf ms f)
  = Ok (accf ms (put_cols l f)).
Proof.
  intros N F. unfold accf. cbn [merge_dicts]. induction F as [|[m a] l I F IH]; intros f; [reflexivity|].
  cbn [map fst snd put_cols] in *. unfold dgetM. rewrite accf_get by exact I. cbn [bind].
  cbn [dget eqb Eqb_string String.eqb]. cbn. rewrite accf_set by auto. apply IH.
Qed.
Lemma merge_extra {A} ms (l : list (string * A)) : NoDup ms -> Exists (fun ma => ~ In (fst ma) ms) l -> forall f,
  merge_dicts (Node (map (fun ma => (fst ma, Node [("grad"%string, Leaf (snd ma))])) l)) (accf ms f) = Err KeyError.
Proof.
  intros N. unfold accf. cbn [merge_dicts]. induction l as [|[m a] l IH]; intros X f; [inversion X|].
  cbn [map fst snd]. unfold dgetM at 1. destruct (in_dec String.string_dec m ms) as [I|I].
  - rewrite accf_get by exact I. cbn. rewrite accf_set by auto. apply IH. inversion X; subst; [contradiction|auto].
  - rewrite accf_get_none by exact I. reflexivity.
Qed.

Lemma init_nest {A} ms (l : list A) : length l = length ms -> init_collate (nest ms l) = accf ms (fun _ => []).
Proof.
  intros L. unfold nest, accf. cbn [init_collate]. f_equal. revert l L.
  induction ms as [|m ms IH]; intros [|a l] L; cbn in *; try discriminate; auto.
  rewrite IH by lia. reflexivity.
Qed.

Lemma put_cols_get {A} ms (l : list A) (a0 : A) : NoDup ms -> length l = length ms -> forall f j m, nth_error ms j = Some m ->
  put_cols (combine ms l) f m = f m ++ [nth j l a0].
Proof.
  intros N. revert l. induction N as [|m0 ms H N IH]; intros l L f j m E; [destruct j; discriminate|].
  destruct l as [|a l]; [discriminate|]. cbn [combine put_cols]. destruct j as [|j].
  - cbn in E. injection E as <-. cbn [nth].
    assert (K : forall (l : list (string * A)) f, ~ In m0 (map fst l) -> put_cols l f m0 = f m0).
    { clear. induction l as [|[q x] l IH]; intros f I; cbn in *; auto. rewrite IH by tauto. unfold supd.
      destruct (String.eqb_spec m0 q); [subst; tauto|reflexivity]. }
    rewrite K. { unfold supd. rewrite String.eqb_refl. reflexivity. }
    intros C. apply H. apply in_map_iff in C as ([q x] & <- & C). apply in_combine_l in C. exact C.
  - cbn [nth_error nth] in *. cbn [length] in L. rewrite (IH l ltac:(lia) _ j m E). unfold supd.
    destruct (String.eqb_spec m m0) as [->|]; [|reflexivity]. apply nth_error_In in E. contradiction.
Qed.

Lemma fold_merge {A} ms (a0 : A) (c : list (did * list A)) : NoDup ms ->
  Forall (fun x => length (snd x) = length ms) c -> forall f,
  exists g, foldM (fun acc x => merge_dicts (snd x) acc) (map (fun x => (fst x, nest ms (snd x))) c) (accf ms f)
    = Ok (accf ms g) /\
  forall j m, nth_error ms j = Some m -> g m = f m ++ map (fun x => nth j (snd x) a0) c.
Proof.
  intros N F. induction F as [|[id l] c L F IH]; intros f; cbn [map foldM fst snd].
  - exists f. split; auto. intros. rewrite app_nil_r. reflexivity.
  - cbn [snd] in L. unfold nest at 1. rewrite merge_ok; auto.
    2:{ apply Forall_forall. intros [m a] I. apply in_combine_l in I. exact I. }
    cbn [bind]. destruct (IH (put_cols (combine ms l) f)) as (g & E & H). exists g. split; [exact E|].
    intros j m Ej. rewrite (H j m Ej), (put_cols_get ms l a0 N L f j m Ej). cbn [map snd]. rewrite <- app_assoc. reflexivity.
Qed.

Lemma collate_accf {A B} (stack : list A -> res B) ms g (out : list B) :
  Forall2 (fun m b => stack (g m) = Ok b) ms out -> collate_structure stack (accf ms g) = Ok (nest ms out).
Proof.
  intros F. unfold accf, nest. cbn [collate_structure]. 
  match goal with |- bind ?x _ = _ => assert (E : x = Ok (map (fun ma => (fst ma, Node [("grad"%string, Leaf (snd ma))])) (combine ms out))) end.
  { induction F as [|m b ms out E F IH]; [reflexivity|]. cbn [map combine fst snd]. cbn [collate_structure].
    rewrite E. cbn [bind]. rewrite IH. reflexivity. }
  rewrite E. reflexivity.
Qed.

Lemma dtype_eqb_refl d : dtype_eqb d d = true.
Proof. destruct d; reflexivity. Qed.
Lemma natlist_eqb_refl l : natlist_eqb l l = true.
Proof. induction l; cbn; auto. rewrite Nat.eqb_refl. auto. Qed.

Lemma stack_col dt sh (col : list array) : col <> [] ->
  Forall (fun a => a_shape a = sh /\ a_dtype a = dt) col ->
  stack_arrays col = Ok (Arr (length col :: sh) dt (concat (map a_bytes col))).
Proof.
  intros NE F. unfold stack_arrays. destruct col as [|a r]; [congruence|].
  pose proof (Forall_inv F) as (S & D). rewrite S, D.
  assert (E : forallb (fun b => natlist_eqb sh (a_shape b) && dtype_eqb dt (a_dtype b)) (a :: r) = true).
  { apply forallb_forall. intros b I. rewrite Forall_forall in F. destruct (F b I) as (-> & ->).
    rewrite natlist_eqb_refl, dtype_eqb_refl. reflexivity. }
  rewrite E. reflexivity.
Qed.

Lemma chunks_In {A} fuel k : forall (l : list A) c x, In c (chunks_fuel fuel k l) -> In x c -> In x l.
Proof.
  induction fuel as [|f IH]; intros l c x I Ix; [destruct I|]. cbn [chunks_fuel] in I.
  destruct l as [|a l]; [destruct I|]. destruct I as [<-|I].
  - rewrite <- (firstn_skipn k (a :: l)). apply in_or_app. auto.
  - rewrite <- (firstn_skipn k (a :: l)). apply in_or_app. right. eapply IH; eauto.
Qed.
Lemma chunks_map {A B} (f : A -> B) fuel k : forall l, chunks_fuel fuel k (map f l) = map (map f) (chunks_fuel fuel k l).
Proof.
  induction fuel as [|n IH]; intros l; cbn [chunks_fuel]; [reflexivity|]. destruct l as [|a l]; [reflexivity|].
  cbn [map]. cbn iota. change (f a :: map f l) with (map f (a :: l)).
  rewrite firstn_map, skipn_map, IH. reflexivity.
Qed.
Lemma mapM_map {A B C} (f : A -> B) (g : B -> res C) l : mapM g (map f l) = mapM (fun a => g (f a)) l.
Proof. induction l; cbn; auto. rewrite IHl. reflexivity. Qed.

Lemma uniform_nth ms dt shs c j : uniform ms dt shs c -> j < length ms ->
  Forall (fun a => a_shape a = nth j shs [] /\ a_dtype a = dt) (map (fun x => nth j (snd x) (Arr [] F32 [])) c).
Proof.
  intros (L & F) J. apply Forall_forall. intros a I. apply in_map_iff in I as (x & <- & I).
  rewrite Forall_forall in F. destruct (F x I) as (S & D).
  assert (Lx : length (snd x) = length ms) by (rewrite <- L, <- S, map_length; reflexivity).
  rewrite <- S. split.
  - rewrite <- (map_nth a_shape). reflexivity.
  - rewrite Forall_forall in D. apply D. apply nth_In. lia.
Qed.

Lemma collate_uniform ms dt shs (c : list (did * list array)) : NoDup ms -> c <> [] -> uniform ms dt shs c ->
  collate_nested_dicts stack_arrays (map (fun x => (fst x, nested_of ms (snd x))) c)
  = Ok (map fst c, nested_of ms (map (stacked c) (seq 0 (length ms)))).
Proof.
  intros N NE U. destruct c as [|[id l] c]; [congruence|]. set (c0 := (id, l) :: c) in *.
  pose proof U as (L & F).
  assert (Ll : Forall (fun x => length (snd x) = length ms) c0).
  { apply Forall_forall. intros x I. rewrite Forall_forall in F. destruct (F x I) as (S & _).
    rewrite <- L, <- S, map_length. reflexivity. }
  unfold collate_nested_dicts.
  change (map (fun x => (fst x, nested_of ms (snd x))) c0) with ((id, nested_of ms l) :: map (fun x : did * list array => (fst x, nested_of ms (snd x))) c).
  cbn iota. unfold nested_of at 1. 
  change ((id, nested_of ms l) :: map (fun x : did * list array => (fst x, nested_of ms (snd x))) c)
    with (map (fun x : did * list array => (fst x, nest ms (snd x))) c0).
  fold (nest ms l). rewrite (init_nest ms l) by (apply (Forall_inv Ll)).
  destruct (fold_merge ms (Arr [] F32 []) c0 N Ll (fun _ => [])) as (g & E & G). rewrite E. cbn [bind].
  rewrite (collate_accf stack_arrays ms g (map (stacked c0) (seq 0 (length ms)))).
  - cbn [bind]. rewrite map_map. reflexivity.
  - assert (K : forall i m, nth_error ms i = Some m -> stack_arrays (g m) = Ok (stacked c0 i)).
    { intros i m Em. rewrite (G i m Em). cbn [app].
      assert (Ji : i < length ms) by (apply nth_error_Some; congruence).
      pose proof (uniform_nth ms dt shs c0 i U Ji) as Uc.
      rewrite (stack_col dt (nth i shs [])); [|discriminate|exact Uc].
      unfold stacked. rewrite map_length. f_equal.
      assert (HD : a_shape (hd (Arr [] F32 []) (map (fun x => nth i (snd x) (Arr [] F32 [])) c0)) = nth i shs [] /\
                   a_dtype (hd (Arr [] F32 []) (map (fun x => nth i (snd x) (Arr [] F32 [])) c0)) = dt).
      { exact (Forall_inv Uc). }
      destruct HD as (S & D). cbv zeta. rewrite S, D. reflexivity. }
    clear -K.
    assert (Z : forall ms off, (forall i m, nth_error ms i = Some m -> stack_arrays (g m) = Ok (stacked c0 (off + i))) ->
      Forall2 (fun m b => stack_arrays (g m) = Ok b) ms (map (stacked c0) (seq off (length ms)))).
    { clear. induction ms as [|m ms IH]; intros off K; cbn; constructor.
      - rewrite (K 0 m eq_refl). rewrite Nat.add_0_r. reflexivity.
      - apply IH. intros i m' E. rewrite (K (S i) m' E). f_equal. f_equal. lia. }
    apply Z. exact K.
Qed.

Lemma row_stacked (c : list (did * list array)) ms dt shs j i : uniform ms dt shs c -> j < length ms ->
  Forall (fun x => Forall arr_wf (snd x)) c -> i < length c ->
  row (stacked c j) i = nth j (snd (nth i c (DInt 0, []))) (Arr [] F32 []).
Proof.
  intros U J W I. pose proof (uniform_nth ms dt shs c j U J) as Uc.
  set (col := map (fun x => nth j (snd x) (Arr [] F32 [])) c) in *.
  assert (Wc : Forall arr_wf col).
  { apply Forall_forall. intros a Ia. apply in_map_iff in Ia as (x & <- & Ix). rewrite Forall_forall in W.
    pose proof (W x Ix) as Wx. rewrite Forall_forall in Wx. apply Wx. apply nth_In.
    destruct U as (L & F). rewrite Forall_forall in F. destruct (F x Ix) as (S & _).
    rewrite <- (map_length a_shape), S, L. exact J. }
  assert (Nc : nth i col (Arr [] F32 []) = nth j (snd (nth i c (DInt 0, []))) (Arr [] F32 [])).
  { unfold col. rewrite (nth_indep _ _ (nth j (snd (DInt 0, @nil array)) (Arr [] F32 []))) by (rewrite map_length; auto).
    rewrite (map_nth (fun x => nth j (snd x) (Arr [] F32 []))). reflexivity. }
  rewrite <- Nc. clear Nc. unfold row, stacked. fold col. cbn [a_shape tl a_dtype a_bytes].
  assert (Ic : i < length col) by (unfold col; rewrite map_length; auto). clearbody col. clear U W J I c.
  assert (NE : col <> []) by (destruct col; [cbn in Ic; lia|discriminate]).
  destruct col as [|a0 r] eqn:Ec; [congruence|]. cbn [hd]. pose proof (Forall_inv Uc) as (S0 & D0). rewrite S0, D0.
  rewrite <- Ec in *. clear Ec NE S0 D0 a0 r. set (sh := nth j shs []) in *. clearbody sh.
  revert i Ic. induction Uc as [|a col (Sa & D) Uc IH]; intros i Ic; [cbn in Ic; lia|].
  pose proof (Forall_inv Wc) as Wa. pose proof (Forall_inv_tail Wc) as Wc'.
  assert (Lb : length (a_bytes a) = itemsize dt * prod sh) by (rewrite Wa; unfold nbytes; rewrite Sa, D; reflexivity).
  cbn [map concat]. destruct i as [|i].
  - cbn [Nat.mul skipn nth]. rewrite <- Lb, firstn_app, firstn_all, Nat.sub_diag. cbn [firstn]. rewrite app_nil_r.
    destruct a; cbn in *; subst; reflexivity.
  - cbn [nth]. rewrite <- (IH Wc' i) by (cbn in Ic; lia). f_equal. f_equal.
    replace (S i * (itemsize dt * prod sh)) with (length (a_bytes a) + i * (itemsize dt * prod sh)) by lia.
    rewrite skipn_app. rewrite skipn_all2 by lia. cbn [app]. f_equal. lia.
Qed.

Lemma dataloader_ok ds ms dt shs k kept : NoDup ms -> 0 < k ->
  all_nested ds = Ok (map (fun x => (fst x, nested_of ms (snd x))) kept) -> uniform ms dt shs kept ->
  dataloader ds k
  = Ok (map (fun c => (map fst c, nested_of ms (map (stacked c) (seq 0 (length ms))))) (chunks k kept)).
Proof.
  intros N K A U. unfold dataloader. rewrite A. cbn [bind]. unfold chunks. rewrite map_length, chunks_map, mapM_map.
  pose proof (chunks_fuel_nonempty (length kept) k kept K) as NE.
  assert (UC : Forall (uniform ms dt shs) (chunks_fuel (length kept) k kept)).
  { apply Forall_forall. intros c I. destruct U as (L & F). split; [exact L|]. apply Forall_forall. intros x Ix.
    rewrite Forall_forall in F. apply F. eapply chunks_In; eauto. }
  clear A U. induction (chunks_fuel (length kept) k kept) as [|c cs IH]; [reflexivity|].
  cbn [mapM map]. rewrite (collate_uniform ms dt shs); auto; [|apply (Forall_inv NE)|apply (Forall_inv UC)].
  cbn [bind]. rewrite IH; [reflexivity|eapply Forall_inv_tail; eauto|eapply Forall_inv_tail; eauto].
Qed.

Lemma default_ids_ok l l' : torch_ids l l' -> default_ids l = Ok l'.
Proof.
  intros [(s & r & -> & ->)|(zs & N & -> & R & ->)]; [reflexivity|].
  assert (M : mapM (fun d => match d with DInt z => Ok z | _ => Err TypeError end) (map DInt zs) = Ok zs) by (clear; induction zs as [|z zs IH]; [reflexivity|cbn [map mapM bind]; rewrite IH; reflexivity]).
  assert (G : forallb fits64 zs = true) by (apply forallb_forall; intros z I; rewrite Forall_forall in R; specialize (R z I); unfold fits64; apply andb_true_intro; split; [apply Z.leb_le|apply Z.ltb_lt]; lia).
  destruct zs as [|z zs]; [congruence|]. unfold default_ids. cbn [map]. change (DInt z :: map DInt zs) with (map DInt (z :: zs)). rewrite M. cbn [bind]. rewrite G. reflexivity.
Qed.
(** the ids that do not collate *)
Lemma default_ids_mixed z r d : In d r -> (forall z', d <> DInt z') -> default_ids (DInt z :: r) = Err TypeError.
Proof.
  intros I N. cbn [default_ids]. replace (mapM _ (DInt z :: r)) with (Err TypeError : res (list Z)); [reflexivity|]. cbn [mapM bind].
  induction r as [|e r IH]; [destruct I|]. cbn [mapM]. destruct e as [s|z'|z'|n]; try reflexivity. cbn [bind]. destruct I as [<-|I]; [destruct (N z' eq_refl)|]. specialize (IH I). destruct (mapM _ r) as [l|e]; [discriminate IH|]. cbn [bind] in *. exact IH.
Qed.
Lemma default_ids_large zs z : In z zs -> ~ (- 2 ^ 63 <= z < 2 ^ 63)%Z -> default_ids (map DInt zs) = Err RuntimeError.
Proof.
  intros I N. assert (M : mapM (fun d => match d with DInt z => Ok z | _ => Err TypeError end) (map DInt zs) = Ok zs) by (clear; induction zs as [|z zs IH]; [reflexivity|cbn [map mapM bind]; rewrite IH; reflexivity]).
  assert (G : forallb fits64 zs = false). { destruct (forallb fits64 zs) eqn:E; [|reflexivity]. rewrite forallb_forall in E. specialize (E z I). unfold fits64 in E. apply andb_prop in E. destruct E as (E1 & E2). apply Z.leb_le in E1. apply Z.ltb_lt in E2. lia. }
  destruct zs as [|y zs]; [destruct I|]. unfold default_ids. cbn [map]. change (DInt y :: map DInt zs) with (map DInt (y :: zs)). rewrite M. cbn [bind]. rewrite G. reflexivity.
Qed.
Lemma dataloader_flat_ok ds dt n k (kept : list (did * array)) (ids : list (did * array) -> list did) : 0 < k ->
  all_flat ds = Ok kept -> Forall (fun x => a_shape (snd x) = [n] /\ a_dtype (snd x) = dt) kept ->
  (forall c, In c (chunks k kept) -> torch_ids (map fst c) (ids c)) ->
  dataloader_flat ds k
  = Ok (map (fun c => (ids c, Arr [length c; n] dt (concat (map (fun x => a_bytes (snd x)) c)))) (chunks k kept)).
Proof.
  intros K A U T. unfold dataloader_flat. rewrite A. cbn [bind]. unfold chunks in *.
  pose proof (chunks_fuel_nonempty (length kept) k kept K) as NE.
  assert (UC : Forall (Forall (fun x => a_shape (snd x) = [n] /\ a_dtype (snd x) = dt)) (chunks_fuel (length kept) k kept)).
  { apply Forall_forall. intros c I. apply Forall_forall. intros x Ix. rewrite Forall_forall in U. apply U. eapply chunks_In; eauto. }
  clear A U. induction (chunks_fuel (length kept) k kept) as [|c cs IH]; [reflexivity|].
  cbn [mapM map]. rewrite (default_ids_ok _ _ (T c (or_introl eq_refl))). cbn [bind]. rewrite (stack_col dt [n]).
  - cbn [bind]. rewrite IH; [|intros c' I'; apply T; right; exact I'|eapply Forall_inv_tail; eauto|eapply Forall_inv_tail; eauto]. cbn [bind].
    rewrite map_length, map_map. reflexivity.
  - pose proof (Forall_inv NE) as H. destruct c; [congruence|discriminate].
  - pose proof (Forall_inv UC) as H. clear -H. induction H; cbn; constructor; auto.
Qed.

Lemma dataloader_flat_ids ds k (kept : list (did * array)) c cs : 0 < k -> all_flat ds = Ok kept -> chunks k kept = c :: cs ->
  (forall z r d, map fst c = DInt z :: r -> In d r -> (forall z', d <> DInt z') -> dataloader_flat ds k = Err TypeError) /\
  (forall zs z, map fst c = map DInt zs -> In z zs -> ~ (- 2 ^ 63 <= z < 2 ^ 63)%Z -> dataloader_flat ds k = Err RuntimeError).
Proof.
  intros K A C. unfold dataloader_flat. rewrite A. cbn [bind]. rewrite C. cbn [mapM]. split.
  - intros z r d E I N. rewrite E, (default_ids_mixed z r d I N). reflexivity.
  - intros zs z E I N. rewrite E, (default_ids_large zs z I N). reflexivity.
Qed.
Lemma chunks_sizes {A} k (l : list A) : 0 < k ->
  Forall (fun c => length c <= k) (chunks k l) /\
  forall i c, nth_error (chunks k l) i = Some c -> S i < length (chunks k l) -> length c = k.
Proof.
  intros K. unfold chunks. assert (L : length l <= length l) by lia. revert L.
  generalize (length l) at 2 3 4 5 as fuel. intros fuel. revert l.
  induction fuel as [|f IH]; intros l L; cbn [chunks_fuel].
  - split; [constructor|]. intros [|i] c E; discriminate.
  - destruct l as [|a l]; [split; [constructor|intros [|i] c E; discriminate]|].
    destruct (IH (skipn k (a :: l))) as (H1 & H2).
    { rewrite skipn_length. cbn [length] in *. lia. }
    split; [constructor; auto; rewrite firstn_length; lia|].
    intros [|i] c E Li; cbn [nth_error length] in *.
    + injection E as <-. rewrite firstn_length.
      destruct (Nat.le_gt_cases k (length (a :: l))) as [|C]; [lia|].
      rewrite skipn_all2 in Li by lia. destruct f; cbn in Li; lia.
    + apply (H2 i c E). lia.
Qed.

Lemma collate_extra ms (ms2 : list string) (arrs arrs2 : list array) id id2 : NoDup ms ->
  length arrs = length ms -> length arrs2 = length ms2 -> (exists m, In m ms2 /\ ~ In m ms) ->
  collate_nested_dicts stack_arrays [(id, nested_of ms arrs); (id2, nested_of ms2 arrs2)] = Err KeyError.
Proof.
  intros N L L2 (m & I & NI). unfold collate_nested_dicts. unfold nested_of at 1. fold (nest ms arrs).
  rewrite init_nest by exact L. cbn [foldM snd]. 
  change (nested_of ms arrs) with (nest ms arrs). unfold nest at 1. rewrite merge_ok; auto.
  2:{ apply Forall_forall. intros [q a] Iq. apply in_combine_l in Iq. exact Iq. }
  cbn [bind]. unfold nested_of. rewrite merge_extra; auto. apply Exists_exists.
  assert (X : exists a, In (m, a) (combine ms2 arrs2)).
  { clear -I L2. revert arrs2 L2. induction ms2 as [|q ms2 IH]; intros [|a arrs2] L2; cbn in *; try discriminate; [tauto|].
    destruct I as [->|I]; [eauto|]. destruct (IH I arrs2) as (b & Ib); [lia|]. eauto. }
  destruct X as (a & Ia). exists (m, a). auto.
Qed.
