(** Proofs for C04, C06, C10, C11. *)
From Coq Require Import Permutation Sorted.
From Verif Require Import Py PyStr ModelMmap ModelLoader ModelSaver SpecStore
  StoreProofs1 StoreProofs2 StoreProofs3 StoreProofs4.
Local Open Scope nat_scope.

(** ---- C04: the asynchronous writer ---- *)
Lemma unpack_two_char id : is_ok (unpack_key id) = true -> two_char id.
Proof.
  destruct id as [s|z|z|n]; cbn; try discriminate.
  destruct s as [|a [|b [|c s]]]; cbn; try discriminate. intros _. exists a, b. reflexivity.
Qed.
Lemma mapM_unpack l : is_ok (mapM unpack_key l) = true -> Forall two_char l.
Proof.
  induction l as [|x l IH]; cbn [mapM]; intros H; [constructor|].
  destruct (unpack_key x) as [p|e] eqn:E; cbn [bind] in H; [|discriminate].
  destruct (mapM unpack_key l) as [q|e]; cbn [bind] in H; [|discriminate].
  constructor; [|apply IH; reflexivity]. apply unpack_two_char. rewrite E. reflexivity.
Qed.

Lemma flush_unsafe_lost d s buf c : Exists (fun id => ~ two_char id) (dkeys buf) ->
  fst (flush_unsafe d s buf c) = d.
Proof.
  intros X. unfold flush_unsafe. destruct (mapM unpack_key (dkeys buf)) as [l|e] eqn:E; [|reflexivity].
  assert (F : Forall two_char (dkeys buf)) by (apply mapM_unpack; rewrite E; reflexivity).
  rewrite Exists_exists in X. destruct X as (id & I & NT). rewrite Forall_forall in F.
  destruct (NT (F id I)).
Qed.

Lemma flush_unsafe_two_char d s buf c : Forall two_char (dkeys buf) ->
  flush_unsafe d s buf c = (dset (cfile (s_rank s, c)) (FData []) d, Err ValueError).
Proof.
  intros F. unfold flush_unsafe.
  assert (E : exists l, mapM unpack_key (dkeys buf) = Ok l).
  { induction F as [|x l (a & b & ->) F (l' & IH)]; cbn [mapM]; [eauto|]. cbn [unpack_key bind].
    rewrite IH. cbn [bind]. eauto. }
  destruct E as (l & E). rewrite E. change (chunk_file (s_rank s) c) with (cfile (s_rank s, c)).
  rewrite data_name_cfile. reflexivity.
Qed.

Lemma group_ids ms g id : In id (map fst (group_samples ms g)) <-> In id (concat (map fst g)).
Proof.
  pose proof (all_ids ms g) as A. unfold group_samples, last_wins.
  assert (B : forall (l acc : samples), In id (dkeys (fold_left upsert l acc)) <-> In id (map fst l) \/ In id (dkeys acc)).
  { clear. induction l as [|x l IH]; intros acc; cbn [fold_left map]; [cbn; tauto|].
    rewrite IH. unfold upsert. rewrite In_dkeys_dset. cbn [In]. intuition. }
  change (map fst (fold_left upsert ?l [])) with (dkeys (fold_left upsert l [])).
  rewrite B, <- A. cbn. tauto.
Qed.

Lemma save_log_async ms dt d s cur b : ms <> [] -> (1 < s_workers s)%Z ->
  batch_ok ms dt b -> sinv ms dt s cur ->
  (crossing s b = true -> Exists (fun id => ~ two_char id) (concat (map fst (cur ++ [b])))) ->
  exists s', save_log d s (fst b) (snd b) = (d, s', Ok tt) /\
    s_rank s' = s_rank s /\ s_workers s' = s_workers s /\ s_threshold s' = s_threshold s /\
    if crossing s b
    then sinv ms dt s' [] /\ s_count s' = S (s_count s) /\ s_size s' = 0
    else sinv ms dt s' (cur ++ [b]) /\ s_count s' = s_count s /\ s_size s' = s_size s + batch_elems b.
Proof.
  intros NE W Hb I X. destruct (buffer_write_inv ms dt s cur b NE Hb I) as (buf' & E & I').
  unfold save_log. rewrite E. unfold flush, with_buf in *. cbn [s_threshold s_size s_workers].
  fold (crossing s b). destruct (crossing s b) eqn:C.
  - replace (1 <? s_workers s)%Z with true by (symmetry; apply Z.ltb_lt; lia).
    set (s1 := Saver _ _ _ _ _ _ _) in *. unfold flush_safe.
    destruct I' as (P & B & SZ).
    assert (L : fst (flush_unsafe d s1 (s_buffer s1) (s_count s1)) = d).
    { apply flush_unsafe_lost. specialize (X eq_refl). rewrite Exists_exists in *.
      destruct X as (id & Iid & NT). exists id. split; [|exact NT].
      unfold dkeys. rewrite (buf_rel_ids _ _ _ _ B). apply group_ids. exact Iid. }
    eexists. rewrite L. split; [reflexivity|]. do 3 (split; [reflexivity|]).
    split; [apply (sinv_nil ms dt (incr_count s1)); exact P|]. split; reflexivity.
  - eexists. split; [reflexivity|]. do 3 (split; [reflexivity|]). auto.
Qed.

Lemma removelast_cons {A} (a : A) l : l <> [] -> removelast (a :: l) = a :: removelast l.
Proof. destruct l; [congruence|reflexivity]. Qed.
Lemma last_cons {A} (a : A) l d : l <> [] -> last (a :: l) d = last l d.
Proof. destruct l; [congruence|reflexivity]. Qed.

Lemma save_run_async ms dt : ms <> [] -> NoDup ms ->
  forall bs d s cs cur,
  Forall (batch_ok ms dt) bs -> (1 < s_workers s)%Z ->
  sinv ms dt s cur -> dir_holds ms d cs ->
  (forall g, In g (removelast (cut_from (s_threshold s) cur (s_size s) bs)) ->
     Exists (fun id => ~ two_char id) (concat (map fst g))) ->
  exists d' s', save_run d s bs = (d', s', Ok tt) /\
    let n := length (cut_from (s_threshold s) cur (s_size s) bs) - 1 in
    let g := group_samples ms (last (cut_from (s_threshold s) cur (s_size s) bs) []) in
    dir_holds ms d' (match g with [] => cs | _ => dset (s_rank s, s_count s + n) g cs end) /\
    good_samples ms dt g.
Proof.
  intros NE N. induction bs as [|b bs IH]; intros d s cs cur F W I D X.
  - unfold save_run. cbn [save_batches].
    destruct (finalize_sync ms dt d s cs cur NE N I D) as (d' & s' & E & D').
    exists d', s'. split; [exact E|]. cbn [cut_from last length]. cbn zeta.
    split; [|eapply group_good; eauto].
    rewrite Nat.add_0_r. destruct (group_samples ms cur); exact D'.
  - inversion F as [|? ? Hb F']; subst. cbn [cut_from] in *. fold (crossing s b) in *.
    destruct (save_log_async ms dt d s cur b NE W Hb I) as (s1 & E & R1 & R2 & R3 & R).
    { intros C. rewrite C in X. apply X. rewrite removelast_cons by apply cut_from_ne. left; auto. }
    assert (EQ : save_run d s (b :: bs) = save_run d s1 bs).
    { unfold save_run. cbn [save_batches]. destruct b as [ids log]. cbn [fst snd] in E. rewrite E. reflexivity. }
    rewrite EQ. destruct (crossing s b).
    + destruct R as (I1 & C1 & Z1).
      rewrite removelast_cons in X by apply cut_from_ne.
      destruct (IH d s1 cs [] F' ltac:(lia) I1 D) as (d2 & s2 & E2 & D2 & G2).
      { rewrite R3, Z1. intros g Ig. apply X. right; auto. }
      exists d2, s2. split; [exact E2|]. cbn zeta in *. rewrite R1, R3, C1, Z1 in *.
      rewrite last_cons by apply cut_from_ne. split; [|exact G2].
      cbn [length]. destruct (group_samples ms (last (cut_from (s_threshold s) [] 0 bs) [])); [exact D2|].
      replace (s_count s + (S (length (cut_from (s_threshold s) [] 0 bs)) - 1))
        with (S (s_count s) + (length (cut_from (s_threshold s) [] 0 bs) - 1)); [exact D2|].
      pose proof (cut_from_ne (s_threshold s) [] 0 bs) as CN.
      destruct (cut_from (s_threshold s) [] 0 bs); [congruence|]. cbn [length]. lia.
    + destruct R as (I1 & C1 & Z1).
      destruct (IH d s1 cs _ F' ltac:(lia) I1 D) as (d2 & s2 & E2 & D2 & G2).
      { rewrite R3, Z1. exact X. }
      exists d2, s2. split; [exact E2|]. cbn zeta in *. rewrite R1, R3, C1, Z1 in *. auto.
Qed.

Lemma group_samples_NoDup ms g : NoDup (map fst (group_samples ms g)).
Proof.
  unfold group_samples, last_wins.
  assert (B : forall (l acc : samples), NoDup (dkeys acc) -> NoDup (dkeys (fold_left upsert l acc))).
  { induction l as [|x l IH]; intros acc A; cbn [fold_left]; [auto|]. apply IH. apply NoDup_dset, A. }
  apply B. constructor.
Qed.

Lemma async_discards ms dt rank w thr d bs :
  ms <> [] -> NoDup ms -> fresh_dir d -> (1 < w)%Z -> Forall (batch_ok ms dt) bs ->
  (forall g, In g (removelast (cut thr bs)) -> Exists (fun id => ~ two_char id) (concat (map fst g))) ->
  exists d' s', save_run d (saver_init rank w thr (grad_paths ms)) bs = (d', s', Ok tt) /\
  forall listing, Permutation listing (dkeys d') ->
  exists ds, open_dataset d' listing = Ok ds /\
    let kept := group_samples ms (last (cut thr bs) []) in
    all_nested ds = Ok (map (fun x => (fst x, nested_of ms (snd x))) kept) /\
    ds_ids ds = map fst kept.
Proof.
  intros NE N Fd W F X.
  destruct (save_run_async ms dt NE N bs d (saver_init rank w thr (grad_paths ms)) [] [])
    as (d' & s' & E & D & G); auto.
  { apply (sinv_nil ms dt (saver_init rank w thr (grad_paths ms))). reflexivity. }
  { apply fresh_dir_holds. exact Fd. }
  exists d', s'. split; [exact E|]. intros listing P. cbn [saver_init s_rank s_count s_threshold s_size] in D, G.
  fold (cut thr bs) in D, G. cbn zeta in *.
  pose proof (group_samples_NoDup ms (last (cut thr bs) [])) as ND.
  set (g := group_samples ms (last (cut thr bs) [])) in *.
  assert (L : exists cs : kdict, dir_holds ms d' cs /\ good_cs ms dt cs /\ sort_by cs = cs /\ concat (map snd cs) = g).
  { destruct g as [|x0 r0].
    - exists []. repeat split; try apply D; constructor.
    - eexists. split; [exact D|]. repeat split.
      + constructor; [exact G|constructor].
      + cbn. rewrite app_nil_r. reflexivity. }
  destruct L as (cs & D2 & G2 & S2 & C2).
  destruct (load_ok ms dt d' cs listing NE N D2) as (ds & O & R1 & R2 & R3); auto.
  { apply good_cs_snd. exact G2. }
  exists ds. split; [exact O|]. rewrite S2, C2 in *. rewrite first_wins_nodup in * by exact ND. auto.
Qed.

(** If all ids of a discarded buffer are two-character strings the directory becomes unreadable. *)
Lemma foldM_err {A S} (f : S -> A -> res S) l a : In a l -> (forall s, exists e, f s a = Err e) ->
  forall s, exists e, foldM f l s = Err e.
Proof.
  intros I H. induction l as [|b l IH]; [destruct I|]. intros s. cbn [foldM].
  destruct I as [->|I].
  - destruct (H s) as (e & E). rewrite E. cbn. eauto.
  - destruct (f s b) as [s'|e] eqn:E; cbn [bind]; [apply IH, I|eauto].
Qed.

Lemma mapM_In {A B} (f : A -> res B) l bs a : mapM f l = Ok bs -> In a l -> exists b, f a = Ok b /\ In b bs.
Proof.
  intros E. apply mapM_Forall2 in E. intros I. induction E as [|x y ? ? H]; [destruct I|].
  destruct I as [->|I]; [eexists; split; [exact H|left; auto]|]. destruct (IHE I) as (b & ? & ?).
  exists b. split; [auto|right; auto].
Qed.

Lemma open_unreadable d listing k : In (cfile k) listing ->
  (dget (cfile k) d = Some (FData []) \/ dget (mfile k) d = Some FBroken \/ dget (mfile k) d = None) ->
  exists e, open_dataset d listing = Err e.
Proof.
  intros I H. unfold open_dataset, find_chunk_indices.
  destruct (mapM _ _) as [keyed|e] eqn:E; cbn [bind]; [|eauto].
  assert (I2 : In (chunk_idx k) (map chunk_index_of (filter is_chunk_file listing))).
  { apply in_map_iff. exists (cfile k). split; [apply chunk_index_of_cfile|].
    apply filter_In. split; [exact I|apply is_chunk_file_cfile]. }
  destruct (mapM_In _ _ _ _ E I2) as ((k' & s) & Ek & Ik).
  rewrite extract_idx in Ek. cbn [bind] in Ek. injection Ek as <- <-.
  apply foldM_err with (a := chunk_idx k).
  - change (chunk_idx k) with (snd (k, chunk_idx k)). apply in_map.
    eapply Permutation_in; [apply sort_perm|exact Ik].
  - intros s. unfold fetch_one.
    destruct (read d (("log_" ++ chunk_idx k) ++ ".mmap")) as [mm|e] eqn:Er; cbn [bind]; [|eauto].
    rewrite sapp_assoc in Er. unfold read in Er. rewrite <- cfile_eq, data_name_cfile in Er.
    destruct H as [H|H].
    + rewrite H in Er. discriminate.
    + unfold get_mmap_metadata. rewrite sapp_assoc. fold (mfile k). unfold read_metafile. rewrite mfile_ext.
      cbn [String.eqb]. destruct H as [H|H]; rewrite H; cbn [bind]; eauto.
Qed.

Lemma async_two_char d s b s1 : (1 < s_workers s)%Z ->
  buffer_write s (fst b) (snd b) = (s1, Ok tt) ->
  (0 < s_threshold s1 < Z.of_nat (s_size s1))%Z -> Forall two_char (dkeys (s_buffer s1)) ->
  s_workers s1 = s_workers s ->
  exists d' s', save_log d s (fst b) (snd b) = (d', s', Ok tt) /\
    forall listing, incl (dkeys d') listing -> exists e, open_dataset d' listing = Err e.
Proof.
  intros W E T F Ws. unfold save_log. rewrite E. unfold flush.
  replace (0 <? s_threshold s1)%Z with true by (symmetry; apply Z.ltb_lt; lia).
  replace (s_threshold s1 <? Z.of_nat (s_size s1))%Z with true by (symmetry; apply Z.ltb_lt; lia).
  replace (1 <? s_workers s1)%Z with true by (symmetry; apply Z.ltb_lt; lia). cbn [andb].
  unfold flush_safe. rewrite flush_unsafe_two_char by exact F. cbn [fst].
  eexists _, _. split; [reflexivity|]. intros listing P.
  apply open_unreadable with (k := (s_rank s1, s_count s1)).
  - apply P. apply In_dkeys_dset. auto.
  - left. apply dget_dset_eq.
Qed.

(** ---- C10: rerun in the same directory ---- *)
Lemma number_app rank c l1 l2 :
  number rank c (l1 ++ l2) = number rank c l1 ++ number rank (c + length l1) l2.
Proof.
  revert c. induction l1 as [|x l1 IH]; intros c; cbn [app length].
  - rewrite Nat.add_0_r. reflexivity.
  - rewrite !number_cons. cbn [app]. f_equal. rewrite IH. do 2 f_equal. lia.
Qed.

Lemma puts_number rank new : forall c (pre : kdict) old,
  (forall k, In k (map fst pre) -> snd k < c) ->
  puts (pre ++ number rank c old) (number rank c new)
  = pre ++ number rank c (new ++ skipn (length new) old).
Proof.
  induction new as [|x new IH]; intros c pre old H.
  - reflexivity.
  - rewrite number_cons. cbn [puts fold_left fst snd]. cbn [app length].
    set (tl_old := match old with [] => [] | _ :: r => r end).
    assert (E : dset (rank, c) x (pre ++ number rank c old) = (pre ++ [((rank, c), x)]) ++ number rank (S c) tl_old).
    { assert (G : forall (p : kdict) q, ~ In (rank, c) (map fst p) -> dset (rank, c) x (p ++ q) = p ++ dset (rank, c) x q).
      { clear. induction p as [|[k v] p IHp]; intros q Hk; [reflexivity|]. cbn [app dset].
        rewrite eqb_neq by (intros E; apply Hk; left; auto). f_equal. apply IHp. intros H; apply Hk; right; auto. }
      rewrite G by (intros I; apply H in I; cbn in I; lia).
      rewrite <- app_assoc. f_equal. destruct old as [|y old]; [reflexivity|].
      rewrite number_cons. cbn [dset]. rewrite eqb_refl. reflexivity. }
    rewrite E. fold (puts ((pre ++ [((rank, c), x)]) ++ number rank (S c) tl_old) (number rank (S c) new)).
    rewrite IH.
    + rewrite number_cons, <- app_assoc. cbn [app]. do 4 f_equal.
      destruct old as [|y old]; [destruct (length new); reflexivity|reflexivity].
    + intros k I. rewrite map_app in I. apply in_app_or in I. destruct I as [I|[<-|[]]]; [apply H in I|cbn]; lia.
Qed.

Lemma rerun ms dt rank w thr d bs w2 thr2 bs2 :
  ms <> [] -> NoDup ms -> fresh_dir d -> (w <= 1)%Z -> (w2 <= 1)%Z ->
  Forall (batch_ok ms dt) bs -> Forall (batch_ok ms dt) bs2 ->
  exists d1 s1, save_run d (saver_init rank w thr (grad_paths ms)) bs = (d1, s1, Ok tt) /\
  exists d2 s2, save_run d1 (saver_init rank w2 thr2 (grad_paths ms)) bs2 = (d2, s2, Ok tt) /\
  forall listing, Permutation listing (dkeys d2) ->
  exists ds, open_dataset d2 listing = Ok ds /\
    let old := nonempty (map (group_samples ms) (cut thr bs)) in
    let new := nonempty (map (group_samples ms) (cut thr2 bs2)) in
    let kept := first_wins (concat (new ++ skipn (length new) old)) in
    all_nested ds = Ok (map (fun x => (fst x, nested_of ms (snd x))) kept) /\
    ds_ids ds = map fst kept.
Proof.
  intros NE N Fd W W2 F F2.
  destruct (save_run_sync ms dt NE N bs d (saver_init rank w thr (grad_paths ms)) [] [])
    as (d1 & s1 & E & D & G); auto.
  { apply (sinv_nil ms dt (saver_init rank w thr (grad_paths ms))). reflexivity. }
  { apply fresh_dir_holds. exact Fd. }
  cbn [saver_init s_rank s_count s_threshold s_size] in D, G.
  rewrite puts_nil in D by apply ssorted_NoDup, number_sorted. fold (cut thr bs) in D, G.
  exists d1, s1. split; [exact E|].
  destruct (save_run_sync ms dt NE N bs2 d1 (saver_init rank w2 thr2 (grad_paths ms))
     (number rank 0 (nonempty (map (group_samples ms) (cut thr bs)))) [])
    as (d2 & s2 & E2 & D2 & G2); auto.
  { apply (sinv_nil ms dt (saver_init rank w2 thr2 (grad_paths ms))). reflexivity. }
  cbn [saver_init s_rank s_count s_threshold s_size] in D2, G2. fold (cut thr2 bs2) in D2, G2.
  exists d2, s2. split; [exact E2|]. intros listing P. cbn zeta in *.
  set (old := nonempty (map (group_samples ms) (cut thr bs))) in *.
  set (new := nonempty (map (group_samples ms) (cut thr2 bs2))) in *.
  pose proof (puts_number rank new 0 [] old) as PN. cbn [app] in PN. rewrite PN in D2 by (intros k []).
  destruct (load_ok ms dt d2 _ listing NE N D2) as (ds & O & R1 & R2 & R3); auto.
  { rewrite number_snd. apply Forall_app. split; [exact G2|].
    rewrite <- (firstn_skipn (length new) old) in G. apply Forall_app in G. apply G. }
  exists ds. split; [exact O|].
  rewrite sort_sorted_id in * by apply number_sorted. rewrite number_snd in *. auto.
Qed.

(** ---- C11: buffer bound ---- *)
Lemma nd_elems_node l : nd_elems (Node l) = sumf (fun kv => nd_elems (snd kv)) l.
Proof. cbn [nd_elems]. unfold sumf. induction l as [|[k v] r IH]; cbn; [auto|]. rewrite IH. reflexivity. Qed.

Lemma sumf_dset {K} `{Eqb K} {V} (f : V -> nat) k v (l : dict K V) :
  sumf (fun kv => f (snd kv)) (dset k v l)
  + match dget k l with Some o => f o | None => 0 end
  = sumf (fun kv => f (snd kv)) l + f v.
Proof.
  unfold sumf. induction l as [|[k' v'] r IH]; cbn [dset dget fold_right snd]; [lia|].
  destruct (eqb k k'); cbn [fold_right snd]; lia.
Qed.

Lemma sumf_dget {K} `{Eqb K} {V} (f : V -> nat) k (l : dict K V) v :
  dget k l = Some v -> f v <= sumf (fun kv => f (snd kv)) l.
Proof.
  unfold sumf. induction l as [|[k' v'] r IH]; cbn [dget fold_right snd]; [discriminate|].
  destruct (eqb k k'); [intros E; injection E as ->; lia|]. intros E. apply IH in E. lia.
Qed.

Lemma add_log_held log : forall buf idx buf' n ex,
  add_log log buf idx = (buf', n, ex) -> nd_elems buf' <= nd_elems buf + n.
Proof.
  induction log as [a|items IH] using nd_ind'; intros buf idx buf' n ex E.
  - cbn in E. injection E as <- <- _. lia.
  - rewrite add_log_items in E.
    assert (G : forall items buf n0 buf' n ex,
      Forall (fun kv => forall buf idx buf' n ex, add_log (snd kv) buf idx = (buf', n, ex) -> nd_elems buf' <= nd_elems buf + n) items ->
      add_items items buf n0 idx = (buf', n, ex) -> nd_elems buf' + n0 <= nd_elems buf + n).
    { clear. induction items as [|[k v] r IHr]; intros buf n0 buf' n ex F E; cbn [add_items] in E.
      - injection E as <- <- _. lia.
      - inversion F as [|? ? F1 F2]; subst. cbn [snd] in F1.
        destruct buf as [a|l]; [injection E as <- <- _; lia|].
        destruct v as [t|lv].
        + destruct (let* row := tensor_row t idx in to_numpy row) as [a|e]; [|injection E as <- <- _; lia].
          apply IHr in E; [|exact F2]. rewrite !nd_elems_node in *.
          pose proof (sumf_dset nd_elems k (Leaf a) l). cbn [nd_elems] in *.
          destruct (dget k l); lia.
        + destruct (add_log (Node lv) _ idx) as [[sub' m] ex'] eqn:Ea.
          apply F1 in Ea.
          assert (H : nd_elems (Node (dset k sub' l)) <= nd_elems (Node l) + m).
          { rewrite !nd_elems_node. pose proof (sumf_dset nd_elems k sub' l).
            destruct (dget k l) as [o|] eqn:Dk; cbn [nd_elems] in *; [|lia].
            pose proof (sumf_dget nd_elems k l o Dk). lia. }
          destruct ex' as [e|]; [injection E as <- <- _; lia|]. apply IHr in E; [|exact F2]. lia. }
    specialize (G items buf 0 buf' n ex IH E). lia.
Qed.

Definition held_ok (s : saver) : Prop :=
  held (s_buffer s) <= s_size s /\ (s_buffer s = [] -> s_size s = 0).

Lemma dset_ne {K V} `{Eqb K} k (v : V) (d : dict K V) : dset k v d <> [].
Proof. destruct d as [|[k' v'] d]; cbn [dset]; [discriminate|]. destruct (eqb k k'); discriminate. Qed.

Lemma buffer_write_held log ids : forall i s s' r,
  held_ok s -> buffer_write_from log ids i s = (s', r) ->
  held_ok s' /\ s_threshold s' = s_threshold s /\ s_workers s' = s_workers s.
Proof.
  induction ids as [|id ids IH]; intros i s s' r H E; cbn [buffer_write_from] in E.
  - injection E as <- _. auto.
  - destruct (add_log log _ i) as [[b n] ex] eqn:Ea. apply add_log_held in Ea.
    set (s1 := Saver _ _ _ _ _ _ _) in E.
    assert (H1 : held_ok s1).
    { split; [|intros Z; destruct (dset_ne _ _ _ Z)].
      destruct H as [H _]. unfold held_ok, s1, held in *. cbn [s_buffer s_size].
      pose proof (sumf_dset nd_elems id b (s_buffer s)) as Q.
      destruct (dget id (s_buffer s)) as [o|] eqn:Do.
      - pose proof (sumf_dget nd_elems id (s_buffer s) o Do). lia.
      - cbn [nd_elems] in Ea. lia. }
    destruct ex; [injection E as <- _; auto|]. apply IH in E; auto.
Qed.

Lemma held_clear s : held_ok (buffer_clear s).
Proof. split; cbn; auto. Qed.

Lemma flush_serialized_held d s d' s' r : held_ok s -> flush_serialized d s = (d', s', r) ->
  held_ok s' /\ s_threshold s' = s_threshold s /\ (r = Ok tt -> s_size s' = 0).
Proof.
  intros H E. unfold flush_serialized in E. destruct (s_buffer s) as [|x0 r0] eqn:B.
  - injection E as _ <- _. split; [auto|]. split; [auto|]. intros _. apply H. exact B.
  - destruct (write _ _ _ _) as [d1 [u|e]]; injection E as _ <- <-.
    + split; [apply held_clear|]. auto.
    + repeat split; try apply H; auto. discriminate.
Qed.

Lemma save_log_bound d s ids log d' s' r : held_ok s -> save_log d s ids log = (d', s', r) ->
  held_ok s' /\ s_threshold s' = s_threshold s /\
  (r = Ok tt -> (0 < s_threshold s)%Z -> (Z.of_nat (s_size s') <= s_threshold s)%Z).
Proof.
  intros H E. unfold save_log in E. destruct (buffer_write s ids log) as [s1 [u|e]] eqn:Eb.
  2:{ injection E as _ <- <-. destruct (buffer_write_held _ _ _ _ _ _ H Eb) as (H1 & T & _).
      split; [exact H1|]. split; [exact T|discriminate]. }
  destruct (buffer_write_held _ _ _ _ _ _ H Eb) as (H1 & T & _). unfold flush in E. rewrite T in E.
  destruct ((0 <? s_threshold s)%Z && (s_threshold s <? Z.of_nat (s_size s1))%Z) eqn:C.
  - destruct (1 <? s_workers s1)%Z.
    + unfold flush_safe in E. injection E as _ <- <-. split; [apply held_clear|]. split; [exact T|].
      cbn. lia.
    + destruct (flush_serialized_held _ _ _ _ _ H1 E) as (H2 & T2 & Z2). split; [exact H2|].
      split; [congruence|]. intros Hr P. rewrite (Z2 Hr). lia.
  - injection E as _ <- _. split; [exact H1|]. split; [exact T|]. intros _ P.
    apply andb_false_iff in C as [C|C]; [apply Z.ltb_ge in C; lia|]. apply Z.ltb_ge in C. exact C.
Qed.

(** Over any sequence of saved batches (the sequence may be cut short by an exception). *)
Lemma save_batches_bound bs : forall d s d' s' r, held_ok s -> save_batches d s bs = (d', s', r) ->
  held_ok s' /\ s_threshold s' = s_threshold s /\
  (bs <> [] -> r = Ok tt -> (0 < s_threshold s)%Z -> (Z.of_nat (s_size s') <= s_threshold s)%Z).
Proof.
  induction bs as [|[ids log] bs IH]; intros d s d' s' r H E; cbn [save_batches] in E.
  - injection E as _ <- _. repeat split; try apply H; congruence.
  - destruct (save_log d s ids log) as [[d1 s1] [u|e]] eqn:E1.
    + destruct (save_log_bound _ _ _ _ _ _ _ H E1) as (H1 & T1 & B1).
      destruct (IH _ _ _ _ _ H1 E) as (H2 & T2 & B2). split; [exact H2|]. split; [congruence|].
      intros _ Hr P. destruct bs as [|b bs].
      * cbn in E. injection E as _ <- _. apply B1; auto. destruct u; auto.
      * rewrite <- T1. apply B2; congruence.
    + destruct (save_log_bound _ _ _ _ _ _ _ H E1) as (H1 & T1 & B1).
      injection E as _ <- <-. split; [exact H1|]. split; [exact T1|discriminate].
Qed.

Lemma held_init rank w thr path : held_ok (saver_init rank w thr path).
Proof. split; cbn; auto. Qed.

(** ---- C06: several ranks ---- *)
Definition sub (r : nat) (cs : kdict) : kdict := filter (fun kl => Nat.eqb (fst (fst kl)) r) cs.

Lemma upd_same {A} (f : nat -> A) r x : upd f r x r = x.
Proof. unfold upd. rewrite Nat.eqb_refl. reflexivity. Qed.
Lemma upd_other {A} (f : nat -> A) r x q : q <> r -> upd f r x q = f q.
Proof. unfold upd. intros H. apply Nat.eqb_neq in H. rewrite H. reflexivity. Qed.

Lemma sub_dset_other r k l (cs : kdict) : fst k <> r -> sub r (dset k l cs) = sub r cs.
Proof.
  intros H. apply Nat.eqb_neq in H. unfold sub. induction cs as [|[k' l'] cs IH]; cbn [dset filter fst].
  - rewrite H. reflexivity.
  - destruct (eqb_spec k k') as [->|]; cbn [filter fst].
    + rewrite H. reflexivity.
    + rewrite IH. reflexivity.
Qed.
Lemma sub_dset_new k l (cs : kdict) : ~ In k (map fst cs) -> sub (fst k) (dset k l cs) = sub (fst k) cs ++ [(k, l)].
Proof.
  intros H. rewrite dset_notin by exact H. unfold sub. rewrite filter_app. cbn [filter fst].
  rewrite Nat.eqb_refl. reflexivity.
Qed.
Lemma sub_number r cs gs k : sub r cs = number r 0 gs -> In k (map fst cs) -> fst k = r -> snd k < length gs.
Proof.
  intros E I <-. apply in_map_iff in I as ((k' & l) & <- & I).
  assert (I2 : In (k', l) (sub (fst k') cs)).
  { apply filter_In. split; [exact I|]. cbn [fst]. apply Nat.eqb_refl. }
  cbn [fst] in *. rewrite E in I2. apply (in_map fst) in I2. rewrite number_keys in I2. cbn [fst] in I2.
  apply in_map_iff in I2 as (i & <- & I3). apply in_seq in I3. cbn. lia.
Qed.

(** Progress of one rank: [rem] events to come, groups [gs] on disk. *)
Definition rank_inv (ms : list string) (dt : dtype) (thr : Z) (hist : list batch)
  (r : nat) (s : saver) (cs : kdict) (rem : list event) : Prop :=
  let all := nonempty (map (group_samples ms) (cut thr hist)) in
  exists gs, sub r cs = number r 0 gs /\
    ((rem = [] /\ gs = all) \/
     (exists bs cur, rem = map (EvBatch r) bs ++ [EvFin r] /\ Forall (batch_ok ms dt) bs /\
        sinv ms dt s cur /\ s_rank s = r /\ s_threshold s = thr /\ (s_workers s <= 1)%Z /\
        s_count s = length gs /\
        all = gs ++ nonempty (map (group_samples ms) (cut_from thr cur (s_size s) bs)))).

Lemma rank_inv_other ms dt thr hist r s cs rem k l : fst k <> r ->
  rank_inv ms dt thr hist r s cs rem -> rank_inv ms dt thr hist r s (dset k l cs) rem.
Proof.
  intros H (gs & E & R). exists gs. split; [|exact R]. rewrite sub_dset_other by exact H. exact E.
Qed.

Lemma number_snoc r gs g : number r 0 (gs ++ [g]) = number r 0 gs ++ [((r, length gs), g)].
Proof. rewrite number_app. reflexivity. Qed.

Lemma mp_run_ok ms dt R (thr : nat -> Z) (hist : nat -> list batch) : ms <> [] -> NoDup ms ->
  forall evs d ss cs,
  (forall e, In e evs -> ev_rank e < R) ->
  dir_holds ms d cs -> good_cs ms dt cs -> (forall k, In k (map fst cs) -> fst k < R) ->
  (forall r, r < R -> rank_inv ms dt (thr r) (hist r) r (ss r) cs (evs_of r evs)) ->
  exists d' ss' cs', mp_run d ss evs = (d', ss', Ok tt) /\
    dir_holds ms d' cs' /\ good_cs ms dt cs' /\ (forall k, In k (map fst cs') -> fst k < R) /\
    forall r, r < R -> sub r cs' = number r 0 (nonempty (map (group_samples ms) (cut (thr r) (hist r)))).
Proof.
  intros NE N. induction evs as [|e evs IH]; intros d ss cs ER D G KR I.
  - exists d, ss, cs. repeat split; auto; try apply D.
    intros r Hr. destruct (I r Hr) as (gs & E & [(_ & ->)|(bs & cur & C & _)]); [exact E|].
    destruct bs; discriminate.
  - assert (Er : ev_rank e < R) by (apply ER; left; auto).
    remember (ev_rank e) as r eqn:Hre. pose proof (I r Er) as (gs & E & Pr).
    assert (H0 : evs_of r (e :: evs) = e :: evs_of r evs).
    { unfold evs_of. cbn [filter]. rewrite <- Hre, Nat.eqb_refl. reflexivity. }
    assert (HO : forall q, q <> r -> evs_of q (e :: evs) = evs_of q evs).
    { intros q Hq. unfold evs_of. cbn [filter]. rewrite <- Hre.
      replace (Nat.eqb r q) with false by (symmetry; apply Nat.eqb_neq; auto). reflexivity. }
    rewrite H0 in Pr. destruct Pr as [(C & _)|(bs & cur & C & Fb & Sv & Rk & Th & Wk & Ct & Al)]; [discriminate|].
    assert (KN : ~ In (r, length gs) (map fst cs)).
    { intros Ik. pose proof (sub_number r cs gs _ E Ik eq_refl) as L. cbn in L. lia. }
    assert (STEP : exists d1 s1 cs1, mp_step d ss e = (d1, upd ss r s1, Ok tt) /\
       dir_holds ms d1 cs1 /\ good_cs ms dt cs1 /\ (forall k, In k (map fst cs1) -> fst k < R) /\
       rank_inv ms dt (thr r) (hist r) r s1 cs1 (evs_of r evs) /\
       (forall q s rem, q <> r -> rank_inv ms dt (thr q) (hist q) q s cs rem ->
                        rank_inv ms dt (thr q) (hist q) q s cs1 rem)).
    { unfold mp_step. rewrite <- Hre. destruct bs as [|b bs]; cbn [map app] in C; injection C as Ce C; rewrite Ce.
      - (* finalize *)
        destruct (finalize_sync ms dt d (ss r) cs cur NE N Sv D) as (d1 & s1 & Ef & D1).
        rewrite Ef. rewrite Rk, Ct in D1. cbn [cut_from map] in Al.
        destruct (group_samples ms cur) as [|x0 r0] eqn:Eg.
        + exists d1, s1, cs. split; [reflexivity|]. split; [exact D1|]. split; [exact G|]. split; [exact KR|].
          split; [|auto]. exists gs. split; [exact E|]. left. split; [exact C|]. cbn in Al.
          rewrite app_nil_r in Al. auto.
        + rewrite <- Eg in *.
          assert (GG : good_samples ms dt (group_samples ms cur)) by (eapply group_good; eauto).
          exists d1, s1, (dset (r, length gs) (group_samples ms cur) cs). split; [reflexivity|].
          split; [rewrite Eg at 1; rewrite Eg in D1; exact D1|].
          split; [apply (Forall_dset (good_samples ms dt)); auto|].
          split.
          { intros k Ik. change (map fst ?x) with (dkeys x) in Ik. apply In_dkeys_dset in Ik. destruct Ik as [->|Ik]; [exact Er|auto]. }
          split.
          * exists (gs ++ [group_samples ms cur]). split.
            { pose proof (sub_dset_new (r, length gs) (group_samples ms cur) cs KN) as Q. cbn [fst] in Q.
              etransitivity; [exact Q|]. rewrite number_snoc. f_equal. exact E. }
            left. split; [exact C|]. rewrite Al. f_equal. rewrite nonempty_cons; [reflexivity|]. rewrite Eg. discriminate.
          * intros q s rem Hq. apply rank_inv_other. cbn. auto.
      - (* batch *)
        pose proof (Forall_inv Fb) as Hb. pose proof (Forall_inv_tail Fb) as Fb'.
        destruct (save_log_sync ms dt d (ss r) cs cur b NE N Wk Hb Sv D) as (d1 & s1 & Es & R1 & R2 & R3 & Q).
        rewrite Es. cbn [cut_from] in Al. rewrite <- Th in Al.
        fold (crossing (ss r) b) in Al. rewrite Rk, Ct in Q. destruct (crossing (ss r) b).
        + destruct Q as (Sv1 & C1 & Z1 & GG & NN & D1).
          exists d1, s1, (dset (r, length gs) (group_samples ms (cur ++ [b])) cs). split; [reflexivity|].
          split; [exact D1|].
          split; [apply (Forall_dset (good_samples ms dt)); auto|].
          split.
          { intros k Ik. change (map fst ?x) with (dkeys x) in Ik. apply In_dkeys_dset in Ik. destruct Ik as [->|Ik]; [exact Er|auto]. }
          split.
          * exists (gs ++ [group_samples ms (cur ++ [b])]). split.
            { pose proof (sub_dset_new (r, length gs) (group_samples ms (cur ++ [b])) cs KN) as Q. cbn [fst] in Q.
              etransitivity; [exact Q|]. rewrite number_snoc. f_equal. exact E. }
            right. exists bs, []. rewrite app_length. cbn [length].
            repeat split; auto; try congruence; try apply Sv1; try lia.
            rewrite <- Th, Al. cbn [map]. rewrite nonempty_cons by exact NN. rewrite Z1, <- app_assoc. reflexivity.
          * intros q s rem Hq. apply rank_inv_other. cbn. auto.
        + destruct Q as (-> & Sv1 & C1 & Z1).
          exists d, s1, cs. split; [reflexivity|]. split; [exact D|]. split; [exact G|]. split; [exact KR|].
          split; [|auto]. exists gs. split; [exact E|]. right. exists bs, (cur ++ [b]).
          repeat split; auto; try congruence; try apply Sv1; try lia. rewrite Z1, <- Th. exact Al. }
    destruct STEP as (d1 & s1 & cs1 & Es & D1 & G1 & K1 & I1 & IO).
    cbn [mp_run]. rewrite Es. apply (IH d1 (upd ss r s1) cs1); auto.
    + intros e' I'. apply ER. right; auto.
    + intros q Hq. destruct (Nat.eq_dec q r) as [->|Hn].
      * rewrite upd_same. exact I1.
      * rewrite upd_other by exact Hn. apply IO; [exact Hn|]. rewrite <- HO by exact Hn. apply I, Hq.
Qed.

Lemma ssorted_concat (f : nat -> kdict) : 
  (forall r, ssorted (f r)) -> (forall r k, In k (map fst (f r)) -> fst k = r) ->
  forall n off, ssorted (concat (map f (seq off n))).
Proof.
  intros S K. induction n as [|n IH]; intros off; cbn [seq map concat]; [constructor|].
  unfold ssorted in *. rewrite map_app.
  assert (A : forall l1 l2 : list (nat * nat), StronglySorted klt l1 -> StronglySorted klt l2 ->
    (forall a b, In a l1 -> In b l2 -> klt a b) -> StronglySorted klt (l1 ++ l2)).
  { induction l1 as [|a l1 IHl]; intros l2 S1 S2 H; cbn; [auto|]. inversion S1; subst. constructor.
    - apply IHl; auto. intros; apply H; [right|]; auto.
    - apply Forall_app. split; [auto|]. apply Forall_forall. intros b Ib. apply H; [left|]; auto. }
  apply A; auto. intros a b Ia Ib. left. apply K in Ia. rewrite concat_map, map_map in Ib.
  apply in_concat in Ib as (l & Il & Ib). apply in_map_iff in Il as (r & <- & Ir). apply in_seq in Ir.
  apply K in Ib. lia.
Qed.

Lemma multi_rank ms dt R d (w : nat -> Z) (thr : nat -> Z) (hist : nat -> list batch) evs :
  ms <> [] -> NoDup ms -> fresh_dir d -> (forall r, (w r <= 1)%Z) ->
  (forall r, r < R -> Forall (batch_ok ms dt) (hist r)) ->
  (forall e, In e evs -> ev_rank e < R) ->
  (forall r, r < R -> evs_of r evs = map (EvBatch r) (hist r) ++ [EvFin r]) ->
  exists d' ss', mp_run d (fun r => saver_init r (w r) (thr r) (grad_paths ms)) evs = (d', ss', Ok tt) /\
  forall listing, Permutation listing (dkeys d') ->
  exists ds, open_dataset d' listing = Ok ds /\
    let kept := first_wins (concat (map (fun r => concat (map (group_samples ms) (cut (thr r) (hist r)))) (seq 0 R))) in
    all_nested ds = Ok (map (fun x => (fst x, nested_of ms (snd x))) kept) /\
    ds_ids ds = map fst kept.
Proof.
  intros NE N Fd W F ER EV.
  destruct (mp_run_ok ms dt R thr hist NE N evs d (fun r => saver_init r (w r) (thr r) (grad_paths ms)) [])
    as (d' & ss' & cs' & E & D & G & K & S); auto.
  { apply fresh_dir_holds. exact Fd. }
  { constructor. }
  { intros k []. }
  { intros r Hr. exists []. split; [reflexivity|]. right. exists (hist r), [].
    rewrite (EV r Hr). split; [reflexivity|]. split; [auto|].
    split; [apply (sinv_nil ms dt (saver_init r (w r) (thr r) (grad_paths ms))); reflexivity|].
    split; [reflexivity|]. split; [reflexivity|]. split; [cbn; apply W|]. split; reflexivity. }
  exists d', ss'. split; [exact E|]. intros listing P.
  destruct (load_ok ms dt d' cs' listing NE N D) as (ds & O & R1 & R2 & R3); auto.
  { apply good_cs_snd. exact G. }
  exists ds. split; [exact O|]. cbn zeta in *.
  set (gr := fun r => number r 0 (nonempty (map (group_samples ms) (cut (thr r) (hist r))))).
  assert (GS : forall r, ssorted (gr r)) by (intros; apply number_sorted).
  assert (GK : forall r k, In k (map fst (gr r)) -> fst k = r).
  { intros r k I. unfold gr in I. rewrite number_keys in I. apply in_map_iff in I as (i & <- & _). reflexivity. }
  assert (SO : sort_by cs' = concat (map gr (seq 0 R))).
  { apply sort_unique; [apply ssorted_concat; auto|].
    apply NoDup_Permutation.
    - destruct D as (_ & N2 & _). eapply NoDup_map_inv; eauto.
    - eapply NoDup_map_inv. apply ssorted_NoDup. apply ssorted_concat; auto.
    - intros [k l]. rewrite in_concat. split.
      + intros I. assert (Kr : fst k < R) by (apply K; apply (in_map fst) in I; exact I).
        exists (gr (fst k)). split; [apply in_map; apply in_seq; lia|].
        unfold gr. rewrite <- (S _ Kr). apply filter_In. split; [exact I|]. cbn. apply Nat.eqb_refl.
      + intros (l' & I1 & I2). apply in_map_iff in I1 as (r & <- & Ir). apply in_seq in Ir.
        unfold gr in I2. rewrite <- (S r ltac:(lia)) in I2. apply filter_In in I2. apply I2. }
  assert (CO : concat (map snd (sort_by cs')) =
    concat (map (fun r => concat (map (group_samples ms) (cut (thr r) (hist r)))) (seq 0 R))).
  { rewrite SO. clear. induction (seq 0 R) as [|r l IH]; cbn [map concat]; [auto|].
    rewrite map_app, concat_app, IH. f_equal. unfold gr. rewrite number_snd, concat_nonempty. reflexivity. }
  rewrite CO in *. auto.
Qed.

Lemma multi_rank_distinct ms dt R d (w : nat -> Z) (thr : nat -> Z) (hist : nat -> list batch) evs :
  ms <> [] -> NoDup ms -> fresh_dir d -> (forall r, (w r <= 1)%Z) ->
  (forall r, r < R -> Forall (batch_ok ms dt) (hist r)) ->
  (forall e, In e evs -> ev_rank e < R) ->
  (forall r, r < R -> evs_of r evs = map (EvBatch r) (hist r) ++ [EvFin r]) ->
  NoDup (concat (map (fun r => concat (map fst (hist r))) (seq 0 R))) ->
  exists d' ss', mp_run d (fun r => saver_init r (w r) (thr r) (grad_paths ms)) evs = (d', ss', Ok tt) /\
  forall listing, Permutation listing (dkeys d') ->
  exists ds, open_dataset d' listing = Ok ds /\
    all_nested ds = Ok (map (fun x => (fst x, nested_of ms (snd x)))
                            (concat (map (fun r => concat (map (batch_samples ms) (hist r))) (seq 0 R)))) /\
    ds_ids ds = concat (map (fun r => concat (map fst (hist r))) (seq 0 R)).
Proof.
  intros NE N Fd W F ER EV ND.
  destruct (multi_rank ms dt R d w thr hist evs NE N Fd W F ER EV) as (d' & ss' & E & L).
  exists d', ss'. split; [exact E|]. intros listing P. destruct (L listing P) as (ds & O & R1 & R2).
  exists ds. split; [exact O|]. cbn zeta in *.
  assert (IDS : map fst (concat (map (fun r => concat (map (batch_samples ms) (hist r))) (seq 0 R)))
     = concat (map (fun r => concat (map fst (hist r))) (seq 0 R))).
  { clear. induction (seq 0 R) as [|r l IH]; cbn [map concat]; [auto|]. rewrite map_app, IH, all_ids. reflexivity. }
  assert (EQ : map (fun r => concat (map (group_samples ms) (cut (thr r) (hist r)))) (seq 0 R)
     = map (fun r => concat (map (batch_samples ms) (hist r))) (seq 0 R)).
  { apply map_ext_in. intros r Ir. rewrite groups_nodup; rewrite cut_concat; [auto|].
    rewrite all_ids. clear -ND Ir. induction (seq 0 R) as [|q l IH]; [destruct Ir|]. cbn [map concat] in ND.
    destruct Ir as [->|Ir].
    - clear -ND. induction (concat (map fst (hist r))); [constructor|]. cbn in ND. inversion ND; subst.
      constructor; auto. intros H; apply H1; apply in_or_app; auto.
    - apply IH; auto. clear -ND. induction (concat (map fst (hist q))); auto. inversion ND; auto. }
  rewrite EQ in *. rewrite first_wins_nodup in * by (rewrite IDS; exact ND). rewrite IDS in R2. auto.
Qed.
