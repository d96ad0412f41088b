(** Proofs about damaged log directories and batches that cannot be collated. *)
From Coq Require Import Permutation Sorted.
From Verif Require Import Py PyStr ModelMmap ModelLoader ModelSaver SpecStore SpecDamage StoreProofs1 StoreProofs2 StoreProofs3 StoreProofs4 StoreProofs5 StoreProofs6 StoreProofs7.
Local Open Scope nat_scope.

Lemma fetch_good d k m s : chunk_good d k m -> exists s', fetch_one d s (chunk_idx k) = Ok s' /\ length (ds_mm s') = S (length (ds_mm s)).
Proof.
  intros [(b & bs & G1) G2]. change (chunk_file (fst k) (snd k)) with (cfile k) in *. rewrite meta_name_cfile in G2. unfold fetch_one.
  rewrite sapp_assoc, (read_cfile d k (b :: bs) G1) by discriminate. cbn [bind]. unfold get_mmap_metadata. rewrite sapp_assoc. fold (mfile k). rewrite (read_metafile_ok d k m G2). cbn [bind].
  eexists. split; [reflexivity|]. cbn [ds_mm]. rewrite app_length. cbn. lia.
Qed.
Lemma fetch_bad d k e s : chunk_fault d k e -> fetch_one d s (chunk_idx k) = Err e.
Proof.
  intros Hf. unfold chunk_fault in Hf. change (chunk_file (fst k) (snd k)) with (cfile k) in *. rewrite meta_name_cfile in Hf. unfold fetch_one.
  rewrite sapp_assoc. unfold read. rewrite <- cfile_eq, data_name_cfile. destruct Hf as [[G ->]|(b & bs & G & Hf)]; rewrite G; cbn [bind]; [reflexivity|].
  unfold get_mmap_metadata. rewrite sapp_assoc. fold (mfile k). unfold read_metafile. rewrite mfile_ext. cbn [String.eqb].
  destruct Hf as [[M ->]|(f & M & Nf & ->)]; rewrite M; [reflexivity|]. destruct f; try reflexivity. exfalso. eapply Nf. reflexivity.
Qed.
Lemma fetch_goods d ks : (forall k, In k ks -> exists m, chunk_good d k m) -> forall s, exists s', foldM (fetch_one d) (map chunk_idx ks) s = Ok s' /\ length (ds_mm s') = length (ds_mm s) + length ks.
Proof.
  induction ks as [|k ks IH]; intros G s; cbn [map foldM].
  - exists s. split; [reflexivity|]. cbn. lia.
  - destruct (G k (or_introl eq_refl)) as (m & Gk). destruct (fetch_good d k m s Gk) as (s1 & E1 & L1). rewrite E1. cbn [bind].
    destruct (IH (fun k Hk => G k (or_intror Hk)) s1) as (s2 & E2 & L2). exists s2. split; [exact E2|]. rewrite L2, L1. cbn [length]. lia.
Qed.
Lemma foldM_app {A S} (f : S -> A -> res S) l1 l2 s : foldM f (l1 ++ l2) s = bind (foldM f l1 s) (fun s' => foldM f l2 s').
Proof. revert s. induction l1 as [|a l IH]; intros s; cbn [app foldM bind]; [reflexivity|]. destruct (f s a); cbn [bind]; auto. Qed.

Lemma open_found d listing (ks : list (nat * nat)) others :
  NoDup ks -> (forall n, In n others -> ~ exists mid, n = ("log_" ++ mid ++ ".mmap")%string) ->
  Permutation listing (map (fun k => chunk_file (fst k) (snd k)) ks ++ others) ->
  exists sorted, Permutation ks sorted /\ StronglySorted before sorted /\ open_dataset d listing = foldM (fetch_one d) (map chunk_idx sorted) (DS [] []).
Proof.
  intros N O P. destruct (chunk_order ks others listing N O P) as (sorted & P1 & S1 & E). exists sorted. split; [exact P1|]. split; [exact S1|].
  unfold open_dataset. rewrite E. cbn [bind]. f_equal. apply map_ext. intros k. apply chunk_index_of_cfile.
Qed.
Lemma open_all_good d listing (ks : list (nat * nat)) others :
  NoDup ks -> (forall n, In n others -> ~ exists mid, n = ("log_" ++ mid ++ ".mmap")%string) ->
  Permutation listing (map (fun k => chunk_file (fst k) (snd k)) ks ++ others) ->
  (forall k, In k ks -> exists m, chunk_good d k m) ->
  exists ds, open_dataset d listing = Ok ds /\ length (ds_mm ds) = length ks.
Proof.
  intros N O P G. destruct (open_found d listing ks others N O P) as (sorted & P1 & _ & E). rewrite E.
  destruct (fetch_goods d sorted) with (s := DS [] []) as (s' & E' & L).
  - intros k Hk. apply G. eapply Permutation_in; [symmetry; exact P1|exact Hk].
  - exists s'. split; [exact E'|]. rewrite L. cbn. symmetry. apply Permutation_length, P1.
Qed.
Lemma open_first_bad d listing (ks : list (nat * nat)) others k e :
  NoDup ks -> (forall n, In n others -> ~ exists mid, n = ("log_" ++ mid ++ ".mmap")%string) ->
  Permutation listing (map (fun k => chunk_file (fst k) (snd k)) ks ++ others) ->
  In k ks -> chunk_fault d k e -> (forall k', In k' ks -> before k' k -> exists m, chunk_good d k' m) ->
  open_dataset d listing = Err e.
Proof.
  intros N O P Hk Hf G. destruct (open_found d listing ks others N O P) as (sorted & P1 & S1 & E). rewrite E.
  assert (Hs : In k sorted) by (eapply Permutation_in; eauto). apply in_split in Hs as (l1 & l2 & ->).
  assert (B : forall k', In k' l1 -> before k' k).
  { clear - S1. induction l1 as [|a l1 IH]; intros k' Hk'; [destruct Hk'|]. cbn [app] in S1. inversion S1 as [|? ? S2 Fa]; subst. destruct Hk' as [<-|Hk'].
    - rewrite Forall_forall in Fa. apply Fa. apply in_or_app. right. left. reflexivity.
    - apply IH; auto. }
  rewrite map_app, foldM_app. destruct (fetch_goods d l1) with (s := DS [] []) as (s' & E' & _).
  - intros k' Hk'. apply G; [|apply B, Hk']. eapply Permutation_in; [symmetry; exact P1|]. apply in_or_app. auto.
  - rewrite E'. cbn [bind map foldM]. rewrite (fetch_bad d k e s' Hf). reflexivity.
Qed.

(** ---- names without numbers ---- *)
Lemma chars_app a b : chars (a ++ b)%string = chars a ++ chars b.
Proof. apply list_ascii_of_string_app || (induction a as [|c a IH]; cbn; [reflexivity|f_equal; exact IH]). Qed.
Lemma span_spec {A} (f : A -> bool) l : let '(x, y) := span f l in l = x ++ y /\ forallb f x = true.
Proof.
  induction l as [|a l IH]; cbn [span]; [auto|]. destruct (f a) eqn:E; [|auto]. destruct (span f l) as [x y]. destruct IH as [-> F]. cbn [app forallb]. rewrite E. auto.
Qed.
Lemma prefix_chars p l : String.prefix p (unchars l) = true -> l = chars p ++ skipn (String.length p) l.
Proof.
  revert l. induction p as [|c p IH]; intros l E; [reflexivity|]. destruct l as [|a l]; [discriminate E|]. cbn in E. destruct (Ascii.ascii_dec c a) as [->|]; [|discriminate E].
  cbn [chars skipn String.length app list_ascii_of_string]. f_equal. apply IH. exact E.
Qed.
Definition numbered_l (l : list ascii) : Prop := exists a r c b, r <> [] /\ c <> [] /\ forallb is_digit r = true /\ forallb is_digit c = true /\ l = a ++ chars "rank_" ++ r ++ chars "_chunk_" ++ c ++ b.
Lemma match_numbered l x : match_here l = Some x -> numbered_l l.
Proof.
  unfold match_here. cbv zeta. destruct (String.prefix "rank_" (unchars l)) eqn:P1; [|discriminate]. apply prefix_chars in P1.
  set (l1 := skipn (String.length "rank_") l) in *. pose proof (span_spec is_digit l1) as S1. destruct (span is_digit l1) as [d1 s2]. destruct S1 as [E1 F1].
  destruct d1 as [|c1 d1]; [discriminate|]. destruct (String.prefix "_chunk_" (unchars s2)) eqn:P2; [|discriminate]. apply prefix_chars in P2.
  set (s3 := skipn (String.length "_chunk_") s2) in *. pose proof (span_spec is_digit s3) as S3. destruct (span is_digit s3) as [d2 s4]. destruct S3 as [E3 F3].
  destruct d2 as [|c2 d2]; [discriminate|]. intros _. exists [], (c1 :: d1), (c2 :: d2), s4. repeat split; auto; try discriminate. cbn [app]. rewrite P1 at 1. rewrite E1, P2, E3. reflexivity.
Qed.
Lemma search_numbered l x : re_search l = Some x -> numbered_l l.
Proof.
  induction l as [|a l IH]; cbn [re_search].
  - destruct (match_here []) eqn:E; [|discriminate]. intros _. eapply match_numbered, E.
  - destruct (match_here (a :: l)) eqn:E; [intros _; eapply match_numbered, E|]. intros E2. destruct (IH E2) as (p & r & c & b & A1 & A2 & A3 & A4 & ->). exists (a :: p), r, c, b. repeat split; auto.
Qed.
Lemma unchars_app a b : unchars (a ++ b) = (unchars a ++ unchars b)%string.
Proof. induction a as [|c a IH]; cbn; [reflexivity|]. f_equal. exact IH. Qed.
Lemma unchars_chars s : unchars (chars s) = s.
Proof. apply string_of_list_ascii_of_string. Qed.
Lemma chars_unchars l : chars (unchars l) = l.
Proof. apply list_ascii_of_string_of_list_ascii. Qed.
Lemma numbered_l_s l : numbered_l l -> numbered (unchars l).
Proof.
  intros (a & r & c & b & A1 & A2 & A3 & A4 & ->). exists (unchars a), (unchars r), (unchars c), (unchars b).
  split; [split; [intros C; apply A1; rewrite <- (chars_unchars r), C; reflexivity|rewrite chars_unchars; exact A3]|].
  split; [split; [intros C; apply A2; rewrite <- (chars_unchars c), C; reflexivity|rewrite chars_unchars; exact A4]|].
  rewrite !unchars_app, !unchars_chars. reflexivity.
Qed.
Lemma drop_suffix {A} (f : A -> bool) l : exists p, l = p ++ snd (span f l).
Proof. pose proof (span_spec f l) as S. destruct (span f l) as [x y]. exists x. apply S. Qed.
Lemma part_numbered a s b : numbered s -> numbered (a ++ s ++ b)%string.
Proof.
  intros (p & r & c & q & D1 & D2 & ->). exists (a ++ p)%string, r, c, (q ++ b)%string. repeat split; try apply D1; try apply D2. rewrite !sapp_assoc. reflexivity.
Qed.
Lemma drop_while_suffix {A} (f : A -> bool) l : exists p, l = p ++ drop_while f l.
Proof. induction l as [|a l [p IH]]; cbn [drop_while]; [exists []; reflexivity|]. destruct (f a); [exists (a :: p); cbn; f_equal; exact IH|exists []; reflexivity]. Qed.
Lemma lstrip_part cs s : exists a, s = (a ++ lstrip cs s)%string.
Proof. destruct (drop_while_suffix (fun c => cmem c (chars cs)) (chars s)) as (p & E). exists (unchars p). unfold lstrip. rewrite <- unchars_app, <- E. symmetry. apply unchars_chars. Qed.
Lemma rstrip_part cs s : exists b, s = (rstrip cs s ++ b)%string.
Proof.
  destruct (drop_while_suffix (fun c => cmem c (chars cs)) (rev (chars s))) as (p & E). exists (unchars (rev p)). unfold rstrip. rewrite <- unchars_app, <- rev_app_distr, <- E, rev_involutive. symmetry. apply unchars_chars.
Qed.
Lemma chunk_index_part n : exists a b, n = (a ++ chunk_index_of n ++ b)%string.
Proof.
  unfold chunk_index_of, strip. set (s := rstrip ".mmap" n). destruct (rstrip_part ".mmap" n) as (b1 & E1). fold s in E1. destruct (rstrip_part "log_" s) as (b2 & E2). destruct (lstrip_part "log_" (rstrip "log_" s)) as (a & E3).
  exists a, (b2 ++ b1)%string. rewrite E1 at 1. rewrite E2 at 1. rewrite E3 at 1. rewrite !sapp_assoc. reflexivity.
Qed.
Lemma chunk_like mid : is_chunk_file ("log_" ++ mid ++ ".mmap")%string = true.
Proof.
  unfold is_chunk_file. apply andb_true_intro. split.
  - unfold endswith. rewrite !chars_app, !rev_app_distr, <- app_assoc, unchars_app. generalize (unchars (rev (chars mid) ++ rev (chars "log_"))). intros s. destruct s; vm_compute; reflexivity.
  - unfold startswith. generalize (mid ++ ".mmap")%string. intros s. destruct s; vm_compute; reflexivity.
Qed.
Lemma mapM_first_err {A B} (f : A -> res B) e l : (forall a e', In a l -> f a = Err e' -> e' = e) -> (exists a, In a l /\ f a = Err e) -> mapM f l = Err e.
Proof.
  intros U (a & Ha & Ea). induction l as [|b l IH]; [destruct Ha|]. cbn [mapM]. destruct (f b) as [y|e'] eqn:Eb.
  - cbn [bind]. destruct Ha as [->|Ha]; [congruence|]. rewrite IH; [reflexivity| |exact Ha]. intros a' e' Ha' E'. apply (U a' e'); [right; exact Ha'|exact E'].
  - cbn [bind]. f_equal. apply (U b e'); [left; reflexivity|exact Eb].
Qed.
Lemma open_foreign d listing mid : In ("log_" ++ mid ++ ".mmap")%string listing -> ~ numbered ("log_" ++ mid ++ ".mmap")%string -> open_dataset d listing = Err AttributeError.
Proof.
  set (n := ("log_" ++ mid ++ ".mmap")%string). intros Hn Nn. unfold open_dataset, find_chunk_indices.
  rewrite (mapM_first_err _ AttributeError); [reflexivity| |].
  - intros s e' _ E. unfold extract_rank_and_chunk in E. destruct (re_search (chars s)); cbn [bind] in E; congruence.
  - exists (chunk_index_of n). split.
    + apply in_map, filter_In. split; [exact Hn|apply chunk_like].
    + unfold extract_rank_and_chunk. destruct (re_search (chars (chunk_index_of n))) eqn:E; [|reflexivity]. exfalso. apply Nn.
      apply search_numbered, numbered_l_s in E. rewrite unchars_chars in E. destruct (chunk_index_part n) as (a & b & En). rewrite En. apply part_numbered, E.
Qed.

(** ---- indexing and truncated data ---- *)
Lemma index_error ds i : ds_len ds <= i -> get_nested ds i = Err IndexError /\ get_flat ds i = Err IndexError.
Proof. intros L. unfold get_nested, get_flat, get_record. unfold ds_len in L. apply nth_error_None in L. rewrite L. split; reflexivity. Qed.
Lemma flatten_cut mm k off blk dt : k <= length mm ->
  get_flatten_item (firstn k mm) off blk dt = if off + blk * itemsize dt <=? k then get_flatten_item mm off blk dt else Err TypeError.
Proof.
  intros L. unfold get_flatten_item. rewrite firstn_length_le by exact L. destruct (Nat.leb_spec (off + blk * itemsize dt) k); [|reflexivity].
  destruct (Nat.leb_spec (off + blk * itemsize dt) (length mm)); [|lia]. do 2 f_equal.
  rewrite skipn_firstn_comm, firstn_firstn. f_equal. lia.
Qed.
Lemma entries_end dt ms : ms <> [] -> forall arrss ids off i e, length ids = length arrss -> Forall (good_arrs dt) arrss -> Forall (fun arrs => length arrs = length ms) arrss ->
  nth_error (entries (grad_paths ms) off ids arrss) i = Some e -> e_offset e + e_block e * itemsize (e_dtype e) = off + sumf (total nbytes) (firstn (S i) arrss).
Proof.
  intros NE. induction arrss as [|arrs arrss IH]; intros ids off i e L G LM E.
  - destruct ids; destruct i; discriminate.
  - destruct ids as [|id ids]; [discriminate|]. inversion G as [|? ? G1 G2]; subst. inversion LM as [|? ? M1 M2]; subst.
    assert (NA : arrs <> []). { intros ->. destruct ms; [congruence|discriminate]. }
    destruct i as [|i].
    + cbn [entries nth_error] in E. injection E as <-. cbn [e_offset e_block e_dtype firstn sumf fold_right].
      destruct (last_dt_some arrs NA) as (a & Ia & La). rewrite La. assert (Da : a_dtype a = dt) by (unfold good_arrs in G1; rewrite Forall_forall in G1; apply G1; auto).
      rewrite Da, <- (total_nbytes_dtype dt arrs (good_arrs_dt dt arrs G1)). lia.
    + cbn [entries nth_error] in E. cbn [length] in L. rewrite (IH ids _ i e ltac:(lia) G2 M2 E). change (firstn (S (S i)) (arrs :: arrss)) with (arrs :: firstn (S i) arrss).
      cbn [sumf fold_right]. fold (sumf (total nbytes) (firstn (S i) arrss)). lia.
Qed.
Lemma truncated ms dt d s arrss : ms <> [] -> NoDup ms -> fresh_dir d ->
  s_path s = grad_paths ms -> s_buffer s <> [] -> NoDup (dkeys (s_buffer s)) ->
  Forall2 (fun x arrs => complete ms dt (snd x) arrs) (s_buffer s) arrss ->
  (exists arrs a, In arrs arrss /\ In a arrs /\ 0 < asize a) ->
  Forall json_id (dkeys (s_buffer s)) ->
  exists d' s' bytes, flush_serialized d s = (d', s', Ok tt) /\ dget (chunk_file (s_rank s) (s_count s)) d' = Some (FData bytes) /\
    forall k listing, 0 < k <= length bytes -> Permutation listing (dkeys d') ->
    exists ds, open_dataset (dset (chunk_file (s_rank s) (s_count s)) (FData (firstn k bytes)) d') listing = Ok ds /\ ds_ids ds = dkeys (s_buffer s) /\
      forall i id arrs, nth_error (dkeys (s_buffer s)) i = Some id -> nth_error arrss i = Some arrs ->
        (sumf (total nbytes) (firstn (S i) arrss) <= k -> get_nested ds i = Ok (id, nested_of ms arrs) /\ get_flat ds i = Ok (id, flat_of dt arrs)) /\
        (k < sumf (total nbytes) (firstn (S i) arrss) -> get_nested ds i = Err TypeError /\ get_flat ds i = Err TypeError).
Proof.
  intros NE N Fd P B ND Fc Pos J.
  assert (Fr : Forall2 (fun x arrs => recorded ms (snd x) arrs) (s_buffer s) arrss).
  { clear - Fc. induction Fc as [|x a l r C Fc IH]; constructor; [|exact IH]. clear - C. unfold complete, recorded in *. induction C as [|? ? ? ? (A1 & A2 & A3 & A4) C IH]; constructor; auto. }
  assert (T : 0 < buf_bytes (s_buffer s)).
  { rewrite <- total_size_bytes. eapply (total_size_pos ms dt (s_buffer s) arrss); eauto. }
  rewrite (flush_recorded ms d s arrss NE N P B T Fr J). set (kk := (s_rank s, s_count s)).
  set (mm := records arrss ++ repeat x00 (buf_bytes (s_buffer s) - totals arrss)). set (meta := entries (grad_paths ms) 0 (dkeys (s_buffer s)) arrss).
  set (d' := dset (mfile kk) (FMeta meta) (dset (cfile kk) (FData mm) d)).
  exists d', (buffer_clear (incr_count s)), mm. split; [reflexivity|]. change (chunk_file (s_rank s) (s_count s)) with (cfile kk). split; [apply get_data|].
  intros k listing Hk Pm.
  pose proof (fresh_dir_holds ms d Fd) as (H1 & _ & H3 & _).
  assert (Kd : dkeys (dset (cfile kk) (FData (firstn k mm)) d') = dkeys d').
  { apply dkeys_dset_in. apply dget_In_keys. exists (FData mm). apply get_data. }
  assert (DO : dir_ok (dset (cfile kk) (FData (firstn k mm)) d') [(kk, (firstn k mm, meta))]).
  { split; [rewrite Kd; apply NoDup_dset, NoDup_dset; exact H1|]. split; [repeat constructor; auto|]. split.
    - rewrite Kd. intros n Hn C. apply In_dkeys_dset in Hn as [->|Hn].
      { rewrite is_chunk_file_mfile in C. discriminate. }
      apply In_dkeys_dset in Hn as [->|Hn].
      { exists kk. cbn. auto. }
      destruct (H3 n Hn C) as (k' & [] & _).
    - intros k' bs m [E|[]]. injection E as <- <- <-. split; [|split].
      + intros C. apply (f_equal (@length byte)) in C. rewrite firstn_length_le in C by lia. cbn in C. lia.
      + apply dget_dset_eq.
      + rewrite dget_dset_neq by apply mfile_cfile. apply get_meta. }
  rewrite <- Kd in Pm. rewrite (open_ok _ _ _ DO Pm). cbn [sort_by fold_right insert_by map fst snd items]. rewrite app_nil_r.
  assert (LI : length (dkeys (s_buffer s)) = length arrss) by (unfold dkeys; rewrite map_length; eapply Forall2_length; eauto).
  assert (FW : first_wins (map (fun e => (e_id e, (0, e))) meta) = map (fun e => (e_id e, (0, e))) meta).
  { apply first_wins_nodup. rewrite map_map. cbn [fst]. unfold meta. rewrite entries_ids; [exact ND|exact LI]. }
  rewrite FW. eexists. split; [reflexivity|]. split.
  { unfold ds_ids, dkeys. cbn [ds_map]. rewrite map_map. cbn [fst]. unfold meta. apply entries_ids. exact LI. }
  intros i id arrs Hi Ha.
  assert (G1 : Forall (good_arrs dt) arrss).
  { clear - Fc. induction Fc as [|x a l r C Fc IH]; constructor; [|exact IH]. clear - C. unfold complete, good_arrs in *. induction C as [|? ? ? ? (A1 & A2 & A3 & A4) C IH]; constructor; auto. }
  assert (G2 : Forall (fun arrs => length arrs = length ms) arrss).
  { clear - Fc. induction Fc as [|x a l r C Fc IH]; constructor; [|exact IH]. symmetry. eapply Forall2_length. exact C. }
  assert (Ki : i < length (dkeys (s_buffer s))) by (apply nth_error_Some; congruence).
  destruct (entries_read dt ms NE arrss (dkeys (s_buffer s)) 0 [] (repeat x00 (buf_bytes (s_buffer s) - totals arrss)) i LI G1 G2 eq_refl Ki) as (e & E1 & E2 & E3 & E4 & E5 & E6).
  fold meta in E1. cbn [app] in E6. fold mm in E6.
  rewrite (nth_error_nth _ _ (DInt 0) Hi) in E2. rewrite (nth_error_nth _ _ [] Ha) in E4, E5, E6.
  pose proof (entries_end dt ms NE arrss (dkeys (s_buffer s)) 0 i e LI G1 G2 E1) as EE. cbn [Nat.add] in EE.
  assert (Gy : good_arrs dt arrs /\ length arrs = length ms).
  { rewrite Forall_forall in G1, G2. apply nth_error_In in Ha. auto. }
  unfold get_nested, get_flat, get_record. cbn [ds_map ds_mm]. rewrite nth_error_map, E1. cbn [option_map nth_error bind]. rewrite flatten_cut by lia. rewrite EE.
  split; intros Hk2.
  - replace (_ <=? k) with true by (symmetry; apply Nat.leb_le; exact Hk2). rewrite E6. cbn [bind]. rewrite E3, E4, (unflatten_entry dt ms arrs (proj2 Gy) N (proj1 Gy)). cbn [bind]. rewrite E5, Nat.eqb_refl, E2. split; reflexivity.
  - replace (_ <=? k) with false by (symmetry; apply Nat.leb_gt; exact Hk2). cbn [bind]. split; reflexivity.
Qed.

(** ---- batches whose records have different shapes ---- *)
Lemma collate_accf_err {A B} (stack : list A -> res B) e ms g :
  Forall (fun m => forall e', stack (g m) = Err e' -> e' = e) ms -> Exists (fun m => stack (g m) = Err e) ms -> collate_structure stack (accf ms g) = Err e.
Proof.
  intros U X. unfold accf. cbn [collate_structure].
  match goal with |- bind ?x _ = _ => assert (E : x = Err e) end; [|rewrite E; reflexivity].
  induction U as [|m ms U1 U IH]; [inversion X|]. cbn [map]. cbn [collate_structure]. destruct (stack (g m)) as [b|e'] eqn:E1.
  - cbn [bind]. rewrite IH; [reflexivity|]. inversion X; subst; [congruence|assumption].
  - cbn [bind]. rewrite (U1 e' eq_refl). reflexivity.
Qed.
Lemma natlist_eqb_true a : forall b, natlist_eqb a b = true -> a = b.
Proof. induction a as [|x a IH]; intros [|y b] E; try discriminate; [reflexivity|]. cbn in E. apply andb_prop in E as [E1 E2]. apply Nat.eqb_eq in E1. f_equal; auto. Qed.
Lemma stack_kind l e : l <> [] -> stack_arrays l = Err e -> e = RuntimeError.
Proof. destruct l as [|a l]; [congruence|]. intros _. unfold stack_arrays. destruct (forallb _ _); congruence. Qed.
Lemma stack_disagree l a b : In a l -> In b l -> a_shape a <> a_shape b -> stack_arrays l = Err RuntimeError.
Proof.
  intros Ia Ib N. unfold stack_arrays. destruct l as [|c l]; [destruct Ia|]. destruct (forallb _ (c :: l)) eqn:E; [|reflexivity].
  rewrite forallb_forall in E. pose proof (E a Ia) as Ea. pose proof (E b Ib) as Eb. apply andb_prop in Ea as [Ea _], Eb as [Eb _]. apply natlist_eqb_true in Ea, Eb. congruence.
Qed.
Lemma collate_as ms (c : list (did * list array)) : NoDup ms -> c <> [] -> all_of ms c ->
  exists g, collate_nested_dicts stack_arrays (map (fun x => (fst x, nested_of ms (snd x))) c) = (let* out := collate_structure stack_arrays (accf ms g) in Ok (map fst c, out)) /\
    forall j m, nth_error ms j = Some m -> g m = map (fun x => nth j (snd x) (Arr [] F32 [])) c.
Proof.
  intros N NE Ll. destruct c as [|[id l] c]; [congruence|]. set (c0 := (id, l) :: c) in *. unfold collate_nested_dicts.
  change (map (fun x => (fst x, nested_of ms (snd x))) c0) with ((id, nested_of ms l) :: map (fun x : did * list array => (fst x, nested_of ms (snd x))) c).
  cbn iota. unfold nested_of at 1.
  change ((id, nested_of ms l) :: map (fun x : did * list array => (fst x, nested_of ms (snd x))) c)
    with (map (fun x : did * list array => (fst x, nest ms (snd x))) c0).
  fold (nest ms l). rewrite (init_nest ms l) by (apply (Forall_inv Ll)).
  destruct (fold_merge ms (Arr [] F32 []) c0 N Ll (fun _ => [])) as (g & E & G). rewrite E. cbn [bind]. exists g. rewrite map_map. split; [reflexivity|]. exact G.
Qed.
Lemma collate_kind ms c e : NoDup ms -> c <> [] -> all_of ms c ->
  collate_nested_dicts stack_arrays (map (fun x => (fst x, nested_of ms (snd x))) c) = Err e -> e = RuntimeError.
Proof.
  intros N NE Ll E. destruct (collate_as ms c N NE Ll) as (g & E1 & G). rewrite E1 in E.
  assert (K : Forall (fun m => forall e', stack_arrays (g m) = Err e' -> e' = RuntimeError) ms).
  { apply Forall_forall. intros m Hm e'. apply In_nth_error in Hm as (j & Hj). apply stack_kind. rewrite (G j m Hj). destruct c; [congruence|discriminate]. }
  clear - K E. unfold accf in E. cbn [collate_structure] in E.
  match type of E with bind (bind ?x _) _ = _ => destruct x as [l'|e1] eqn:E1 end; [discriminate|]. cbn [bind] in E. injection E as <-.
  revert e1 E1. induction K as [|m ms K1 K IH]; intros e1 E1; [discriminate|]. cbn [map] in E1. cbn [collate_structure] in E1. destruct (stack_arrays (g m)) as [b|e'] eqn:Em.
  - cbn [bind] in E1. match type of E1 with bind ?x _ = _ => destruct x as [l'|e2] eqn:E2 end; [discriminate|]. cbn [bind] in E1. injection E1 as <-. apply (IH e2 eq_refl).
  - cbn [bind] in E1. injection E1 as <-. auto.
Qed.
Lemma collate_disagree ms c j : NoDup ms -> all_of ms c -> j < length ms -> disagree j c ->
  collate_nested_dicts stack_arrays (map (fun x => (fst x, nested_of ms (snd x))) c) = Err RuntimeError.
Proof.
  intros N Ll Hj (x & y & Ix & Iy & D). assert (NE : c <> []) by (intros ->; destruct Ix).
  destruct (collate_as ms c N NE Ll) as (g & E1 & G). rewrite E1, (collate_accf_err stack_arrays RuntimeError); [reflexivity| |].
  - apply Forall_forall. intros m Hm e'. apply In_nth_error in Hm as (i & Hi). apply stack_kind. rewrite (G i m Hi). destruct c; [congruence|discriminate].
  - apply nth_error_Some in Hj. destruct (nth_error ms j) as [m|] eqn:Em; [|congruence]. apply Exists_exists. exists m. split; [eapply nth_error_In; eauto|].
    rewrite (G j m Em). apply (stack_disagree _ (nth j (snd x) (Arr [] F32 [])) (nth j (snd y) (Arr [] F32 []))); [apply in_map_iff; eauto|apply in_map_iff; eauto|exact D].
Qed.
Lemma dataloader_disagree ds ms k (kept : list (did * list array)) c j : NoDup ms -> 0 < k ->
  all_nested ds = Ok (map (fun x => (fst x, nested_of ms (snd x))) kept) -> all_of ms kept ->
  In c (chunks k kept) -> j < length ms -> disagree j c -> dataloader ds k = Err RuntimeError.
Proof.
  intros N K A Al Ic Hj D. unfold dataloader. rewrite A. cbn [bind]. unfold chunks in *. rewrite map_length, chunks_map, mapM_map.
  pose proof (chunks_fuel_nonempty (length kept) k kept K) as NE.
  assert (AC : Forall (all_of ms) (chunks_fuel (length kept) k kept)).
  { apply Forall_forall. intros c' I'. apply Forall_forall. intros x Ix. unfold all_of in Al. rewrite Forall_forall in Al. apply Al. eapply chunks_In; eauto. }
  apply mapM_first_err.
  - intros c' e' I' E. rewrite Forall_forall in NE, AC. apply (collate_kind ms c' e'); auto.
  - exists c. split; [exact Ic|]. apply (collate_disagree ms c j); auto. rewrite Forall_forall in AC. auto.
Qed.
Lemma dataloader_flat_disagree ds k (kept : list (did * array)) c x y : 0 < k -> all_flat ds = Ok kept ->
  (forall c', In c' (chunks k kept) -> exists ids, torch_ids (map fst c') ids) ->
  In c (chunks k kept) -> In x c -> In y c -> a_shape (snd x) <> a_shape (snd y) -> dataloader_flat ds k = Err RuntimeError.
Proof.
  intros K A T Ic Ix Iy D. unfold dataloader_flat. rewrite A. cbn [bind]. unfold chunks in *. pose proof (chunks_fuel_nonempty (length kept) k kept K) as NE.
  apply mapM_first_err.
  - intros c' e' I' E. destruct (T c' I') as (ids & Ti). rewrite (default_ids_ok _ _ Ti) in E. cbn [bind] in E. destruct (stack_arrays (map snd c')) as [t|e1] eqn:E1; [discriminate|]. cbn [bind] in E. injection E as <-. apply (stack_kind (map snd c')); [|exact E1].
    rewrite Forall_forall in NE. specialize (NE c' I'). destruct c'; [congruence|discriminate].
  - exists c. split; [exact Ic|]. destruct (T c Ic) as (ids & Ti). rewrite (default_ids_ok _ _ Ti). cbn [bind]. rewrite (stack_disagree _ (snd x) (snd y)); auto using in_map.
Qed.

(** ---- file names without an extension ---- *)
Lemma span_all {A} (f : A -> bool) l : forallb f l = true -> span f l = (l, []).
Proof. induction l as [|a l IH]; intros E; [reflexivity|]. cbn in *. apply andb_prop in E as [E1 E2]. rewrite E1, (IH E2). reflexivity. Qed.
Lemma splitext_none s : forallb (fun c => negb (Ascii.eqb c ".")) (chars s) = true -> splitext s = (s, ""%string).
Proof.
  intros E. unfold splitext. rewrite span_all; [reflexivity|]. apply forallb_forall. intros c Hc. rewrite forallb_forall in E. apply E. apply in_rev. exact Hc.
Qed.
Lemma assign_len m off n bs m' : assign_slice m off n bs = Ok m' -> length m' = length m.
Proof.
  unfold assign_slice. destruct (Nat.eqb_spec (length bs) (Nat.min n (length m - off))); [|destruct (Nat.eqb_spec (length bs) 1); [|discriminate]];
    intros E; injection E as <-; rewrite !app_length, firstn_length, skipn_length, ?repeat_length; lia.
Qed.
Lemma write_keys_len x order : forall s, let '(mm, r) := write_keys x order s in length mm = length (w_mm s).
Proof.
  induction order as [|k order IH]; intros s; cbn [write_keys]; [reflexivity|]. unfold write_key. destruct (get_from_nested_dict x k) as [arr|]; [|reflexivity].
  destruct (reduce_mul (a_shape arr)); cbn [bind]; [|reflexivity]. destruct (assign_slice _ _ _ _) as [m'|] eqn:E; cbn [bind]; [|reflexivity]. apply assign_len in E.
  match goal with |- context [write_keys x order ?s'] => specialize (IH s') end. destruct (write_keys x order _) as [mm r]. cbn [w_mm] in IH. congruence.
Qed.
Lemma write_samples_len order buf : forall mm off meta, length (fst (write_samples order buf mm off meta)) = length mm.
Proof.
  induction buf as [|[i x] buf IH]; intros mm off meta; cbn [write_samples]; [reflexivity|]. pose proof (write_keys_len x order (W mm off [] 0 None)) as L.
  destruct (write_keys x order _) as [mm' [s|e]]; cbn [w_mm] in L; [|exact L]. destruct (w_dt s); [|exact L]. rewrite IH. exact L.
Qed.
Lemma write_bare d f buf order d' : dotless f -> write d f buf order = (d', Ok tt) ->
  exists b bs m, dget (f ++ ".mmap")%string d' = Some (FData (b :: bs)) /\ dget (f ++ "_metadata.json")%string d' = Some (FMeta m) /\
    (forall n, n <> (f ++ ".mmap")%string -> n <> (f ++ "_metadata.json")%string -> dget n d' = dget n d) /\
    read d' f = Ok (b :: bs) /\ read d' (f ++ ".mmap")%string = Ok (b :: bs) /\
    read_metafile d' (f ++ "_metadata")%string = Ok m /\ read_metafile d' (f ++ "_metadata.json")%string = Ok m.
Proof.
  intros [D NE] W. unfold write, data_name, meta_name in W. rewrite (splitext_none f D) in W. cbn [String.eqb fst] in W.
  destruct (Nat.eqb_spec (total_size buf) 0) as [|T]; [discriminate|]. destruct (write_samples order buf (repeat x00 (total_size buf)) 0 []) as [mm r] eqn:Ew.
  assert (Lm : length mm = total_size buf).
  { pose proof (write_samples_len order buf (repeat x00 (total_size buf)) 0 []) as L. rewrite Ew in L. cbn [fst] in L. rewrite L. apply repeat_length. }
  destruct r as [m|e]; [|discriminate]. destruct (forallb _ m); [|discriminate]. injection W as <-.
  destruct mm as [|b bs]; [cbn in Lm; congruence|]. exists b, bs, m.
  assert (Ne : (f ++ ".mmap")%string <> (f ++ "_metadata.json")%string).
  { intros C. apply (f_equal chars) in C. rewrite !chars_app in C. apply app_inv_head in C. discriminate. }
  assert (X : existsb (fun c => negb (Ascii.eqb c ".")) (chars f) = true).
  { destruct f as [|c f]; [congruence|]. cbn in D |- *. apply andb_prop in D as [-> _]. reflexivity. }
  assert (E1 : splitext (f ++ ".mmap") = (f, ".mmap"%string)) by (apply (splitext_ok f "mmap"); [reflexivity|exact X]).
  assert (E2 : splitext (f ++ "_metadata") = ((f ++ "_metadata")%string, ""%string)).
  { apply splitext_none. rewrite chars_app, forallb_app, D. reflexivity. }
  assert (E3 : splitext (f ++ "_metadata.json") = ((f ++ "_metadata")%string, ".json"%string)).
  { replace (f ++ "_metadata.json")%string with ((f ++ "_metadata") ++ "." ++ "json")%string by (rewrite sapp_assoc; reflexivity). apply (splitext_ok _ "json"); [reflexivity|]. rewrite chars_app, existsb_app, X. reflexivity. }
  split; [rewrite dget_dset_neq by exact Ne; apply dget_dset_eq|]. split; [apply dget_dset_eq|]. split.
  { intros n N1 N2. rewrite !dget_dset_neq; auto. }
  unfold read, data_name, read_metafile. rewrite (splitext_none f D), E1, E2, E3. cbn [String.eqb].
  rewrite !dget_dset_neq by exact Ne. rewrite dget_dset_eq.
  replace ((f ++ "_metadata") ++ ".json")%string with (f ++ "_metadata.json")%string by (rewrite sapp_assoc; reflexivity). rewrite dget_dset_eq. auto.
Qed.
Lemma prefix_app_self p b : String.prefix p (p ++ b) = true.
Proof. induction p as [|c p IH]; [destruct b; reflexivity|]. cbn. destruct (Ascii.ascii_dec c c); [exact IH|congruence]. Qed.
Lemma contains_mid p a b : contains p (a ++ p ++ b) = true.
Proof.
  induction a as [|c a IH]; cbn [String.append].
  - destruct (p ++ b)%string eqn:E; cbn [contains]; rewrite <- E, prefix_app_self; reflexivity.
  - cbn [contains]. destruct (String.prefix p (String c (a ++ p ++ b))); [reflexivity|exact IH].
Qed.
