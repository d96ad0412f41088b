(** Proofs about chunk names, chunk order and opening the dataset. *)
From Coq Require Import Permutation Sorted.
From Verif Require Import Py PyStr ModelMmap ModelLoader ModelSaver SpecStore StoreProofs1.
Local Open Scope nat_scope.

(** ---- names ---- *)
Definition chunk_idx (k : nat * nat) : string :=
  ("rank_" ++ dec (fst k) ++ "_chunk_" ++ dec (snd k))%string.
Definition cfile (k : nat * nat) : string := chunk_file (fst k) (snd k).
Definition mfile (k : nat * nat) : string := ("log_" ++ chunk_idx k ++ "_metadata.json")%string.

Lemma sapp_assoc (a b c : string) : ((a ++ b) ++ c = a ++ (b ++ c))%string.
Proof. symmetry. apply string_app_assoc. Qed.

Lemma cfile_eq k : cfile k = ("log_" ++ chunk_idx k ++ ".mmap")%string.
Proof.
  unfold cfile, chunk_file, chunk_idx. rewrite !sapp_assoc. reflexivity.
Qed.

Lemma digit_not_in c : is_digit c = true ->
  cmem c (chars ".mmap") = false /\ cmem c (chars "log_") = false /\ Ascii.eqb c "." = false.
Proof. destruct c as [[] [] [] [] [] [] [] []]; cbn; intros H; try discriminate; auto. Qed.

Lemma chunk_idx_last k : exists l c, chars (chunk_idx k) = l ++ [c] /\ is_digit c = true.
Proof.
  destruct (dec_last (snd k)) as (l & c & E & D).
  exists (chars "rank_" ++ chars (dec (fst k)) ++ chars "_chunk_" ++ l), c. split; [|exact D].
  unfold chunk_idx. rewrite !chars_app, E, <- !app_assoc. reflexivity.
Qed.

Lemma rstrip_app_stop cs s l c t :
  chars s = l ++ [c] -> cmem c (chars cs) = false ->
  forallb (fun c => cmem c (chars cs)) (rev (chars t)) = true ->
  rstrip cs (s ++ t) = s.
Proof.
  intros E N A. unfold rstrip. rewrite chars_app, rev_app_distr, drop_while_all by exact A.
  rewrite E, rev_app_distr. cbn [rev app]. rewrite drop_while_stop by exact N.
  cbn [rev]. rewrite rev_involutive, <- E. apply unchars_chars.
Qed.

Lemma sapp_nil (s : string) : (s ++ "")%string = s.
Proof. induction s; cbn; congruence. Qed.

Lemma chunk_index_of_cfile k : chunk_index_of (cfile k) = chunk_idx k.
Proof.
  unfold chunk_index_of. rewrite cfile_eq, <- sapp_assoc.
  destruct (chunk_idx_last k) as (l & c & E & D). destruct (digit_not_in c D) as (N1 & N2 & N3).
  assert (E2 : chars ("log_" ++ chunk_idx k) = (chars "log_" ++ l) ++ [c]).
  { rewrite chars_app, E, app_assoc. reflexivity. }
  rewrite (rstrip_app_stop _ _ _ _ _ E2 N1) by reflexivity.
  unfold strip.
  assert (R : rstrip "log_" ("log_" ++ chunk_idx k) = ("log_" ++ chunk_idx k)%string).
  { rewrite <- (sapp_nil ("log_" ++ chunk_idx k)) at 1.
    exact (rstrip_app_stop _ _ _ _ "" E2 N2 eq_refl). }
  rewrite R. unfold lstrip. rewrite chars_app, drop_while_all by reflexivity.
  unfold chunk_idx. rewrite chars_app. cbn [chars list_ascii_of_string app].
  rewrite drop_while_stop by reflexivity.
  change ("r"%char :: "a"%char :: "n"%char :: "k"%char :: "_"%char :: ?x) with (chars "rank_" ++ x).
  rewrite <- chars_app. apply unchars_chars.
Qed.

Lemma is_chunk_file_cfile k : is_chunk_file (cfile k) = true.
Proof.
  unfold is_chunk_file. rewrite cfile_eq. rewrite startswith_app, <- sapp_assoc, endswith_app. reflexivity.
Qed.

Lemma is_chunk_file_mfile k : is_chunk_file (mfile k) = false.
Proof.
  unfold is_chunk_file, mfile, endswith. rewrite !chars_app, !rev_app_distr. cbn. reflexivity.
Qed.

Lemma lit_ok p l : String.prefix p (unchars (chars p ++ l)) = true /\
  skipn (String.length p) (chars p ++ l) = l.
Proof.
  split.
  - rewrite unchars_app, unchars_chars. apply prefix_app.
  - induction p; cbn; auto.
Qed.

Lemma match_here_idx k : match_here (chars (chunk_idx k)) = Some k.
Proof.
  unfold match_here, chunk_idx. rewrite !chars_app.
  destruct (lit_ok "rank_" (chars (dec (fst k)) ++ chars "_chunk_" ++ chars (dec (snd k)))) as [A B].
  rewrite A, B. rewrite span_app by (try apply dec_digits; reflexivity).
  destruct (lit_ok "_chunk_" (chars (dec (snd k)))) as [A2 B2]. rewrite A2, B2.
  destruct (chars (dec (fst k))) as [|c1 r1] eqn:E1; [destruct (dec_nonempty _ E1)|].
  rewrite <- (app_nil_r (chars (dec (snd k)))).
  rewrite span_app by (try apply dec_digits; exact I).
  destruct (chars (dec (snd k))) as [|c2 r2] eqn:E2; [destruct (dec_nonempty _ E2)|].
  rewrite <- E1, <- E2, !int_dec. destruct k; reflexivity.
Qed.

Lemma extract_idx k : extract_rank_and_chunk (chunk_idx k) = Ok k.
Proof.
  unfold extract_rank_and_chunk.
  assert (E : re_search (chars (chunk_idx k)) = Some k).
  { pose proof (match_here_idx k) as M. destruct (chars (chunk_idx k)) as [|c r]; cbn [re_search];
    rewrite M; reflexivity. }
  rewrite E. reflexivity.
Qed.

Lemma cfile_inj k1 k2 : cfile k1 = cfile k2 -> k1 = k2.
Proof.
  intros E. apply (f_equal chunk_index_of) in E. rewrite !chunk_index_of_cfile in E.
  apply (f_equal extract_rank_and_chunk) in E. rewrite !extract_idx in E. congruence.
Qed.

Lemma splitext_ok s e : forallb (fun c => negb (Ascii.eqb c ".")) (chars e) = true ->
  existsb (fun c => negb (Ascii.eqb c ".")) (chars s) = true ->
  splitext (s ++ "." ++ e) = (s, ("." ++ e)%string).
Proof.
  intros H X. unfold splitext. rewrite !chars_app, !rev_app_distr. cbn [chars list_ascii_of_string rev app].
  rewrite <- app_assoc. cbn [app].
  rewrite span_app; [| |reflexivity].
  - assert (X' : existsb (fun c => negb (Ascii.eqb c ".")) (rev (chars s)) = true).
    { rewrite existsb_exists in *. destruct X as (c & I & N). exists c. split; auto. apply -> in_rev. exact I. }
    rewrite X', !rev_involutive. rewrite unchars_chars. f_equal. cbn.
    f_equal. apply unchars_chars.
  - rewrite forallb_forall in *. intros c I. apply H. apply in_rev. exact I.
Qed.

Lemma log_nondot s : existsb (fun c => negb (Ascii.eqb c ".")) (chars ("log_" ++ s)) = true.
Proof. reflexivity. Qed.

Lemma data_name_cfile k : data_name (cfile k) = cfile k.
Proof.
  unfold data_name. rewrite cfile_eq, <- sapp_assoc.
  change ".mmap"%string with ("." ++ "mmap")%string.
  rewrite splitext_ok by (try reflexivity; apply log_nondot). reflexivity.
Qed.
Lemma meta_name_cfile k : meta_name (cfile k) = mfile k.
Proof.
  unfold meta_name. rewrite cfile_eq, <- sapp_assoc.
  change ".mmap"%string with ("." ++ "mmap")%string.
  rewrite splitext_ok by (try reflexivity; apply log_nondot). cbn [fst].
  unfold mfile. rewrite sapp_assoc. reflexivity.
Qed.
Lemma mfile_ext k : splitext (mfile k) = (("log_" ++ chunk_idx k ++ "_metadata")%string, ".json"%string).
Proof.
  unfold mfile.
  replace ("log_" ++ chunk_idx k ++ "_metadata.json")%string
    with (("log_" ++ chunk_idx k ++ "_metadata") ++ "." ++ "json")%string
    by (rewrite !sapp_assoc; reflexivity).
  rewrite splitext_ok by (try reflexivity; apply log_nondot). reflexivity.
Qed.

Lemma mfile_cfile k1 k2 : mfile k1 <> cfile k2.
Proof. intros E. apply (f_equal is_chunk_file) in E. rewrite is_chunk_file_mfile, is_chunk_file_cfile in E. discriminate. Qed.

Lemma sapp_inj_r (a b c : string) : (a ++ c = b ++ c)%string -> a = b.
Proof.
  intros E. apply (f_equal chars) in E. rewrite !chars_app in E. apply app_inv_tail in E.
  apply chars_inj. exact E.
Qed.
Lemma mfile_inj k1 k2 : mfile k1 = mfile k2 -> k1 = k2.
Proof.
  unfold mfile. intros E. rewrite <- !sapp_assoc in E. apply sapp_inj_r in E.
  apply cfile_inj. rewrite !cfile_eq, <- !sapp_assoc. congruence.
Qed.

(** ---- sorting ---- *)
Definition klt (a b : nat * nat) : Prop := fst a < fst b \/ (fst a = fst b /\ snd a < snd b).
Lemma klt_irrefl a : ~ klt a a.
Proof. unfold klt. lia. Qed.
Lemma klt_trans a b c : klt a b -> klt b c -> klt a c.
Proof. unfold klt. lia. Qed.
Lemma key_le_true a b : key_le a b = true -> a <> b -> klt a b.
Proof.
  unfold key_le, klt. destruct a as [a1 a2], b as [b1 b2]; cbn [fst snd].
  destruct (Nat.ltb_spec a1 b1); [auto|]. destruct (Nat.eqb_spec a1 b1); [|discriminate].
  destruct (Nat.leb_spec a2 b2); [|discriminate]. intros _ N. right. split; auto.
  destruct (Nat.eq_dec a2 b2); [subst; congruence|lia].
Qed.
Lemma key_le_false a b : key_le a b = false -> klt b a.
Proof.
  unfold key_le, klt. destruct a as [a1 a2], b as [b1 b2]; cbn [fst snd].
  destruct (Nat.ltb_spec a1 b1); [discriminate|]. destruct (Nat.eqb_spec a1 b1); [|lia].
  destruct (Nat.leb_spec a2 b2); [discriminate|]. lia.
Qed.

Section Sort.
  Context {A : Type}.
  Implicit Types l : list ((nat * nat) * A).

  Lemma insert_perm k (x : A) l : Permutation ((k, x) :: l) (insert_by k x l).
  Proof.
    induction l as [|[k' y] r IH]; cbn [insert_by]; [reflexivity|].
    destruct (key_le k k'); [reflexivity|]. rewrite perm_swap. constructor. exact IH.
  Qed.
  Lemma sort_perm l : Permutation l (sort_by l).
  Proof.
    induction l as [|[k x] r IH]; cbn [sort_by fold_right fst snd]; [reflexivity|].
    rewrite <- insert_perm. constructor. exact IH.
  Qed.

  Definition ssorted l := StronglySorted klt (map fst l).

  Lemma insert_sorted k (x : A) l : ssorted l -> ~ In k (map fst l) -> ssorted (insert_by k x l).
  Proof.
    unfold ssorted. induction l as [|[k' y] r IH]; intros S N; cbn [insert_by map fst] in *.
    - constructor; constructor.
    - inversion S as [|? ? S' F]; subst. destruct (key_le k k') eqn:E.
      + assert (L : klt k k'). { apply key_le_true; auto. intros ->. apply N. left; auto. }
        constructor; [constructor; auto|]. constructor; [exact L|].
        eapply Forall_impl; [|exact F]. intros a. apply klt_trans. exact L.
      + apply key_le_false in E. cbn [map fst]. constructor.
        * apply IH; auto. intros H. apply N. right; auto.
        * rewrite Forall_forall in *. intros a H.
          assert (H' : In a (map fst ((k, x) :: r))).
          { eapply Permutation_in; [|exact H]. apply Permutation_map. symmetry. apply insert_perm. }
          destruct H' as [<-|H']; auto.
  Qed.
  Lemma sort_sorted l : NoDup (map fst l) -> ssorted (sort_by l).
  Proof.
    induction l as [|[k x] r IH]; cbn [map fst sort_by fold_right snd]; intros N; [constructor|].
    inversion N; subst. apply insert_sorted; auto.
    intros H. apply H1. eapply Permutation_in; [|exact H].
    apply Permutation_map. symmetry. apply sort_perm.
  Qed.

  Lemma ssorted_NoDup l : ssorted l -> NoDup (map fst l).
  Proof.
    unfold ssorted. induction (map fst l); intros S; constructor; inversion S; subst; auto.
    intros H. rewrite Forall_forall in H2. apply (klt_irrefl _ (H2 _ H)).
  Qed.

  Lemma sorted_unique l1 l2 : ssorted l1 -> ssorted l2 -> Permutation l1 l2 -> l1 = l2.
  Proof.
    revert l2. induction l1 as [|[k x] r IH]; intros l2 S1 S2 P.
    - apply Permutation_nil in P. auto.
    - destruct l2 as [|[k' y] r']; [symmetry in P; apply Permutation_nil in P; discriminate|].
      inversion S1 as [|? ? S1' F1]; subst. inversion S2 as [|? ? S2' F2]; subst.
      rewrite Forall_forall in F1, F2.
      assert (E : (k, x) = (k', y)).
      { assert (I1 : In (k, x) ((k', y) :: r')) by (eapply Permutation_in; [exact P|left; auto]).
        assert (I2 : In (k', y) ((k, x) :: r)) by (eapply Permutation_in; [symmetry; exact P|left; auto]).
        destruct I1 as [I1|I1]; [auto|]. destruct I2 as [I2|I2]; [auto|].
        apply (in_map fst) in I1. apply (in_map fst) in I2.
        destruct (klt_irrefl k). eapply klt_trans; [apply F1, I2|apply F2, I1]. }
      injection E as -> ->. f_equal. apply IH; auto. eapply Permutation_cons_inv. exact P.
  Qed.

  Lemma sort_unique l1 l2 : ssorted l2 -> Permutation l1 l2 -> sort_by l1 = l2.
  Proof.
    intros S P. apply sorted_unique; auto.
    - apply sort_sorted. eapply Permutation_NoDup; [|apply ssorted_NoDup, S].
      apply Permutation_map. symmetry. exact P.
    - rewrite <- sort_perm. exact P.
  Qed.
End Sort.

Lemma insert_map {A B} (f : nat * nat -> A -> B) k x l :
  map (fun kx => (fst kx, f (fst kx) (snd kx))) (insert_by k x l)
  = insert_by k (f k x) (map (fun kx => (fst kx, f (fst kx) (snd kx))) l).
Proof.
  induction l as [|[k' y] r IH]; cbn [insert_by map fst snd]; [auto|].
  destruct (key_le k k'); cbn; [auto|]. rewrite IH. reflexivity.
Qed.
Lemma sort_map {A B} (f : nat * nat -> A -> B) l :
  map (fun kx => (fst kx, f (fst kx) (snd kx))) (sort_by l)
  = sort_by (map (fun kx => (fst kx, f (fst kx) (snd kx))) l).
Proof.
  induction l as [|[k x] r IH]; cbn [sort_by fold_right map fst snd]; [auto|].
  rewrite insert_map. f_equal. exact IH.
Qed.

(** ---- opening a directory ---- *)
Definition chunk := ((nat * nat) * (list byte * list entry))%type.

Definition dir_ok (d : fs) (cs : list chunk) : Prop :=
  NoDup (dkeys d) /\ NoDup (map fst cs) /\
  (forall n, In n (dkeys d) -> is_chunk_file n = true -> exists k, In k (map fst cs) /\ n = cfile k) /\
  (forall k bs m, In (k, (bs, m)) cs ->
     bs <> [] /\ dget (cfile k) d = Some (FData bs) /\ dget (mfile k) d = Some (FMeta m)).

Lemma find_chunk_indices_ok d cs listing : dir_ok d cs -> Permutation listing (dkeys d) ->
  find_chunk_indices listing = Ok (map chunk_idx (map fst (sort_by cs))).
Proof.
  intros (N1 & N2 & A & B) P.
  assert (Q : Permutation (map cfile (map fst cs)) (filter is_chunk_file listing)).
  { apply NoDup_Permutation.
    - apply FinFun.Injective_map_NoDup; [intros ? ?; apply cfile_inj|exact N2].
    - apply NoDup_filter. eapply Permutation_NoDup; [symmetry; exact P|exact N1].
    - intros n. rewrite filter_In, in_map_iff. split.
      + intros (k & <- & I). split; [|apply is_chunk_file_cfile].
        apply in_map_iff in I as ((k' & bs & m) & E & I). cbn in E. subst k'.
        destruct (B _ _ _ I) as (_ & G & _).
        eapply Permutation_in; [symmetry; exact P|]. apply dget_In_keys. eauto.
      + intros (I & C). destruct (A n) as (k & I' & ->); eauto.
        eapply Permutation_in; [exact P|exact I]. }
  symmetry in Q. apply Permutation_map_inv in Q as (ks & E & Pk).
  unfold find_chunk_indices. rewrite E, map_map.
  rewrite (map_ext _ chunk_idx) by apply chunk_index_of_cfile.
  assert (M : mapM (fun s => let* k := extract_rank_and_chunk s in Ok (k, s)) (map chunk_idx ks)
              = Ok (map (fun k => (k, chunk_idx k)) ks)).
  { clear. induction ks as [|k r IH]; cbn [map mapM]; [reflexivity|].
    rewrite extract_idx. cbn [bind]. rewrite IH. reflexivity. }
  rewrite M. cbn [bind]. f_equal.
  rewrite (sort_unique (map (fun k => (k, chunk_idx k)) ks)
                       (map (fun kx => (fst kx, chunk_idx (fst kx))) (sort_by cs))).
  - rewrite !map_map. reflexivity.
  - unfold ssorted. rewrite map_map. apply sort_sorted. exact N2.
  - transitivity (map (fun k => (k, chunk_idx k)) (map fst (sort_by cs))).
    + apply Permutation_map. transitivity (map fst cs); [symmetry; exact Pk|].
      apply Permutation_map, sort_perm.
    + rewrite map_map. reflexivity.
Qed.

Lemma read_cfile d k bs : dget (cfile k) d = Some (FData bs) -> bs <> [] ->
  read d ("log_" ++ chunk_idx k ++ ".mmap")%string = Ok bs.
Proof.
  intros G N. unfold read. rewrite <- cfile_eq, data_name_cfile, G. destruct bs; [congruence|reflexivity].
Qed.

Lemma read_metafile_ok d k m : dget (mfile k) d = Some (FMeta m) -> read_metafile d (mfile k) = Ok m.
Proof. intros G. unfold read_metafile. rewrite mfile_ext. cbn [String.eqb]. rewrite G. reflexivity. Qed.

(** All (id, (chunk number, entry)) triples in visiting order. *)
Fixpoint items (j : nat) (ms : list (list entry)) : list (did * (nat * entry)) :=
  match ms with
  | [] => []
  | m :: r => map (fun e => (e_id e, (j, e))) m ++ items (S j) r
  end.

Definition fw_step {V} (acc : list (did * V)) (x : did * V) :=
  if mem (fst x) (map fst acc) then acc else acc ++ [x].

Lemma add_entry_fw j (acc : dict did (nat * entry)) e :
  add_entry j acc e = fw_step acc (e_id e, (j, e)).
Proof.
  unfold add_entry, fw_step. cbn [fst]. destruct (mem (e_id e) (map fst acc)) eqn:M.
  - apply mem_In in M. apply dmem_In in M. rewrite M. reflexivity.
  - apply mem_false in M. destruct (dmem (e_id e) acc) eqn:D.
    + apply dmem_In in D. contradiction.
    + apply dset_notin. exact M.
Qed.

Lemma fold_add_entry j m (acc : dict did (nat * entry)) :
  fold_left (add_entry j) m acc = fold_left fw_step (map (fun e => (e_id e, (j, e))) m) acc.
Proof.
  revert acc. induction m as [|e r IH]; intros acc; cbn [fold_left map]; [auto|].
  rewrite add_entry_fw. apply IH.
Qed.

Lemma fetch_all d (cs : list chunk) : 
  (forall k bs m, In (k, (bs, m)) cs ->
     bs <> [] /\ dget (cfile k) d = Some (FData bs) /\ dget (mfile k) d = Some (FMeta m)) ->
  forall s, foldM (fetch_one d) (map chunk_idx (map fst cs)) s
  = Ok (DS (ds_mm s ++ map (fun c => fst (snd c)) cs)
           (fold_left fw_step (items (length (ds_mm s)) (map (fun c => snd (snd c)) cs)) (ds_map s))).
Proof.
  induction cs as [|(k & bs & m) cs IH]; intros B s; cbn [map foldM].
  - cbn. rewrite app_nil_r. destruct s; reflexivity.
  - destruct (B k bs m (or_introl eq_refl)) as (N & G1 & G2).
    unfold fetch_one at 1. cbn [fst snd].
    rewrite sapp_assoc, (read_cfile d k bs G1 N). cbn [bind].
    unfold get_mmap_metadata. rewrite sapp_assoc. fold (mfile k).
    rewrite (read_metafile_ok d k m G2). cbn [bind].
    rewrite IH by (intros; apply B; right; auto). cbn [ds_mm ds_map].
    rewrite <- app_assoc. cbn [app]. do 2 f_equal. cbn [items].
    rewrite fold_left_app, fold_add_entry, app_length. cbn [length]. rewrite Nat.add_1_r. reflexivity.
Qed.

Lemma open_ok d cs listing : dir_ok d cs -> Permutation listing (dkeys d) ->
  open_dataset d listing
  = Ok (DS (map (fun c => fst (snd c)) (sort_by cs))
           (first_wins (items 0 (map (fun c => snd (snd c)) (sort_by cs))))).
Proof.
  intros D P. unfold open_dataset. rewrite (find_chunk_indices_ok d cs listing D P). cbn [bind].
  rewrite fetch_all; [reflexivity|].
  destruct D as (_ & _ & _ & B). intros k bs m I. apply B.
  eapply Permutation_in; [symmetry; apply sort_perm|exact I].
Qed.

(** ---- first_wins ---- *)
Lemma first_wins_fold {V} (l : list (did * V)) : first_wins l = fold_left fw_step l [].
Proof. reflexivity. Qed.

Lemma fw_map {V W} (f : did * V -> W) (l acc : list (did * V)) :
  fold_left fw_step (map (fun x => (fst x, f x)) l) (map (fun x => (fst x, f x)) acc)
  = map (fun x => (fst x, f x)) (fold_left fw_step l acc).
Proof.
  revert acc. induction l as [|x r IH]; intros acc; cbn [map fold_left]; [auto|].
  rewrite <- IH. f_equal. unfold fw_step. rewrite map_map. cbn [fst].
  destruct (mem (fst x) (map fst acc)) eqn:M; [reflexivity|]. rewrite map_app. reflexivity.
Qed.
Lemma first_wins_map {V W} (f : did * V -> W) (l : list (did * V)) :
  first_wins (map (fun x => (fst x, f x)) l) = map (fun x => (fst x, f x)) (first_wins l).
Proof. apply (fw_map f l []). Qed.

Lemma fw_incl {V} (l acc : list (did * V)) : incl (fold_left fw_step l acc) (acc ++ l).
Proof.
  revert acc. induction l as [|x r IH]; intros acc; cbn [fold_left].
  - rewrite app_nil_r. apply incl_refl.
  - intros y Hy. apply IH in Hy. apply in_app_or in Hy. unfold fw_step in Hy.
    apply in_or_app. destruct (mem (fst x) (map fst acc)).
    + destruct Hy; [left|right; right]; auto.
    + destruct Hy as [Hy|Hy]; [|right; right; auto].
      apply in_app_or in Hy. destruct Hy as [|[<-|[]]]; [left|right; left]; auto.
Qed.
Lemma first_wins_incl {V} (l : list (did * V)) : incl (first_wins l) l.
Proof. apply (fw_incl l []). Qed.

Lemma first_wins_nodup {V} (l : list (did * V)) : NoDup (map fst l) -> first_wins l = l.
Proof.
  intros N. rewrite first_wins_fold.
  assert (G : forall acc, NoDup (map fst (acc ++ l)) -> fold_left fw_step l acc = acc ++ l).
  { clear N. induction l as [|x r IH]; intros acc N; cbn [fold_left]; [rewrite app_nil_r; auto|].
    assert (M : mem (fst x) (map fst acc) = false).
    { apply mem_false. rewrite map_app in N. cbn [map] in N. apply NoDup_remove_2 in N.
      intros H. apply N. apply in_or_app. left; auto. }
    unfold fw_step at 2. rewrite M. rewrite IH; rewrite <- app_assoc; auto. }
  apply (G []). exact N.
Qed.

(** ---- items of the dataset ---- *)
Definition read_rec (s : dataset) (x : did * (nat * entry)) : res (did * list byte * entry) :=
  match nth_error (ds_mm s) (fst (snd x)) with
  | None => Err IndexError
  | Some mm => Ok (fst x, mm, snd (snd x))
  end.

Lemma mapM_seq {A B} (f : nat -> res B) (g : A -> res B) (l : list A) off :
  (forall i x, nth_error l i = Some x -> f (off + i) = g x) ->
  mapM f (seq off (length l)) = mapM g l.
Proof.
  revert off. induction l as [|x r IH]; intros off H; cbn [length seq mapM]; [auto|].
  rewrite <- (H 0 x eq_refl), Nat.add_0_r. destruct (f off); cbn [bind]; [|auto].
  rewrite (IH (S off)); [auto|]. intros i y Hy. rewrite <- (H (S i) y Hy). f_equal. lia.
Qed.

Definition nested_item (s : dataset) (x : did * (nat * entry)) : res (did * nd array) :=
  let* (id, mm, e) := read_rec s x in
  let* flat := get_flatten_item mm (e_offset e) (e_block e) (e_dtype e) in
  let* (nested, stop) := unflatten_all flat (e_path e) (e_shape e) 0 [] in
  if Nat.eqb (e_block e) stop then Ok (id, Node nested) else Err AssertionError.
Definition flat_item (s : dataset) (x : did * (nat * entry)) : res (did * array) :=
  let* (id, mm, e) := read_rec s x in
  let* flat := get_flatten_item mm (e_offset e) (e_block e) (e_dtype e) in
  Ok (id, flat).

Lemma get_record_eq s i x : nth_error (ds_map s) i = Some x -> get_record s i = read_rec s x.
Proof.
  intros H. unfold get_record, read_rec. rewrite H. destruct x as (id & c & e). cbn [fst snd].
  destruct (nth_error (ds_mm s) c); reflexivity.
Qed.

Lemma all_nested_eq s : all_nested s = mapM (nested_item s) (ds_map s).
Proof.
  unfold all_nested, ds_len. apply mapM_seq. intros i x H. cbn [Nat.add].
  unfold get_nested, nested_item. rewrite (get_record_eq s i x H). reflexivity.
Qed.
Lemma all_flat_eq s : all_flat s = mapM (flat_item s) (ds_map s).
Proof.
  unfold all_flat, ds_len. apply mapM_seq. intros i x H. cbn [Nat.add].
  unfold get_flat, flat_item. rewrite (get_record_eq s i x H). reflexivity.
Qed.

(** ---- directories holding chunks of samples ---- *)
Definition samples := list (did * list array).
Definition good_samples (ms : list string) (dt : dtype) (l : samples) : Prop :=
  Forall (fun x => good_arrs dt (snd x) /\ length (snd x) = length ms) l.
Definition holds (ms : list string) (bm : list byte * list entry) (l : samples) : Prop :=
  exists z, fst bm = records (map snd l) ++ z /\
            snd bm = entries (grad_paths ms) 0 (map fst l) (map snd l).

Definition dir_holds (ms : list string) (d : fs) (cs : list ((nat * nat) * samples)) : Prop :=
  NoDup (dkeys d) /\ NoDup (map fst cs) /\
  (forall n, In n (dkeys d) -> is_chunk_file n = true -> exists k, In k (map fst cs) /\ n = cfile k) /\
  (forall k l, In (k, l) cs -> exists bs m,
     bs <> [] /\ dget (cfile k) d = Some (FData bs) /\ dget (mfile k) d = Some (FMeta m) /\
     holds ms (bs, m) l).

Lemma dir_holds_ok ms d cs : dir_holds ms d cs ->
  exists cs', dir_ok d cs' /\ Forall2 (fun c x => fst c = fst x /\ holds ms (snd c) (snd x)) cs' cs.
Proof.
  intros (N1 & N2 & A & B).
  assert (E : exists cs', Forall2 (fun c x => fst c = fst x /\ holds ms (snd c) (snd x)) cs' cs /\
     (forall k bs m, In (k, (bs, m)) cs' ->
     bs <> [] /\ dget (cfile k) d = Some (FData bs) /\ dget (mfile k) d = Some (FMeta m))).
  { clear N2 A. induction cs as [|(k & l) cs IH].
    - exists []. split; [constructor|]. intros ? ? ? [].
    - destruct IH as (cs' & F & C). { intros; apply B; right; auto. }
      destruct (B k l (or_introl eq_refl)) as (bs & m & H1 & H2 & H3 & H4).
      exists ((k, (bs, m)) :: cs'). split; [constructor; auto|].
      intros k' bs' m' [I|I]; [injection I as <- <- <-; auto|eauto]. }
  destruct E as (cs' & F & C). exists cs'. split; [|exact F].
  assert (K : map fst cs' = map fst cs).
  { clear -F. induction F as [|? ? ? ? [E _]]; cbn; congruence. }
  repeat split; auto; try (rewrite K; auto); try (eapply C; eauto).
Qed.

Lemma sort_Forall2 {A B} (R : A -> B -> Prop) (l1 : list ((nat * nat) * A)) (l2 : list ((nat * nat) * B)) :
  Forall2 (fun c x => fst c = fst x /\ R (snd c) (snd x)) l1 l2 ->
  Forall2 (fun c x => fst c = fst x /\ R (snd c) (snd x)) (sort_by l1) (sort_by l2).
Proof.
  induction 1 as [|[k x] [k' y] r1 r2 [E H] F IH]; cbn [sort_by fold_right fst snd]; [constructor|].
  cbn [fst snd] in E, H. subst k'. fold (sort_by r1). fold (sort_by r2).
  induction IH as [|[k1 x1] [k2 y2] s1 s2 [E' H'] F' IH']; cbn [insert_by].
  - constructor; auto.
  - cbn [fst snd] in E', H'. subst k2. destruct (key_le k k1).
    + constructor; auto.
    + constructor; auto.
Qed.

(** Reading every (first) record of every chunk. *)
Lemma items_read ms dt s : ms <> [] -> NoDup ms ->
  forall (bms : list (list byte * list entry)) (ls : list samples) j pre,
  Forall2 (holds ms) bms ls -> Forall (good_samples ms dt) ls ->
  ds_mm s = pre ++ map fst bms -> j = length pre ->
  Forall2 (fun x y => fst x = fst y /\ nested_item s x = Ok (fst y, nested_of ms (snd y)) /\
                      flat_item s x = Ok (fst y, flat_of dt (snd y)))
          (items j (map snd bms)) (concat ls).
Proof.
  intros NE N. induction bms as [|[bs m] bms IH]; intros ls j pre F G E J.
  - inversion F; subst. constructor.
  - inversion F as [|? l ? ls' H F']; subst. inversion G as [|? ? Gl G']; subst.
    cbn [map items concat]. apply Forall2_app.
    + destruct H as (z & Hb & Hm). cbn [fst snd] in Hb, Hm.
      assert (K : nth_error (ds_mm s) (length pre) = Some bs).
      { rewrite E, nth_error_app2, Nat.sub_diag by lia. reflexivity. }
      cbn [snd]. rewrite Hm.
      assert (L : length (map fst l) = length (map snd l)) by (rewrite !map_length; auto).
      assert (G1 : Forall (good_arrs dt) (map snd l)).
      { apply Forall_map. eapply Forall_impl; [|exact Gl]. cbn beta. tauto. }
      assert (G2 : Forall (fun a => length a = length ms) (map snd l)).
      { apply Forall_map. eapply Forall_impl; [|exact Gl]. cbn beta. tauto. }
      pose proof (fun k => entries_read dt ms NE (map snd l) (map fst l) 0 [] z k L G1 G2 eq_refl) as R.
      cbn [app] in R. rewrite <- Hb in R.
      assert (Len : length (entries (grad_paths ms) 0 (map fst l) (map snd l)) = length l).
      { rewrite <- (map_length e_id), (entries_ids (grad_paths ms) 0 _ _ L). apply map_length. }
      remember (entries (grad_paths ms) 0 (map fst l) (map snd l)) as es eqn:Ees. clear Ees Hm.
      assert (Goal1 : forall k e y, nth_error es k = Some e -> nth_error l k = Some y ->
          e_id e = fst y /\ nested_item s (e_id e, (length pre, e)) = Ok (fst y, nested_of ms (snd y)) /\
          flat_item s (e_id e, (length pre, e)) = Ok (fst y, flat_of dt (snd y))).
      { intros k e y He Hy.
        assert (Kl : k < length (map fst l)).
        { rewrite map_length. apply nth_error_Some. congruence. }
        destruct (R k Kl) as (e' & E1 & E2 & E3 & E4 & E5 & E6).
        rewrite He in E1. injection E1 as <-.
        assert (Y1 : nth k (map fst l) (DInt 0) = fst y).
        { apply nth_error_nth. rewrite nth_error_map, Hy. reflexivity. }
        assert (Y2 : nth k (map snd l) [] = snd y).
        { apply nth_error_nth. rewrite nth_error_map, Hy. reflexivity. }
        rewrite Y1 in E2. rewrite Y2 in E4, E5, E6. split; [exact E2|].
        assert (Gy : good_arrs dt (snd y) /\ length (snd y) = length ms).
        { unfold good_samples in Gl. rewrite Forall_forall in Gl. apply Gl. eapply nth_error_In; eauto. }
        unfold nested_item, flat_item, read_rec. cbn [fst snd]. rewrite K. cbn [bind].
        rewrite E6. cbn [bind]. rewrite E3, E4.
        rewrite (unflatten_entry dt ms (snd y) (proj2 Gy) N (proj1 Gy)). cbn [bind].
        rewrite E5, Nat.eqb_refl, E2. split; reflexivity. }
      clear -Len Goal1. revert l Len Goal1. induction es as [|e es IH]; intros [|y l] Len Goal1; try discriminate.
      * constructor.
      * cbn [map]. constructor; [cbn [fst]; apply (Goal1 0 e y eq_refl eq_refl)|].
        apply IH; [cbn in Len; lia|]. intros k. apply (Goal1 (S k)).
    + apply (IH ls' (S (length pre)) (pre ++ [bs])); auto.
      * rewrite E. cbn [map fst]. rewrite <- app_assoc. reflexivity.
      * rewrite app_length. cbn. lia.
Qed.

Lemma fw_Forall2 {V W} (R : did * V -> did * W -> Prop) (l1 acc1 : list (did * V)) (l2 acc2 : list (did * W)) :
  (forall x y, R x y -> fst x = fst y) ->
  Forall2 R l1 l2 -> Forall2 R acc1 acc2 ->
  Forall2 R (fold_left fw_step l1 acc1) (fold_left fw_step l2 acc2).
Proof.
  intros K F. revert acc1 acc2. induction F as [|x y r1 r2 H F IH]; intros acc1 acc2 A; cbn [fold_left]; [auto|].
  apply IH. unfold fw_step. 
  assert (E : map fst acc1 = map fst acc2).
  { clear -A K. induction A as [|? ? ? ? H]; cbn; [auto|]. rewrite (K _ _ H). congruence. }
  rewrite E, (K _ _ H). destruct (mem (fst y) (map fst acc2)); [auto|].
  apply Forall2_app; auto.
Qed.

Lemma Forall2_mapM {A B C} (f : A -> res C) (g : B -> C) (R : A -> B -> Prop) l1 l2 :
  (forall x y, R x y -> f x = Ok (g y)) -> Forall2 R l1 l2 -> mapM f l1 = Ok (map g l2).
Proof.
  intros H. induction 1 as [|x y r1 r2 HR F IH]; cbn [mapM map]; [auto|].
  rewrite (H _ _ HR). cbn [bind]. rewrite IH. reflexivity.
Qed.

(** The main loading theorem. *)
Lemma load_ok ms dt d cs listing :
  ms <> [] -> NoDup ms -> dir_holds ms d cs -> Forall (good_samples ms dt) (map snd cs) ->
  Permutation listing (dkeys d) ->
  exists s, open_dataset d listing = Ok s /\
    let kept := first_wins (concat (map snd (sort_by cs))) in
    all_nested s = Ok (map (fun x => (fst x, nested_of ms (snd x))) kept) /\
    all_flat s = Ok (map (fun x => (fst x, flat_of dt (snd x))) kept) /\
    ds_ids s = map fst kept.
Proof.
  intros NE N D G P. destruct (dir_holds_ok ms d cs D) as (cs' & D' & F).
  rewrite (open_ok d cs' listing D' P). eexists. split; [reflexivity|].
  cbn zeta. rewrite all_nested_eq, all_flat_eq. unfold ds_ids. cbn [ds_map].
  set (s := DS _ _).
  apply sort_Forall2 in F.
  assert (G' : Forall (good_samples ms dt) (map snd (sort_by cs))).
  { eapply Permutation_Forall; [|exact G]. apply Permutation_map, sort_perm. }
  assert (F2 : Forall2 (holds ms) (map snd (sort_by cs')) (map snd (sort_by cs))).
  { clear -F. induction F as [|? ? ? ? [_ H]]; cbn; constructor; auto. }
  pose proof (items_read ms dt s NE N (map snd (sort_by cs')) (map snd (sort_by cs)) 0 [] F2 G') as R.
  cbn [app length] in R. rewrite map_map in R. specialize (R eq_refl eq_refl).
  set (RR := fun (x : did * (nat * entry)) (y : did * list array) => fst x = fst y /\ nested_item s x = Ok (fst y, nested_of ms (snd y)) /\
                      flat_item s x = Ok (fst y, flat_of dt (snd y))) in *.
  assert (K : forall x y, RR x y -> fst x = fst y) by (intros x y (H & _); exact H).
  rewrite map_map in R.
  pose proof (fw_Forall2 RR _ [] _ [] K R (Forall2_nil _)) as FW.
  fold (first_wins (concat (map snd (sort_by cs)))) in FW.
  split; [|split].
  - eapply (Forall2_mapM _ (fun x => (fst x, nested_of ms (snd x)))); [|exact FW].
    intros x y (_ & H & _); exact H.
  - eapply (Forall2_mapM _ (fun x => (fst x, flat_of dt (snd x)))); [|exact FW].
    intros x y (_ & _ & H); exact H.
  - unfold dkeys. change (fold_left fw_step ?l []) with (first_wins l) in FW.
    revert FW. generalize (first_wins (concat (map snd (sort_by cs)))).
    generalize (first_wins (items 0 (map (fun c => snd (snd c)) (sort_by cs')))).
    intros l1 l2 FW. induction FW as [|? ? ? ? H]; cbn; [auto|]. rewrite (K _ _ H). congruence.
Qed.
