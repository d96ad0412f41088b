(** Proofs about log_saver.py: buffering, flushing, complete runs. *)
From Coq Require Import Permutation Sorted.
From Verif Require Import Py PyStr ModelMmap ModelLoader ModelSaver SpecStore StoreProofs1 StoreProofs2.
Local Open Scope nat_scope.

(** ---- rows ---- *)
Lemma tensor_row_ok t n rest i : a_shape t = n :: rest -> i < n -> a_dtype t <> BF16 ->
  (let* r := tensor_row t i in to_numpy r) = Ok (row t i).
Proof.
  intros S L D. unfold tensor_row, row. rewrite S. cbn [tl].
  destruct (Nat.ltb_spec i n); [|lia]. cbn [bind]. unfold to_numpy. cbn [a_dtype].
  destruct (a_dtype t); congruence.
Qed.

Lemma row_wf t n rest i : a_shape t = n :: rest -> i < n -> arr_wf t -> arr_wf (row t i).
Proof.
  intros S L W. unfold arr_wf, row, nbytes in *. rewrite S in *. cbn [tl a_shape a_dtype a_bytes].
  rewrite firstn_length, skipn_length, W. cbn [prod fold_right]. fold (prod rest).
  set (k := itemsize (a_dtype t)). apply Nat.min_l. nia.
Qed.

(** ---- _add on a two-level log ---- *)
Definition node_vals (l : list (string * nd array)) : Prop :=
  Forall (fun kv => exists lm, snd kv = Node lm) l.
Definition two_level (b : nd array) : Prop := exists l, b = Node l /\ node_vals l.

Lemma Forall_dset {K V} `{Eqb K} (P : V -> Prop) k v (l : dict K V) :
  P v -> Forall (fun kv => P (snd kv)) l -> Forall (fun kv => P (snd kv)) (dset k v l).
Proof.
  intros Pv F. induction F as [|[k' v'] r H1 F IH]; cbn [dset].
  - constructor; auto.
  - destruct (eqb k k'); constructor; auto.
Qed.

Definition put_rows (i : nat) (lm : list (string * nd array)) (lb : list (string * nd array)) :=
  fold_left (fun acc kv => match snd kv with
                           | Leaf t => dset (fst kv) (Leaf (row t i)) acc
                           | Node _ => acc end) lm lb.

(** The inner [go] of [add_log], named. *)
Fixpoint add_items (items : list (string * nd array)) (buf : nd array) (n : nat) (idx : nat)
  : nd array * nat * option exn :=
  match items with
  | [] => (buf, n, None)
  | (k, v) :: r =>
      match buf with
      | Leaf _ => (buf, n, Some IndexError)
      | Node l =>
          match v with
          | Leaf t =>
              match (let* row := tensor_row t idx in to_numpy row) with
              | Err e => (buf, n, Some e)
              | Ok a => add_items r (Node (dset k (Leaf a) l)) (n + asize a) idx
              end
          | Node _ =>
              let sub := match dget k l with Some s => s | None => Node [] end in
              let '(sub', m, ex) := add_log v sub idx in
              let buf' := Node (dset k sub' l) in
              match ex with
              | Some e => (buf', n + m, Some e)
              | None => add_items r buf' (n + m) idx
              end
          end
      end
  end.
Lemma add_log_items items buf idx : add_log (Node items) buf idx = add_items items buf 0 idx.
Proof.
  cbn [add_log]. generalize 0. revert buf.
  induction items as [|[k v] r IH]; intros buf n; cbn [add_items]; [reflexivity|].
  destruct buf as [a|l]; [reflexivity|]. destruct v as [t|lv].
  - destruct (let* row := tensor_row t idx in to_numpy row) eqn:E; [apply IH|reflexivity].
  - destruct (add_log (Node lv) _ idx) as [[sub' m] [e|]]; [reflexivity|apply IH].
Qed.

Lemma add_module n lm i : i < n -> Forall (fun kv => log_leaf n (snd kv)) lm ->
  forall lb s, add_items lm (Node lb) s i
  = (Node (put_rows i lm lb), s + sumf (fun ky => leaf_elems (snd ky)) lm, None).
Proof.
  intros L F. induction F as [|[k v] r (t & rest & E & S & W & D) F IH]; intros lb s; cbn [add_items].
  - cbn. rewrite Nat.add_0_r. reflexivity.
  - cbn [snd] in E. subst v. rewrite (tensor_row_ok t n rest i S L D), IH.
    cbn [put_rows fold_left fst snd sumf fold_right leaf_elems]. do 2 f_equal.
    unfold asize, row. cbn [a_shape]. rewrite S. unfold sumf. lia.
Qed.

Lemma put_rows_get n i lm : Forall (fun kv => log_leaf n (snd kv)) lm -> NoDup (dkeys lm) ->
  forall lb k,
  dget k (put_rows i lm lb) =
  match dget k lm with Some (Leaf t) => Some (Leaf (row t i)) | _ => dget k lb end.
Proof.
  intros F N. induction F as [|[k' v] r (t & rest & E & S & W & D) F IH]; intros lb k; [reflexivity|].
  cbn [snd] in E. subst v. inversion N as [|? ? N1 N2]; subst.
  cbn [put_rows fold_left fst snd dget]. fold (put_rows i r (dset k' (Leaf (row t i)) lb)).
  rewrite IH by exact N2. rewrite dget_dset.
  destruct (eqb_spec k k') as [->|Hk]; [|reflexivity].
  assert (M : dget k' r = None) by (apply dget_None_keys; exact N1). rewrite M. reflexivity.
Qed.

Lemma two_level_sub l m : node_vals l -> exists lm, match dget m l with Some s => s | None => Node [] end = Node lm.
Proof.
  intros F. destruct (dget m l) as [x|] eqn:E; [|eauto].
  apply dget_In in E. unfold node_vals in F. rewrite Forall_forall in F. apply F in E. exact E.
Qed.

Lemma add_log_ok n i : i < n -> forall items, Forall (fun kv => log_module n (snd kv)) items ->
  NoDup (dkeys items) -> forall l s, node_vals l ->
  exists l', add_items items (Node l) s i
    = (Node l', s + sample_elems (Node items), None) /\ node_vals l' /\
    forall m k,
      at_path (Node l') [m; k] =
      match at_path (Node items) [m; k] with
      | Some (Leaf t) => Some (Leaf (row t i))
      | _ => at_path (Node l) [m; k]
      end.
Proof.
  intros L. induction items as [|[m0 x0] r IH]; intros F N l s NV.
  - exists l. cbn. rewrite Nat.add_0_r. auto.
  - inversion F as [|? ? (lm & E & Nm & Fm) F']; subst. cbn [snd] in E. subst x0.
    inversion N as [|? ? N1 N2]; subst. fold (dkeys r) in N1, N2.
    cbn [add_items]. destruct (two_level_sub l m0 NV) as (lb & Eb). rewrite Eb.
    rewrite add_log_items, (add_module n lm i L Fm lb 0).
    destruct (IH F' N2 (dset m0 (Node (put_rows i lm lb)) l)
                 (s + (0 + sumf (fun ky => leaf_elems (snd ky)) lm))) as (l' & E1 & E2 & E3).
    { apply (Forall_dset (fun v => exists lm, v = Node lm)); eauto. }
    exists l'. split; [|split; [exact E2|]].
    + rewrite E1. do 2 f_equal. cbn [sample_elems sumf fold_right snd]. unfold sumf. lia.
    + intros m k. rewrite E3. cbn [at_path]. cbn [dget].
      rewrite dget_dset. destruct (eqb_spec m m0) as [->|Hm].
      * assert (M : dget m0 r = None) by (apply dget_None_keys; exact N1). rewrite M.
        rewrite (put_rows_get n i lm Fm Nm).
        destruct (dget k lm) as [[t|]|] eqn:Ek; cbn [at_path]; try reflexivity.
        -- exfalso. apply dget_In in Ek. rewrite Forall_forall in Fm.
           destruct (Fm _ Ek) as (t & rest & C & _). cbn in C. discriminate.
        -- destruct (dget m0 l) as [y|] eqn:El.
           ++ rewrite Eb. reflexivity.
           ++ injection Eb as <-. reflexivity.
      * reflexivity.
Qed.

(** ---- the buffer holds samples ---- *)
Definition buf_rel (ms : list string) (dt : dtype) (buf : dict did (nd array)) (l : samples) : Prop :=
  Forall2 (fun x y => fst x = fst y /\ two_level (snd x) /\
                      resolves (snd x) (grad_paths ms) (snd y)) buf l
  /\ good_samples ms dt l /\ Forall (fun y => 0 < total nbytes (snd y)) l
  /\ Forall (fun y => json_id (fst y)) l.

Lemma buf_rel_dset ms dt buf l id b arrs :
  buf_rel ms dt buf l -> two_level b -> resolves b (grad_paths ms) arrs ->
  good_arrs dt arrs -> length arrs = length ms -> 0 < total nbytes arrs -> json_id id ->
  buf_rel ms dt (dset id b buf) (dset id arrs l).
Proof.
  intros (F & G & T & J) B R GA LA TA JA. repeat split.
  - clear G T J. induction F as [|[k x] [k' y] r1 r2 (E & H1 & H2) F IH]; cbn [dset].
    + constructor; auto.
    + cbn [fst] in E. subst k'. destruct (eqb_spec id k) as [->|Hk].
      * constructor; auto.
      * constructor; auto.
  - unfold good_samples in *. apply (Forall_dset (fun a => good_arrs dt a /\ length a = length ms)); auto.
  - apply (Forall_dset (fun a => 0 < total nbytes a)); auto.
  - clear -J JA. induction J as [|[k v] r H1 F IH]; cbn [dset]; [constructor; auto|].
    destruct (eqb_spec id k) as [->|]; constructor; auto.
Qed.

Lemma buf_rel_get ms dt buf l id : buf_rel ms dt buf l ->
  exists lb, match dget id buf with Some x => x | None => Node [] end = Node lb /\ node_vals lb.
Proof.
  intros (F & _). destruct (dget id buf) as [x|] eqn:E.
  - apply dget_In in E. clear - F E. induction F as [|[k x'] [k' y] r1 r2 (Ek & (lb & H1 & H1') & H2) F IH]; [destruct E|].
    destruct E as [E|E]; [|auto]. injection E as -> ->. cbn [snd] in H1. eauto.
  - exists []. split; [reflexivity|constructor].
Qed.

Lemma total_pos arrs a : In a arrs -> 0 < nbytes a -> 0 < total nbytes arrs.
Proof.
  induction arrs as [|b r IH]; [intros []|]. rewrite total_cons. intros [->|I] P; [lia|].
  specialize (IH I P). lia.
Qed.

Lemma itemsize_pos d : 0 < itemsize d.
Proof. destruct d; cbn; lia. Qed.

Lemma grad_tensor_spec dt n log m : log_wf n log -> has_grad dt n log m ->
  exists k rest, at_path log [m; "grad"%string] = Some (Leaf (grad_tensor log m)) /\
    a_dtype (grad_tensor log m) = dt /\ a_shape (grad_tensor log m) = n :: k :: rest /\
    0 < prod (k :: rest) /\ arr_wf (grad_tensor log m).
Proof.
  intros (l & -> & N & F) (t & k & rest & E & D & S & P).
  exists k, rest. unfold grad_tensor. rewrite E. repeat split; auto.
  cbn [at_path] in E. destruct (dget m l) as [x|] eqn:Em; [|discriminate].
  apply dget_In in Em. rewrite Forall_forall in F. destruct (F _ Em) as (lm & Ex & Nm & Fm).
  cbn [snd] in Ex. subst x. destruct (dget "grad"%string lm) as [y|] eqn:Eg; [|discriminate].
  injection E as ->. apply dget_In in Eg. rewrite Forall_forall in Fm.
  destruct (Fm _ Eg) as (t' & rest' & C & _ & W & _). cbn in C. injection C as ->. exact W.
Qed.

Lemma sample_rows_ok dt ms n log i lb : ms <> [] -> i < n -> log_wf n log ->
  Forall (has_grad dt n log) ms ->
  (forall m k, at_path (Node lb) [m; k] =
      match at_path log [m; k] with
      | Some (Leaf t) => Some (Leaf (row t i)) | _ => None end \/
      (forall t, at_path log [m; k] <> Some (Leaf t))) ->
  resolves (Node lb) (grad_paths ms) (sample_rows ms log i) /\
  good_arrs dt (sample_rows ms log i) /\ length (sample_rows ms log i) = length ms /\
  0 < total nbytes (sample_rows ms log i).
Proof.
  intros NE L W F H.
  assert (A : forall m, In m ms -> at_path (Node lb) [m; "grad"%string] = Some (Leaf (row (grad_tensor log m) i))
     /\ arr_wf (row (grad_tensor log m) i) /\ a_shape (row (grad_tensor log m) i) <> []
     /\ a_dtype (row (grad_tensor log m) i) = dt /\ 0 < nbytes (row (grad_tensor log m) i)).
  { intros m I. rewrite Forall_forall in F.
    destruct (grad_tensor_spec dt n log m W (F m I)) as (k & rest & E & D & S & P & Wt).
    destruct (H m "grad"%string) as [E2|E2]; [|destruct (E2 _ E)].
    rewrite E in E2. split; [exact E2|]. split; [eapply row_wf; eauto|].
    unfold row, nbytes. rewrite S. cbn [tl a_shape a_dtype]. repeat split; auto; [discriminate|].
    pose proof (itemsize_pos (a_dtype (grad_tensor log m))). nia. }
  assert (Len : length (sample_rows ms log i) = length ms) by apply map_length.
  split; [|split; [|split; [exact Len|]]].
  - unfold resolves, grad_paths, sample_rows. clear NE F Len. induction ms as [|m ms IH]; constructor.
    + destruct (A m (or_introl eq_refl)) as (A1 & A2 & A3 & _). auto.
    + apply IH. intros; apply A; right; auto.
  - unfold good_arrs, sample_rows. apply Forall_map, Forall_forall. intros m I.
    destruct (A m I) as (_ & ? & ? & ? & _). auto.
  - destruct ms as [|m ms]; [congruence|].
    apply (total_pos _ (row (grad_tensor log m) i)); [left; auto|]. apply A. left; auto.
Qed.

Lemma buffer_write_ok ms dt n log : ms <> [] -> log_wf n log -> Forall (has_grad dt n log) ms ->
  forall ids i s l, i + length ids <= n -> Forall json_id ids ->
  buf_rel ms dt (s_buffer s) l ->
  exists buf', buffer_write_from log ids i s
    = (Saver (s_rank s) (s_workers s) (s_threshold s) (s_path s) (s_count s) buf'
             (s_size s + length ids * sample_elems log), Ok tt) /\
    buf_rel ms dt buf' (fold_left upsert (samples_from ms log i ids) l).
Proof.
  intros NE W F. induction ids as [|id ids IH]; intros i s l Len J B.
  - cbn [buffer_write_from samples_from fold_left length Nat.mul]. exists (s_buffer s).
    rewrite Nat.add_0_r. destruct s; auto.
  - cbn [buffer_write_from samples_from fold_left]. cbn [length] in Len.
    inversion J as [|? ? J1 J2]; subst.
    destruct (buf_rel_get ms dt _ l id B) as (lb & Eb & NV). rewrite Eb.
    destruct W as (li & -> & N & Fm). rewrite add_log_items.
    destruct (add_log_ok n i ltac:(lia) li Fm N lb 0 NV) as (l' & E1 & E2 & E3).
    rewrite E1. cbn [Nat.add].
    assert (W : log_wf n (Node li)) by (exists li; auto).
    destruct (sample_rows_ok dt ms n (Node li) i l' NE ltac:(lia) W F) as (R & G & Ln & T).
    { intros m k. rewrite E3. destruct (at_path (Node li) [m; k]) as [[t|]|]; [left|right|right]; congruence. }
    set (s' := Saver _ _ _ _ _ _ _).
    destruct (IH (S i) s' (upsert l (id, sample_rows ms (Node li) i)) ltac:(lia) J2) as (buf' & E4 & B').
    { unfold s'. cbn [s_buffer]. unfold upsert. cbn [fst snd].
      apply buf_rel_dset; auto. exists l'; auto. }
    exists buf'. rewrite E4. split; [|exact B'].
    unfold s'. cbn [s_rank s_workers s_threshold s_path s_count s_size length]. do 2 f_equal. lia.
Qed.

(** ---- directory after writing a chunk ---- *)
Definition kdict := dict (nat * nat) samples.

Lemma dir_holds_write ms d (cs : kdict) k bs m l : dir_holds ms d cs -> bs <> [] ->
  holds ms (bs, m) l ->
  dir_holds ms (dset (mfile k) (FMeta m) (dset (cfile k) (FData bs) d)) (dset k l cs).
Proof.
  intros (N1 & N2 & A & B) NB H. repeat split.
  - apply NoDup_dset, NoDup_dset, N1.
  - apply NoDup_dset, N2.
  - intros n I C. rewrite !In_dkeys_dset in I. destruct I as [->|[->|I]].
    + rewrite is_chunk_file_mfile in C. discriminate.
    + exists k. split; [|auto]. apply In_dkeys_dset. auto.
    + destruct (A n I C) as (k' & I' & ->). exists k'. split; [|auto]. apply In_dkeys_dset. auto.
  - intros k' l' I. apply In_dget in I; [|apply NoDup_dset; exact N2].
    rewrite dget_dset in I. destruct (eqb_spec k' k) as [->|KK].
    + injection I as <-. exists bs, m. repeat split; auto.
      * rewrite dget_dset_neq by (intros E; symmetry in E; revert E; apply mfile_cfile).
        apply dget_dset_eq.
      * apply dget_dset_eq.
    + apply dget_In in I. destruct (B k' l' I) as (bs' & m' & H1 & H2 & H3 & H4). exists bs', m'.
      repeat split; auto.
      * rewrite dget_dset_neq by (intros E; symmetry in E; revert E; apply mfile_cfile).
        rewrite dget_dset_neq; [auto|]. intros E. apply cfile_inj in E. auto.
      * rewrite dget_dset_neq by (intros E; apply mfile_inj in E; auto).
        rewrite dget_dset_neq by apply mfile_cfile. auto.
Qed.

Lemma grad_paths_NoDup ms : NoDup ms -> NoDup (grad_paths ms).
Proof. apply FinFun.Injective_map_NoDup. intros a b E. congruence. Qed.
Lemma grad_paths_ne ms : ms <> [] -> grad_paths ms <> [].
Proof. destruct ms; [congruence|discriminate]. Qed.

Lemma json_serialisable l : Forall json_id l -> forallb serialisable l = true.
Proof. intros F. apply forallb_forall. rewrite Forall_forall in F. intros [] I; apply F in I; cbn in *; tauto. Qed.

Lemma buf_rel_ids ms dt buf l : buf_rel ms dt buf l -> map fst buf = map fst l.
Proof. intros (F & _). induction F as [|? ? ? ? (E & _)]; cbn; congruence. Qed.

Definition good_cs (ms : list string) (dt : dtype) (cs : kdict) : Prop :=
  Forall (fun kl => good_samples ms dt (snd kl)) cs.

(** Flushing a non-empty buffer. *)
Lemma flush_serialized_ok ms dt d s l cs : ms <> [] -> NoDup ms ->
  s_path s = grad_paths ms -> buf_rel ms dt (s_buffer s) l -> l <> [] ->
  dir_holds ms d cs ->
  exists d', flush_serialized d s = (d', buffer_clear (incr_count s), Ok tt) /\
    dir_holds ms d' (dset (s_rank s, s_count s) l cs).
Proof.
  intros NE N P B NL D. unfold flush_serialized.
  destruct (s_buffer s) as [|x0 r0] eqn:Eb.
  { destruct B as (F & _). inversion F; subst. congruence. }
  rewrite <- Eb in *. clear Eb x0 r0.
  pose proof B as (F & G & T & J).
  set (k := (s_rank s, s_count s)).
  change (chunk_file (s_rank s) (s_count s)) with (cfile k).
  assert (F2 : Forall2 (fun x arrs => resolves (snd x) (s_path s) arrs) (s_buffer s) (map snd l)).
  { rewrite P. clear -F. induction F as [|? ? ? ? (_ & _ & R)]; cbn; constructor; auto. }
  assert (TP : 0 < totals (map snd l)).
  { destruct l as [|y l]; [congruence|]. inversion T; subst. unfold totals. cbn [map sum_nat fold_right]. lia. }
  pose proof (totals_le (s_path s) _ _ ltac:(rewrite P; apply grad_paths_NoDup; auto) F2) as TL.
  rewrite (write_ok d (cfile k) (s_buffer s) (s_path s) (map snd l));
    [| rewrite P; apply grad_paths_ne; auto | rewrite P; apply grad_paths_NoDup; auto
     | exact F2 | lia | ].
  2:{ rewrite (buf_rel_ids _ _ _ _ B). apply json_serialisable. apply Forall_map. exact J. }
  rewrite meta_name_cfile, data_name_cfile. eexists. split; [reflexivity|].
  apply dir_holds_write; auto.
  - intros E. apply (f_equal (@length _)) in E. rewrite app_length in E.
    rewrite (records_length _ _ _ F2) in E. cbn in E. lia.
  - eexists. cbn [fst snd]. split; [reflexivity|]. rewrite P, (buf_rel_ids _ _ _ _ B). reflexivity.
Qed.

Lemma flush_serialized_empty d s : s_buffer s = [] -> flush_serialized d s = (d, s, Ok tt).
Proof. intros E. unfold flush_serialized. rewrite E. reflexivity. Qed.

(** ---- runs ---- *)
Definition number (rank c : nat) (ls : list samples) : list ((nat * nat) * samples) :=
  map (fun il => ((rank, fst il), snd il)) (combine (seq c (length ls)) ls).

Lemma nonempty_cons {A} (l : list A) ls : l <> [] -> nonempty (l :: ls) = l :: nonempty ls.
Proof. unfold nonempty. destruct l; [congruence|reflexivity]. Qed.

Lemma number_cons rank c l ls : number rank c (l :: ls) = ((rank, c), l) :: number rank (S c) ls.
Proof. reflexivity. Qed.

Lemma elems_pos_ids b : 0 < batch_elems b -> fst b <> [].
Proof. unfold batch_elems. destruct (fst b); cbn; [lia|congruence]. Qed.

Lemma upsert_nonempty {V} (l : list (did * V)) x acc : fold_left upsert (x :: l) acc <> [].
Proof.
  assert (G : forall l acc, acc <> [] -> fold_left (@upsert V) l acc <> []).
  { clear. induction l as [|y r IH]; intros acc H; cbn; [auto|]. apply IH.
    unfold upsert. destruct acc as [|[k v] acc]; [congruence|]. cbn [dset]. destruct (eqb (fst y) k); discriminate. }
  cbn [fold_left]. apply G. unfold upsert. destruct acc as [|[k v] acc]; cbn [dset]; [discriminate|].
  destruct (eqb (fst x) k); discriminate.
Qed.

Lemma fold_upsert_keep {V} (l acc : list (did * V)) : acc <> [] -> fold_left upsert l acc <> [].
Proof.
  revert acc. induction l as [|y r IH]; intros acc H; cbn; [auto|]. apply IH.
  unfold upsert. destruct acc as [|[k v] acc]; [congruence|]. cbn [dset]. destruct (eqb (fst y) k); discriminate.
Qed.

Lemma group_app ms cur b : group_samples ms (cur ++ [b])
  = fold_left upsert (batch_samples ms b) (group_samples ms cur).
Proof.
  unfold group_samples, last_wins. rewrite map_app, concat_app, fold_left_app. cbn [map concat].
  rewrite app_nil_r. reflexivity.
Qed.

(** A saver whose buffer holds the samples of the batches [cur]. *)
Definition sinv (ms : list string) (dt : dtype) (s : saver) (cur : list batch) : Prop :=
  s_path s = grad_paths ms /\ buf_rel ms dt (s_buffer s) (group_samples ms cur) /\
  (0 < s_size s -> group_samples ms cur <> []).

Lemma sinv_nil ms dt s : s_path s = grad_paths ms -> sinv ms dt (buffer_clear s) [].
Proof. intros P. repeat split; try constructor; auto. cbn. lia. Qed.

Definition crossing (s : saver) (b : batch) : bool :=
  (0 <? s_threshold s)%Z && (s_threshold s <? Z.of_nat (s_size s + batch_elems b))%Z.

Definition with_buf (s : saver) buf n : saver :=
  Saver (s_rank s) (s_workers s) (s_threshold s) (s_path s) (s_count s) buf n.

Lemma buffer_write_inv ms dt s cur b : ms <> [] -> batch_ok ms dt b -> sinv ms dt s cur ->
  exists buf', buffer_write s (fst b) (snd b) = (with_buf s buf' (s_size s + batch_elems b), Ok tt) /\
    sinv ms dt (with_buf s buf' (s_size s + batch_elems b)) (cur ++ [b]).
Proof.
  intros NE (n & Len & Wf & Hg & J) (P & B & SZ). destruct b as [ids log]. cbn [fst snd] in *.
  unfold buffer_write.
  destruct (buffer_write_ok ms dt n log NE Wf Hg ids 0 s _ Len J B) as (buf' & E & B').
  exists buf'. split; [exact E|].
  change (fold_left upsert (samples_from ms log 0 ids) (group_samples ms cur))
    with (fold_left upsert (batch_samples ms (ids, log)) (group_samples ms cur)) in B'.
  rewrite <- group_app in B'. split; [exact P|]. split; [exact B'|].
  unfold with_buf. cbn [s_size]. intros Hs. rewrite group_app.
  destruct (Nat.eq_dec (s_size s) 0).
  - assert (Hi : fst (ids, log) <> []). { apply elems_pos_ids. lia. }
    cbn [fst] in Hi. destruct ids as [|id ids]; [congruence|]. apply upsert_nonempty.
  - apply fold_upsert_keep. apply SZ. lia.
Qed.

Lemma group_good ms dt s cur : sinv ms dt s cur -> good_samples ms dt (group_samples ms cur).
Proof. intros (_ & (_ & G & _) & _). exact G. Qed.

(** One saved batch with the synchronous writer. *)
Lemma save_log_sync ms dt d s cs cur b : ms <> [] -> NoDup ms -> (s_workers s <= 1)%Z ->
  batch_ok ms dt b -> sinv ms dt s cur -> dir_holds ms d cs ->
  exists d' s', save_log d s (fst b) (snd b) = (d', s', Ok tt) /\
    s_rank s' = s_rank s /\ s_workers s' = s_workers s /\ s_threshold s' = s_threshold s /\
    if crossing s b
    then sinv ms dt s' [] /\ s_count s' = S (s_count s) /\ s_size s' = 0 /\
         good_samples ms dt (group_samples ms (cur ++ [b])) /\ group_samples ms (cur ++ [b]) <> [] /\
         dir_holds ms d' (dset (s_rank s, s_count s) (group_samples ms (cur ++ [b])) cs)
    else d' = d /\ sinv ms dt s' (cur ++ [b]) /\ s_count s' = s_count s /\
         s_size s' = s_size s + batch_elems b.
Proof.
  intros NE N W Hb I D. destruct (buffer_write_inv ms dt s cur b NE Hb I) as (buf' & E & I').
  unfold save_log. rewrite E. unfold flush, with_buf in *. cbn [s_threshold s_size s_workers].
  fold (crossing s b). destruct (crossing s b) eqn:C.
  - replace (1 <? s_workers s)%Z with false by (symmetry; apply Z.ltb_ge; lia).
    apply andb_true_iff in C as [T1 T2]. apply Z.ltb_lt in T1, T2.
    pose proof (group_good _ _ _ _ I') as G.
    destruct I' as (P & B & SZ). cbn [s_path s_buffer s_size] in P, B, SZ.
    set (s1 := Saver _ _ _ _ _ _ _) in *.
    assert (NN : group_samples ms (cur ++ [b]) <> []) by (apply SZ; lia).
    destruct (flush_serialized_ok ms dt d s1 (group_samples ms (cur ++ [b])) cs) as (d' & Ef & D'); auto.
    rewrite Ef. eexists _, _. split; [reflexivity|]. do 3 (split; [reflexivity|]).
    split; [apply (sinv_nil ms dt (incr_count s1)); exact P|]. do 2 (split; [reflexivity|]). auto.
  - eexists _, _. split; [reflexivity|]. do 3 (split; [reflexivity|]). auto.
Qed.

Lemma finalize_sync ms dt d s cs cur : ms <> [] -> NoDup ms ->
  sinv ms dt s cur -> dir_holds ms d cs ->
  exists d' s', saver_finalize d s = (d', s', Ok tt) /\
    dir_holds ms d' (match group_samples ms cur with
                     | [] => cs | g => dset (s_rank s, s_count s) g cs end).
Proof.
  intros NE N (P & B & SZ) D. unfold saver_finalize.
  destruct (group_samples ms cur) as [|x0 r0] eqn:Eg.
  - assert (Eb : s_buffer s = []). { destruct B as (F2 & _). inversion F2. reflexivity. }
    rewrite flush_serialized_empty by exact Eb. eauto.
  - destruct (flush_serialized_ok ms dt d s (x0 :: r0) cs) as (d' & E & D'); auto; [discriminate|].
    rewrite E. eauto.
Qed.

Definition puts (cs : kdict) (l : list ((nat * nat) * samples)) : kdict :=
  fold_left (fun c kl => dset (fst kl) (snd kl) c) l cs.

Lemma puts_good ms dt l : forall cs, good_cs ms dt cs -> Forall (good_samples ms dt) (map snd l) ->
  good_cs ms dt (puts cs l).
Proof.
  induction l as [|[k x] l IH]; intros cs G F; cbn [puts fold_left fst snd]; [auto|].
  inversion F; subst. apply IH; auto. unfold good_cs. apply (Forall_dset (good_samples ms dt)); auto.
Qed.

Lemma cut_from_ne thr cur sz bs : cut_from thr cur sz bs <> [].
Proof.
  revert cur sz. induction bs as [|b bs IH]; intros; cbn; [discriminate|].
  destruct ((0 <? thr)%Z && _); [discriminate|apply IH].
Qed.

(** A whole run with the synchronous writer, from any directory. *)
Lemma save_run_sync ms dt : ms <> [] -> NoDup ms ->
  forall bs d s cs cur,
  Forall (batch_ok ms dt) bs -> (s_workers s <= 1)%Z ->
  sinv ms dt s cur -> dir_holds ms d cs ->
  exists d' s', save_run d s bs = (d', s', Ok tt) /\
    let gs := nonempty (map (group_samples ms) (cut_from (s_threshold s) cur (s_size s) bs)) in
    dir_holds ms d' (puts cs (number (s_rank s) (s_count s) gs)) /\
    Forall (good_samples ms dt) gs.
Proof.
  intros NE N. induction bs as [|b bs IH]; intros d s cs cur F W I D.
  - unfold save_run. cbn [save_batches].
    destruct (finalize_sync ms dt d s cs cur NE N I D) as (d' & s' & E & D').
    exists d', s'. split; [exact E|]. cbn [cut_from map]. cbn zeta.
    pose proof (group_good _ _ _ _ I) as G.
    destruct (group_samples ms cur) as [|x0 r0] eqn:Eg.
    + split; [exact D'|constructor].
    + rewrite nonempty_cons by discriminate. split; [exact D'|]. constructor; [exact G|constructor].
  - inversion F as [|? ? Hb F']; subst.
    destruct (save_log_sync ms dt d s cs cur b NE N W Hb I D) as (d1 & s1 & E & R1 & R2 & R3 & R).
    cbn [cut_from]. fold (crossing s b).
    assert (EQ : save_run d s (b :: bs) = save_run d1 s1 bs).
    { unfold save_run. cbn [save_batches]. destruct b as [ids log]. cbn [fst snd] in E. rewrite E. reflexivity. }
    rewrite EQ. destruct (crossing s b).
    + destruct R as (I1 & C1 & Z1 & G1 & NN & D1).
      destruct (IH d1 s1 _ [] F' ltac:(lia) I1 D1) as (d2 & s2 & E2 & D2 & G2).
      exists d2, s2. split; [exact E2|]. cbn zeta in *. cbn [map].
      rewrite (nonempty_cons (group_samples ms (cur ++ [b]))) by exact NN.
      rewrite R1, R3, C1, Z1 in *. split; [exact D2|]. constructor; auto.
    + destruct R as (-> & I1 & C1 & Z1).
      destruct (IH d s1 cs _ F' ltac:(lia) I1 D) as (d2 & s2 & E2 & D2 & G2).
      exists d2, s2. split; [exact E2|]. cbn zeta in *. rewrite R1, R3, C1, Z1 in *. auto.
Qed.

(** ---- fresh directories ---- *)
Lemma endswith_spec s p : endswith s p = true -> exists a, s = (a ++ p)%string.
Proof.
  unfold endswith. rewrite prefix_spec. intros (t & E).
  exists (unchars (rev (chars t))). apply chars_inj. rewrite chars_app, chars_unchars.
  apply (f_equal chars) in E. rewrite chars_app, !chars_unchars in E.
  apply (f_equal (@rev ascii)) in E. rewrite rev_app_distr, !rev_involutive in E. exact E.
Qed.

Lemma is_chunk_file_spec n : is_chunk_file n = true -> exists mid, n = ("log_" ++ mid ++ ".mmap")%string.
Proof.
  unfold is_chunk_file. rewrite andb_true_iff. intros [E S].
  apply endswith_spec in E as (a & Ea). apply prefix_spec in S as (t & Et).
  rewrite Ea in Et. destruct a as [|c0 a]; [discriminate|]. destruct a as [|c1 a]; [discriminate|].
  destruct a as [|c2 a]; [discriminate|]. destruct a as [|c3 a]; [discriminate|].
  exists a. rewrite Ea. cbn in *. injection Et as -> -> -> -> _. reflexivity.
Qed.

Lemma fresh_dir_holds ms d : fresh_dir d -> dir_holds ms d [].
Proof.
  intros (N & H). repeat split; auto.
  - constructor.
  - intros n I C. destruct (H n I). apply is_chunk_file_spec. exact C.
  - intros k l [].
Qed.

Lemma number_keys rank c ls : map fst (number rank c ls) = map (fun i => (rank, i)) (seq c (length ls)).
Proof.
  unfold number. rewrite map_map. cbn [fst].
  revert c. induction ls as [|l ls IH]; intros c; cbn; [auto|]. f_equal. apply IH.
Qed.
Lemma number_sorted rank c ls : ssorted (number rank c ls).
Proof.
  unfold ssorted. rewrite number_keys. revert c. induction (length ls) as [|k IH]; intros c; cbn; [constructor|].
  constructor; [apply IH|]. apply Forall_map, Forall_forall. intros i I. apply in_seq in I.
  right. cbn. lia.
Qed.
Lemma sort_sorted_id {A} (l : list ((nat * nat) * A)) : ssorted l -> sort_by l = l.
Proof. intros S. apply sort_unique; auto. Qed.
Lemma number_snd rank c ls : map snd (number rank c ls) = ls.
Proof.
  unfold number. rewrite map_map. cbn [snd]. revert c.
  induction ls as [|l ls IH]; intros c; cbn; [auto|]. f_equal. apply IH.
Qed.
Lemma concat_nonempty {A} (ls : list (list A)) : concat (nonempty ls) = concat ls.
Proof.
  unfold nonempty. induction ls as [|[|x l] ls IH]; cbn; auto. rewrite IH. reflexivity.
Qed.

Lemma puts_app l : forall cs : kdict, NoDup (map fst (cs ++ l)) -> puts cs l = cs ++ l.
Proof.
  induction l as [|[k x] l IH]; intros cs N; cbn [puts fold_left fst snd]; [rewrite app_nil_r; auto|].
  rewrite dset_notin.
  - fold (puts (cs ++ [(k, x)]) l). rewrite IH; rewrite <- app_assoc; auto.
  - rewrite map_app in N. cbn [map fst] in N. apply NoDup_remove_2 in N.
    intros H. apply N. apply in_or_app. left; auto.
Qed.
Lemma puts_nil l : NoDup (map fst l) -> puts [] l = l.
Proof. intros N. apply (puts_app l []). exact N. Qed.
Lemma good_cs_snd ms dt cs : Forall (good_samples ms dt) (map snd cs) <-> good_cs ms dt cs.
Proof. unfold good_cs. rewrite Forall_map. reflexivity. Qed.

Theorem save_load_sync ms dt rank w thr d bs :
  ms <> [] -> NoDup ms -> fresh_dir d -> (w <= 1)%Z -> Forall (batch_ok ms dt) bs ->
  exists d' s', save_run d (saver_init rank w thr (grad_paths ms)) bs = (d', s', Ok tt) /\
  let groups := map (group_samples ms) (cut thr bs) in
  dir_holds ms d' (number rank 0 (nonempty groups)) /\
  forall listing, Permutation listing (dkeys d') ->
  exists ds, open_dataset d' listing = Ok ds /\
    let kept := first_wins (concat groups) in
    all_nested ds = Ok (map (fun x => (fst x, nested_of ms (snd x))) kept) /\
    all_flat ds = Ok (map (fun x => (fst x, flat_of dt (snd x))) kept) /\
    ds_ids ds = map fst kept.
Proof.
  intros NE N Fd W F.
  destruct (save_run_sync ms dt NE N bs d (saver_init rank w thr (grad_paths ms)) [] [])
    as (d' & s' & E & D & G); auto.
  - apply (sinv_nil ms dt (saver_init rank w thr (grad_paths ms))). reflexivity.
  - apply fresh_dir_holds. exact Fd.
  - cbn [saver_init s_rank s_count s_threshold s_size] in D, G.
    rewrite puts_nil in D by apply ssorted_NoDup, number_sorted.
    exists d', s'. split; [exact E|]. cbn zeta. split; [exact D|].
    intros listing P.
    destruct (load_ok ms dt d' _ listing NE N D) as (ds & O & R); auto.
    { rewrite number_snd. exact G. }
    exists ds. split; [exact O|].
    rewrite sort_sorted_id in R by apply number_sorted. rewrite number_snd, concat_nonempty in R. exact R.
Qed.
