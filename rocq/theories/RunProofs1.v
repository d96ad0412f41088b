(** What log loaders deliver, for the four combinations of dataset and collate function. *)
From Coq Require Import ZArith Lia.
From Verif Require Import Py PyStr ModelMmap ModelLoader ModelRun SpecStore SpecRun StoreProofs7.
Local Open Scope nat_scope.

Lemma ok_prefix_ok {A B} (f : A -> res B) l bs : mapM f l = Ok bs -> ok_prefix f l = (bs, None).
Proof.
  revert bs. induction l as [|a r IH]; intros bs E; cbn in *; [injection E as <-; reflexivity|].
  destruct (f a) as [b|e]; cbn in E; [|discriminate]. destruct (mapM f r) as [l|e]; cbn in E; [|discriminate].
  injection E as <-. rewrite (IH _ eq_refl). reflexivity.
Qed.
Lemma ok_prefix_err {A B} (f : A -> res B) l bs a r e : mapM f l = Ok bs -> f a = Err e -> ok_prefix f (l ++ a :: r) = (bs, Some e).
Proof.
  revert bs. induction l as [|x l IH]; intros bs E Fa; cbn in *.
  - injection E as <-. rewrite Fa. reflexivity.
  - destruct (f x) as [b|e']; cbn in E; [|discriminate]. destruct (mapM f l) as [l'|e']; cbn in E; [|discriminate].
    injection E as <-. rewrite (IH _ eq_refl Fa). reflexivity.
Qed.

Lemma mapM_firstn {A B} (f : A -> res B) k l bs : mapM f l = Ok bs -> mapM f (firstn k l) = Ok (firstn k bs).
Proof.
  revert k bs. induction l as [|a r IH]; intros k bs E; cbn in *.
  - injection E as <-. rewrite !firstn_nil. reflexivity.
  - destruct (f a) as [b|e] eqn:Fa; cbn in E; [|discriminate]. destruct (mapM f r) as [l|e] eqn:Fr; cbn in E; [|discriminate].
    injection E as <-. destruct k; cbn; [reflexivity|]. rewrite Fa. cbn. rewrite (IH k _ eq_refl). reflexivity.
Qed.
Lemma mapM_skipn {A B} (f : A -> res B) k l bs : mapM f l = Ok bs -> mapM f (skipn k l) = Ok (skipn k bs).
Proof.
  revert k bs. induction l as [|a r IH]; intros k bs E.
  - cbn in E. injection E as <-. rewrite !skipn_nil. reflexivity.
  - destruct k; [exact E|]. cbn in E. destruct (f a) as [b|e] eqn:Fa; cbn in E; [|discriminate].
    destruct (mapM f r) as [l|e] eqn:Fr; cbn in E; [|discriminate]. injection E as <-. cbn. apply IH. reflexivity.
Qed.
Lemma mapM_length {A B} (f : A -> res B) l bs : mapM f l = Ok bs -> length bs = length l.
Proof.
  revert bs. induction l as [|a r IH]; intros bs E; cbn in *; [injection E as <-; reflexivity|].
  destruct (f a); cbn in E; [|discriminate]. destruct (mapM f r); cbn in E; [|discriminate]. injection E as <-. cbn. f_equal. apply IH. reflexivity.
Qed.
(** reading batch by batch equals reading everything first *)
Lemma mapM_chunks {A B C} (f : A -> res B) (g : list B -> res C) k : forall n l items, mapM f l = Ok items ->
  mapM (fun idx => let* x := mapM f idx in g x) (chunks_fuel n k l) = mapM g (chunks_fuel n k items).
Proof.
  induction n as [|n IH]; intros l items E; [reflexivity|]. cbn [chunks_fuel].
  destruct l as [|a r]; [cbn in E; injection E as <-; reflexivity|].
  pose proof (mapM_length f _ _ E) as L. destruct items as [|b items]; [discriminate L|].
  cbn [mapM]. rewrite (mapM_firstn f k _ _ E). cbn [bind]. rewrite (IH _ _ (mapM_skipn f k _ _ E)). reflexivity.
Qed.

Definition items_of (s : lds) : res (list (did * nd array)) := mapM (ld_item s) (seq 0 (ds_len (ld_data s))).
Lemma iterate_all l items bs : items_of (dl_set l) = Ok items -> mapM (dl_collate l) (chunks (dl_bs l) items) = Ok bs -> iterate l = (bs, None).
Proof.
  unfold items_of, iterate, chunks. intros E M. apply ok_prefix_ok. rewrite (mapM_chunks _ _ _ _ _ _ E).
  pose proof (mapM_length _ _ _ E) as L. rewrite L in M. rewrite seq_length in *. exact M.
Qed.

Lemma items_nested ds items : all_nested ds = Ok items -> items_of (LDS ds false) = Ok items.
Proof. exact (fun E => E). Qed.
Lemma items_flat ds kept : all_flat ds = Ok kept -> items_of (LDS ds true) = Ok (map (fun x => (fst x, Leaf (snd x))) kept).
Proof.
  unfold items_of, all_flat. cbn [ld_data]. generalize (seq 0 (ds_len ds)). intros l. revert kept. induction l as [|i l IH]; intros kept E; cbn in *.
  - injection E as <-. reflexivity.
  - unfold ld_item at 1. cbn [ld_flat ld_data]. destruct (get_flat ds i) as [[d a]|e]; cbn in *; [|discriminate].
    destruct (mapM (get_flat ds) l) as [k|e]; cbn in *; [|discriminate]. injection E as <-. specialize (IH _ eq_refl). unfold ld_item at 1 in IH. cbn [ld_flat ld_data] in IH. unfold ld_item. cbn [ld_flat ld_data]. rewrite IH. reflexivity.
Qed.

Lemma iterate_dataloader ds k bs : dataloader ds k = Ok bs -> iterate (LDL (LDS ds false) k true) = (bs, None).
Proof.
  unfold dataloader. destruct (all_nested ds) as [items|e] eqn:E; cbn [bind]; [|discriminate]. intros M.
  eapply iterate_all; [exact (items_nested _ _ E)|exact M].
Qed.

Theorem nested_loader ds ms dt shs k kept : NoDup ms -> 0 < k ->
  all_nested ds = Ok (map (fun x => (fst x, nested_of ms (snd x))) kept) -> uniform ms dt shs kept ->
  iterate (LDL (LDS ds false) k true) = (map (batch_nested ms) (chunks k kept), None).
Proof. intros N K A U. apply iterate_dataloader. exact (dataloader_ok ds ms dt shs k kept N K A U). Qed.

(** ---- default collation of flat records ---- *)
Lemma default_leaves (l : list array) (a : array) : default_collate stack_arrays (Leaf a) (map Leaf l) = let* b := stack_arrays l in Ok (Leaf b).
Proof.
  cbn [default_collate]. replace (mapM _ (map Leaf l)) with (Ok l : res (list array)); [reflexivity|].
  induction l as [|x l IH]; [reflexivity|]. cbn. rewrite <- IH. reflexivity.
Qed.
Theorem flat_loader ds dt n k (kept : list (did * array)) (ids : list (did * array) -> list did) : 0 < k ->
  all_flat ds = Ok kept -> Forall (fun x => a_shape (snd x) = [n] /\ a_dtype (snd x) = dt) kept ->
  (forall c, In c (chunks k kept) -> torch_ids (map fst c) (ids c)) ->
  iterate (LDL (LDS ds true) k false) = (map (fun c => batch_flat (ids c) n dt c) (chunks k kept), None).
Proof.
  intros K A U T. unfold chunks in T. eapply iterate_all; [exact (items_flat _ _ A)|]. cbn [dl_bs]. unfold chunks. rewrite map_length, chunks_map.
  pose proof (chunks_fuel_nonempty (length kept) k kept K) as NE.
  assert (UC : Forall (Forall (fun x => a_shape (snd x) = [n] /\ a_dtype (snd x) = dt)) (chunks_fuel (length kept) k kept)).
  { apply Forall_forall. intros c I. apply Forall_forall. intros x Ix. rewrite Forall_forall in U. apply U. eapply chunks_In; eauto. }
  clear A U. induction (chunks_fuel (length kept) k kept) as [|c cs IH]; [reflexivity|]. cbn [mapM map].
  assert (E : dl_collate (LDL (LDS ds true) k false) (map (fun x => (fst x, Leaf (snd x))) c) = Ok (batch_flat (ids c) n dt c)).
  { unfold dl_collate. cbn [dl_nested]. pose proof (Forall_inv NE) as Nc. destruct c as [|x c]; [congruence|].
    pose proof (Forall_inv UC) as Uc. pose proof (default_ids_ok _ _ (T _ (or_introl eq_refl))) as Ti. remember (x :: c) as c0 eqn:E0.
    replace (map (fun x => (fst x, Leaf (snd x))) c0) with ((fst x, Leaf (snd x)) :: map (fun x => (fst x, Leaf (snd x))) c) at 1 by (subst; reflexivity).
    cbn iota. cbn [snd]. rewrite !map_map. cbn [fst snd].
    replace (map (fun x0 : did * array => Leaf (snd x0)) c0) with (map (@Leaf array) (map snd c0)) by apply map_map.
    match goal with |- context [default_ids ?l] => change (default_ids l) with (default_ids (map fst c0)) end. rewrite Ti. cbn [bind]. rewrite default_leaves, (stack_col dt [n]).
    - cbn [bind]. unfold batch_flat. rewrite map_length, map_map. reflexivity.
    - subst. discriminate.
    - apply Forall_map. exact Uc. }
  rewrite E. cbn [bind]. rewrite IH; [reflexivity|intros c' I'; apply T; right; exact I'|eapply Forall_inv_tail; eauto|eapply Forall_inv_tail; eauto].
Qed.

(** ---- default collation of nested records ---- *)
Lemma default_step {A B} (stack : list A -> res B) k v r all col v' r' :
  mapM (fun x => match x with Node d => dgetM k d | Leaf _ => Err TypeError end) all = Ok col ->
  default_collate stack v col = Ok v' -> default_collate stack (Node r) all = Ok (Node r') ->
  default_collate stack (Node ((k, v) :: r)) all = Ok (Node ((k, v') :: r')).
Proof.
  intros C V R. cbn [default_collate] in *. rewrite C. cbn [bind]. rewrite V. cbn [bind].
  match type of R with context [?g r] => destruct (g r) as [l|e] end; cbn [bind] in *; [injection R as ->; reflexivity|discriminate].
Qed.
Lemma dgetM_nested (ms : list string) i (m : string) (l : list array) : NoDup ms -> length l = length ms -> nth_error ms i = Some m ->
  dgetM m (map (fun ma : string * array => (fst ma, Node [("grad"%string, Leaf (snd ma))])) (combine ms l)) = Ok (Node [("grad"%string, Leaf (nth i l (Arr [] F32 [])))]).
Proof.
  revert i l. induction ms as [|x ms IH]; intros i l N L E; [destruct i; discriminate|]. destruct l as [|a l]; [discriminate|].
  destruct i as [|i]; cbn [nth_error] in E.
  - injection E as ->. unfold dgetM. cbn [combine map dget fst snd]. destruct (eqb_spec m m) as [_|C]; [reflexivity|congruence].
  - unfold dgetM in *. cbn [combine map dget fst snd nth]. inversion N as [|? ? NI N']; subst.
    destruct (eqb_spec m x) as [C|C]; [exfalso; apply NI; rewrite <- C; eapply nth_error_In; eauto|].
    apply IH; auto.
Qed.
Lemma mapM_map_ok {A B C} (f : B -> res C) (g : A -> B) (h : A -> C) l : (forall a, In a l -> f (g a) = Ok (h a)) -> mapM f (map g l) = Ok (map h l).
Proof.
  induction l as [|a l IH]; intros E; [reflexivity|]. cbn [map mapM]. rewrite (E a) by (left; reflexivity). cbn [bind].
  rewrite IH by (intros; apply E; right; assumption). reflexivity.
Qed.
Lemma default_uniform ms dt shs (c : list (did * list array)) x : NoDup ms -> c <> [] -> uniform ms dt shs c -> length x = length ms ->
  default_collate stack_arrays (nested_of ms x) (map (fun y => nested_of ms (snd y)) c) = Ok (nested_of ms (map (stacked c) (seq 0 (length ms)))).
Proof.
  intros N NE U Lx.
  assert (Ll : forall y, In y c -> length (snd y) = length ms).
  { intros y I. destruct U as (L & F). rewrite Forall_forall in F. destruct (F y I) as (E & _). rewrite <- L, <- E, map_length. reflexivity. }
  assert (COL : forall i m, nth_error ms i = Some m ->
    mapM (fun x => match x with Node d => dgetM m d | Leaf _ => Err TypeError end) (map (fun y => nested_of ms (snd y)) c)
    = Ok (map (fun y => Node [("grad"%string, Leaf (nth i (snd y) (Arr [] F32 [])))]) c)).
  { intros i m E. apply mapM_map_ok. intros y I. unfold nested_of. apply dgetM_nested; auto. }
  assert (CELL : forall i m a, nth_error ms i = Some m ->
    default_collate stack_arrays (Node [("grad"%string, Leaf a)]) (map (fun y => Node [("grad"%string, Leaf (nth i (snd y) (Arr [] F32 [])))]) c)
    = Ok (Node [("grad"%string, Leaf (stacked c i))])).
  { intros i m a E. eapply (default_step stack_arrays "grad"%string (Leaf a) []) with (col := map Leaf (map (fun y => nth i (snd y) (Arr [] F32 [])) c)); [| |reflexivity].
    - rewrite map_map. apply mapM_map_ok. intros y _. reflexivity.
    - rewrite default_leaves. assert (Ji : i < length ms) by (apply nth_error_Some; congruence).
      pose proof (uniform_nth ms dt shs c i U Ji) as Uc.
      rewrite (stack_col dt (nth i shs [])); [|destruct c; [congruence|discriminate]|exact Uc]. cbn [bind].
      unfold stacked. rewrite map_length. do 2 f_equal.
      destruct c as [|c1 cr]; [congruence|]. pose proof (Forall_inv Uc) as (S & D). cbn [map hd] in *. rewrite S, D. reflexivity. }
  unfold nested_of at 1 3. set (col := map (fun y => nested_of ms (snd y)) c) in *. clearbody col.
  assert (G : forall ms' x' off, (forall i m, nth_error ms' i = Some m -> nth_error ms (off + i) = Some m) -> length x' = length ms' ->
    default_collate stack_arrays (Node (map (fun ma : string * array => (fst ma, Node [("grad"%string, Leaf (snd ma))])) (combine ms' x'))) col
    = Ok (Node (map (fun ma : string * array => (fst ma, Node [("grad"%string, Leaf (snd ma))])) (combine ms' (map (stacked c) (seq off (length ms'))))))).
  { induction ms' as [|m ms' IH]; intros x' off E L; [reflexivity|]. destruct x' as [|a x']; [discriminate|].
    cbn [combine map length seq fst snd]. pose proof (E 0 m eq_refl) as E0. rewrite Nat.add_0_r in E0.
    eapply default_step; [exact (COL off m E0)|exact (CELL off m a E0)|].
    apply IH; [|cbn in L; lia]. intros i m' E'. rewrite <- (E (S i) m' E'). f_equal. lia. }
  apply (G ms x 0); auto.
Qed.

Theorem nested_default_loader ds ms dt shs k kept (ids : list (did * list array) -> list did) : NoDup ms -> 0 < k ->
  all_nested ds = Ok (map (fun x => (fst x, nested_of ms (snd x))) kept) -> uniform ms dt shs kept ->
  (forall c, In c (chunks k kept) -> torch_ids (map fst c) (ids c)) ->
  iterate (LDL (LDS ds false) k false) = (map (fun c => batch_as (ids c) ms c) (chunks k kept), None).
Proof.
  intros N K A U T. unfold chunks in T. eapply iterate_all; [exact (items_nested _ _ A)|]. cbn [dl_bs]. unfold chunks. rewrite map_length, chunks_map.
  pose proof (chunks_fuel_nonempty (length kept) k kept K) as NE.
  assert (UC : Forall (uniform ms dt shs) (chunks_fuel (length kept) k kept)).
  { apply Forall_forall. intros c I. destruct U as (L & F). split; [exact L|]. apply Forall_forall. intros x Ix.
    rewrite Forall_forall in F. apply F. eapply chunks_In; eauto. }
  clear A U. induction (chunks_fuel (length kept) k kept) as [|c cs IH]; [reflexivity|]. cbn [mapM map].
  assert (E : dl_collate (LDL (LDS ds false) k false) (map (fun x => (fst x, nested_of ms (snd x))) c) = Ok (batch_as (ids c) ms c)).
  { unfold dl_collate. cbn [dl_nested]. pose proof (Forall_inv NE) as Nc. pose proof (Forall_inv UC) as Uc.
    assert (exists x c', c = x :: c') as (x & c' & E0) by (destruct c; [congruence|eauto]).
    assert (Lx : length (snd x) = length ms).
    { destruct Uc as (L & F). rewrite Forall_forall in F. destruct (F x) as (E & _); [rewrite E0; left; reflexivity|]. rewrite <- L, <- E, map_length. reflexivity. }
    replace (map (fun x => (fst x, nested_of ms (snd x))) c) with ((fst x, nested_of ms (snd x)) :: map (fun x => (fst x, nested_of ms (snd x))) c') at 1 by (rewrite E0; reflexivity).
    cbn iota. cbn [snd]. rewrite !map_map. cbn [fst snd]. match goal with |- context [default_ids ?l] => change (default_ids l) with (default_ids (map fst c)) end. rewrite (default_ids_ok _ _ (T c (or_introl eq_refl))). cbn [bind]. rewrite (default_uniform ms dt shs c (snd x)); auto. }
  rewrite E. cbn [bind]. rewrite IH; [reflexivity|intros c' I'; apply T; right; exact I'|eapply Forall_inv_tail; eauto|eapply Forall_inv_tail; eauto].
Qed.

(** A flattened dataset collated as nested dictionaries. *)
Theorem flat_nested_loader ds k (kept : list (did * array)) : 0 < k -> all_flat ds = Ok kept -> kept <> [] ->
  iterate (LDL (LDS ds true) k true) = ([], Some AttributeError).
Proof.
  intros K A NE. pose proof (items_flat _ _ A) as IF. unfold items_of in IF. cbn [ld_data] in IF. unfold iterate, chunks. cbn [dl_bs dl_set ld_data].
  pose proof (mapM_length _ _ _ IF) as L. rewrite map_length in L. rewrite <- L. destruct kept as [|x kept]; [congruence|]. cbn [length chunks_fuel].
  destruct (seq 0 (ds_len ds)) as [|i r]; [discriminate L|].
  cbn [ok_prefix]. rewrite (mapM_firstn _ k _ _ IF). cbn [bind]. destruct k as [|k]; [lia|]. reflexivity.
Qed.

(** A record that cannot be read. *)
Lemma chunks_fuel_enough {A} k : 0 < k -> forall n m (l : list A), length l <= n -> length l <= m -> chunks_fuel n k l = chunks_fuel m k l.
Proof.
  intros K. induction n as [|n IH]; intros m l Hn Hm.
  - destruct l; [|cbn in Hn; lia]. destruct m; reflexivity.
  - destruct m as [|m]; [destruct l; [reflexivity|cbn in Hm; lia]|]. cbn [chunks_fuel]. destruct l as [|a l]; [reflexivity|].
    f_equal. apply IH; rewrite skipn_length; cbn [length] in *; lia.
Qed.
Lemma chunks_app {A} k (l r : list A) q : 0 < k -> length l = q * k -> chunks k (l ++ r) = chunks k l ++ chunks k r.
Proof.
  intros K. revert l. induction q as [|q IH]; intros l L.
  - destruct l; [reflexivity|discriminate L].
  - assert (P : k <= length l) by (rewrite L; cbn; lia).
    unfold chunks. destruct l as [|a l0] eqn:El; [cbn in P; lia|]. rewrite <- El in *.
    assert (E1 : chunks_fuel (length (l ++ r)) k (l ++ r) = firstn k l :: chunks k (skipn k l ++ r)).
    { replace (length (l ++ r)) with (S (length l0 + length r)) by (rewrite app_length, El; reflexivity). cbn [chunks_fuel].
      rewrite El at 1. cbn [app]. rewrite firstn_app, skipn_app. replace (k - length l) with 0 by lia. cbn [firstn skipn]. rewrite app_nil_r.
      f_equal. unfold chunks. apply chunks_fuel_enough; auto. rewrite app_length, skipn_length, El. cbn [length]. lia. }
    assert (E2 : chunks_fuel (length l) k l = firstn k l :: chunks k (skipn k l)).
    { replace (length l) with (S (length l0)) by (rewrite El; reflexivity). cbn [chunks_fuel]. rewrite El at 1. f_equal. unfold chunks.
      apply chunks_fuel_enough; auto. rewrite skipn_length, El. cbn [length]. lia. }
    rewrite E1, E2. cbn [app]. f_equal. fold (chunks k r). apply IH. rewrite skipn_length, L. cbn. lia.
Qed.
Lemma mapM_first_err {A B} (f : A -> res B) l1 a l2 bs e : mapM f l1 = Ok bs -> f a = Err e -> mapM f (l1 ++ a :: l2) = Err e.
Proof. intros E1 E2. rewrite mapM_app, E1. cbn [bind mapM]. rewrite E2. reflexivity. Qed.

Theorem broken_record ds ms dt shs k q j kept more e : NoDup ms -> 0 < k ->
  mapM (get_nested ds) (seq 0 (q * k)) = Ok (map (fun x => (fst x, nested_of ms (snd x))) kept) -> uniform ms dt shs kept ->
  j < k -> q * k + j < ds_len ds -> mapM (get_nested ds) (seq (q * k) j) = Ok more -> get_nested ds (q * k + j) = Err e ->
  iterate (LDL (LDS ds false) k true) = (map (batch_nested ms) (chunks k kept), Some e).
Proof.
  intros N K A U J B R Er. unfold iterate. cbn [dl_bs dl_set ld_data].
  assert (SP : seq 0 (ds_len ds) = seq 0 (q * k) ++ seq (q * k) (ds_len ds - q * k)).
  { rewrite <- seq_app. f_equal. lia. }
  rewrite SP, (chunks_app k _ _ q K) by apply seq_length. clear SP.
  assert (HD : exists rest, chunks k (seq (q * k) (ds_len ds - q * k)) = firstn k (seq (q * k) (ds_len ds - q * k)) :: rest).
  { unfold chunks. rewrite seq_length. destruct (ds_len ds - q * k) as [|n] eqn:En; [lia|]. cbn [chunks_fuel seq]. eauto. }
  destruct HD as (rest & ->). apply ok_prefix_err.
  - change (ld_item (LDS ds false)) with (get_nested ds). unfold chunks. rewrite (mapM_chunks _ _ _ _ _ _ A).
    pose proof (mapM_length _ _ _ A) as L. rewrite map_length in L. rewrite <- L.
    pose proof (dataloader_ok (DS [] []) ms dt shs k kept N K) as D. unfold dataloader in D.
    change (mapM (dl_collate (LDL (LDS ds false) k true))) with (mapM (collate_nested_dicts stack_arrays)).
    rewrite chunks_map.
    pose proof (chunks_fuel_nonempty (length kept) k kept K) as NE.
    assert (UC : Forall (uniform ms dt shs) (chunks_fuel (length kept) k kept)).
    { apply Forall_forall. intros c I. destruct U as (Lu & F). split; [exact Lu|]. apply Forall_forall. intros x Ix.
      rewrite Forall_forall in F. apply F. eapply chunks_In; eauto. }
    clear -N NE UC. induction (chunks_fuel (length kept) k kept) as [|c cs IH]; [reflexivity|].
    cbn [mapM map]. rewrite (collate_uniform ms dt shs); auto; [|apply (Forall_inv NE)|apply (Forall_inv UC)].
    cbn [bind]. rewrite IH; [reflexivity|eapply Forall_inv_tail; eauto|eapply Forall_inv_tail; eauto].
  - change (ld_item (LDS ds false)) with (get_nested ds).
    assert (F : firstn k (seq (q * k) (ds_len ds - q * k)) = seq (q * k) j ++ (q * k + j) :: firstn (k - j - 1) (seq (S (q * k + j)) (ds_len ds - q * k - j - 1))).
    { replace (ds_len ds - q * k) with (j + S (ds_len ds - q * k - j - 1)) at 1 by lia. rewrite seq_app, firstn_app, seq_length.
      rewrite firstn_all2 by (rewrite seq_length; lia). f_equal. destruct (k - j) as [|u] eqn:Eu; [lia|]. cbn [seq firstn]. do 2 f_equal. lia. }
    rewrite F, (mapM_first_err _ _ _ _ more e R Er). reflexivity.
Qed.
