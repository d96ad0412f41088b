(** Per-sample gradients as bytes and back. *)
From Coq Require Import ZArith Lia.
From Verif Require Import Py PyStr Field Tensor ModelGrad Monad ModelState ModelMmap ModelSaver ModelLoader ModelLogger ModelModules ModelLora ModelScheduler ModelInfluence ModelUtils ModelTrainer SpecGrad SpecState SpecStore SpecInfluence SpecRows SpecDisk.
Local Open Scope string_scope.
Local Open Scope list_scope.
Local Open Scope nat_scope.

Section LeafMap.
  Fixpoint leaf_map_comp {A B C} (f : A -> B) (g : B -> C) (x : nd A) : leaf_map g (leaf_map f x) = leaf_map (fun a => g (f a)) x.
  Proof.
    destruct x as [a|l]; [reflexivity|]. cbn [leaf_map]. f_equal. induction l as [|[k v] l IH]; [reflexivity|]. f_equal; [|exact IH]. f_equal. apply leaf_map_comp.
  Qed.
  Fixpoint leaf_map_id {A} (f : A -> A) (E : forall a, f a = a) (x : nd A) : leaf_map f x = x.
  Proof.
    destruct x as [a|l]; cbn [leaf_map]; [rewrite E; reflexivity|]. f_equal. induction l as [|[k v] l IH]; [reflexivity|]. f_equal; [|exact IH]. f_equal. apply leaf_map_id. exact E.
  Qed.
  Lemma leaf_map_two {A B X Y} (f : A -> B) (g : X -> dict string Y) (h : Y -> A) (l : list (string * X)) :
    leaf_map f (Node (map (fun p => (fst p, Node (map (fun q => (fst q, Leaf (h (snd q)))) (g (snd p))))) l)) = Node (map (fun p => (fst p, Node (map (fun q => (fst q, Leaf (f (h (snd q))))) (g (snd p))))) l).
  Proof.
    cbn [leaf_map]. f_equal. induction l as [|[k x] l IH]; [reflexivity|]. cbn [map fst snd]. f_equal; [|exact IH]. f_equal. f_equal.
    generalize (g x). induction d as [|[t y] d IHd]; [reflexivity|]. cbn [leaf_map] in IHd. injection IHd as IHd. cbn [map fst snd leaf_map]. f_equal. f_equal. exact IHd.
  Qed.
End LeafMap.

Section Bytes.
  Context {F : Type} `{OField F}.
  Notation tensor := (tensor F).
  Notation dten := (@dten F).
  Notation tlog := (@tlog F).
  Notation data := Tensor.data.
  Context (dt : dtype) (e : F -> list byte) (exact : F -> Prop) (enc : dten -> array) (dec : array -> dten) (CD : codec dt e exact enc dec).

  Lemma bytes_length (l : list F) : length (concat (map e l)) = itemsize dt * length l.
  Proof. induction l as [|x l IH]; cbn [map concat length]; [lia|]. rewrite app_length, IH, (cd_size _ _ _ _ _ CD). lia. Qed.
  Lemma bytes_firstn k (l : list F) : firstn (itemsize dt * k) (concat (map e l)) = concat (map e (firstn k l)).
  Proof.
    revert l. induction k as [|k IH]; intros l; [rewrite Nat.mul_0_r; reflexivity|]. destruct l as [|x l]; cbn [map concat firstn]; [apply firstn_nil|].
    rewrite firstn_app, (cd_size _ _ _ _ _ CD). rewrite firstn_all2 by (rewrite (cd_size _ _ _ _ _ CD); lia). replace (itemsize dt * S k - itemsize dt) with (itemsize dt * k) by lia. rewrite IH. reflexivity.
  Qed.
  Lemma bytes_skipn k (l : list F) : skipn (itemsize dt * k) (concat (map e l)) = concat (map e (skipn k l)).
  Proof.
    revert l. induction k as [|k IH]; intros l; [rewrite Nat.mul_0_r; reflexivity|]. destruct l as [|x l]; cbn [map concat skipn]; [apply skipn_nil|].
    rewrite skipn_app, (cd_size _ _ _ _ _ CD). rewrite (skipn_all2 (n := itemsize dt * S k) (e x)) by (rewrite (cd_size _ _ _ _ _ CD); lia). replace (itemsize dt * S k - itemsize dt) with (itemsize dt * k) by lia. rewrite IH. reflexivity.
  Qed.
  Lemma enc_wf d : twf (snd d) -> arr_wf (enc d).
  Proof. intros W. unfold arr_wf, nbytes. rewrite (cd_enc _ _ _ _ _ CD). cbn [a_bytes a_dtype a_shape]. rewrite bytes_length, W. reflexivity. Qed.

  Definition piece (t : tensor) (i : nat) : array := enc (Cpu, slice t i).
  Lemma piece_eq t i : piece t i = Arr (tl (shape t)) dt (concat (map e (firstn (prod (tl (shape t))) (skipn (i * prod (tl (shape t))) (data t))))).
  Proof. unfold piece. rewrite (cd_enc _ _ _ _ _ CD). reflexivity. Qed.
  Lemma row_piece d t off k i : i < k -> row (enc (d, rows off k t)) i = piece t (off + i).
  Proof.
    intros L. rewrite piece_eq. unfold row. rewrite (cd_enc _ _ _ _ _ CD). cbn [a_shape a_dtype a_bytes snd rows shape data tl]. set (w := prod (tl (shape t))). f_equal.
    replace (i * (itemsize dt * w)) with (itemsize dt * (i * w)) by lia. rewrite bytes_skipn, bytes_firstn. f_equal. f_equal.
    rewrite skipn_firstn_comm, skipn_skipn, firstn_firstn. f_equal; [|f_equal; lia]. assert (S i <= k) by lia. nia.
  Qed.
  Lemma pieces_rows (t : tensor) q : forall off, concat (map (fun i => firstn (prod (tl (shape t))) (skipn (i * prod (tl (shape t))) (data t))) (seq off q)) = data (rows off q t).
  Proof.
    unfold rows. cbn [data]. set (w := prod (tl (shape t))). induction q as [|q IH]; intros off; [reflexivity|]. cbn [seq map concat]. rewrite IH. replace (S off * w) with (w + off * w) by lia. rewrite <- skipn_skipn.
    generalize (skipn (off * w) (data t)) as l. replace (S q * w) with (w + q * w) by lia. clear. intros l.
    rewrite <- (firstn_skipn w l) at 3. rewrite firstn_app, firstn_firstn, firstn_length. rewrite (Nat.min_r (w + q * w) w) by lia. f_equal. destruct (Nat.le_gt_cases w (length l)) as [L|L].
    - rewrite Nat.min_l by exact L. f_equal. lia.
    - rewrite (skipn_all2 l) by lia. rewrite !firstn_nil. reflexivity.
  Qed.

  (** the records of consecutive samples *)
  Context (ms : list string) (gr : string -> tensor).
  Definition recs (i : nat) : list array := map (fun m => piece (gr m) i) ms.
  Fixpoint recs_from (off : nat) (ids : list did) : list (did * list array) := match ids with [] => [] | d :: r => (d, recs off) :: recs_from (S off) r end.
  Lemma recs_ids ids : forall off, map fst (recs_from off ids) = ids.
  Proof. induction ids as [|d r IH]; intros off; cbn [recs_from map fst]; [|rewrite IH]; reflexivity. Qed.
  Lemma recs_length ids off : length (recs_from off ids) = length ids.
  Proof. rewrite <- (recs_ids ids off) at 2. rewrite map_length. reflexivity. Qed.
  Lemma recs_app a : forall off b, recs_from off (a ++ b) = recs_from off a ++ recs_from (off + length a) b.
  Proof. induction a as [|d a IH]; intros off b; cbn [app recs_from length]; [rewrite Nat.add_0_r; reflexivity|]. rewrite IH. do 3 f_equal. lia. Qed.
  Lemma recs_firstn k : forall ids off, firstn k (recs_from off ids) = recs_from off (firstn k ids).
  Proof. induction k as [|k IH]; intros [|d r] off; cbn [firstn recs_from]; try reflexivity. rewrite IH. reflexivity. Qed.
  Lemma recs_skipn k : forall ids off, skipn k (recs_from off ids) = recs_from (off + k) (skipn k ids).
  Proof. induction k as [|k IH]; intros [|d r] off; cbn [skipn recs_from]; try reflexivity; [rewrite Nat.add_0_r; reflexivity|]. rewrite IH. f_equal. lia. Qed.
  Lemma recs_snd ids : forall off, map snd (recs_from off ids) = map recs (seq off (length ids)).
  Proof. induction ids as [|d r IH]; intros off; cbn [recs_from map snd length seq]; [|rewrite IH]; reflexivity. Qed.
  Lemma recs_uniform ids off : SpecStore.uniform ms dt (map (fun m => tl (shape (gr m))) ms) (recs_from off ids).
  Proof.
    split; [rewrite map_length; reflexivity|]. revert off. induction ids as [|d r IH]; intros off; cbn [recs_from]; constructor; [|apply IH]. cbn [snd]. unfold recs. split.
    - rewrite map_map. apply map_ext. intros m. rewrite piece_eq. reflexivity.
    - rewrite Forall_map. apply Forall_forall. intros m _. rewrite piece_eq. reflexivity.
  Qed.
  Lemma stacked_rows ids off j : ids <> [] -> j < length ms -> SpecStore.stacked (recs_from off ids) j = enc (Cpu, rows off (length ids) (gr (nth j ms ""))).
  Proof.
    intros N L. unfold SpecStore.stacked. set (t := gr (nth j ms "")).
    assert (Q : map (fun x : did * list array => nth j (snd x) (Arr [] F32 [])) (recs_from off ids) = map (piece t) (seq off (length ids))).
    { rewrite <- (map_map snd (fun l => nth j l (Arr [] F32 []))), recs_snd, map_map. apply map_ext. intros i. unfold recs. rewrite (nth_indep _ _ (piece (gr "") i)) by (rewrite map_length; exact L).
      rewrite (map_nth (fun m => piece (gr m) i)). reflexivity. }
    rewrite Q, recs_length. destruct ids as [|d r]; [congruence|]. cbn [length seq map hd]. rewrite (piece_eq t off). cbn [a_shape a_dtype]. rewrite (cd_enc _ _ _ _ _ CD). cbn [snd]. cbn [rows shape]. f_equal.
    rewrite <- (pieces_rows t (S (length r)) off). cbn [seq map concat a_bytes]. rewrite map_app, concat_app. f_equal.
    generalize (S off) (length r). intros o n. revert o. induction n as [|n IH]; intros o; [reflexivity|]. cbn [seq map concat]. rewrite map_app, concat_app, <- IH. f_equal. rewrite piece_eq. reflexivity.
  Qed.
End Bytes.
