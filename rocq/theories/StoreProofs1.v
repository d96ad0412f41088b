(** Proofs about mmap.py (write/read layout). *)
From Coq Require Import Permutation.
From Verif Require Import Py PyStr ModelMmap ModelLoader ModelSaver SpecStore.
Local Open Scope nat_scope.

Definition resolves (x : nd array) (order : list (list string)) (arrs : list array) : Prop :=
  Forall2 (fun k a => at_path x k = Some (Leaf a) /\ arr_wf a /\ a_shape a <> []) order arrs.

Lemma at_path_get x p a : at_path x p = Some (Leaf a) -> get_from_nested_dict x p = Leaf a.
Proof.
  revert x. induction p as [|k r IH]; intros x; cbn [at_path get_from_nested_dict].
  - congruence.
  - destruct x as [b|l]; [discriminate|]. destruct (dget k l); [apply IH|discriminate].
Qed.

Lemma at_path_extract x : forall base p a,
  at_path x p = Some (Leaf a) -> In (base ++ p, a) (extract_arrays base x).
Proof.
  induction x as [b|l IH] using nd_ind'; intros base p a H.
  - destruct p; cbn in H; [|discriminate]. injection H as ->. cbn. rewrite app_nil_r. auto.
  - destruct p as [|k r]; cbn [at_path] in H; [discriminate|].
    destruct (dget k l) as [y|] eqn:D; [|discriminate]. cbn [extract_arrays].
    apply dget_In in D. induction l as [|[k' y'] l IHl]; [destruct D|].
    inversion IH as [|? ? H1 H2]; subst.
    apply in_or_app. destruct D as [D|D].
    + injection D as -> ->. left. cbn [snd] in H1. specialize (H1 (base ++ [k]) r a H).
      rewrite <- app_assoc in H1. exact H1.
    + right. apply IHl; auto.
Qed.

Lemma sum_incl {X} (f : X -> nat) (l1 l2 : list X) :
  NoDup l1 -> incl l1 l2 -> sum_nat (map f l1) <= sum_nat (map f l2).
Proof.
  revert l2. induction l1 as [|x r IH]; intros l2 N I; cbn; [lia|].
  inversion N; subst. destruct (in_split x l2) as (u & v & ->); [apply I; left; auto|].
  assert (L : sum_nat (map f r) <= sum_nat (map f (u ++ v))).
  { apply IH; auto. intros y Hy. assert (Hy' : In y (u ++ x :: v)) by (apply I; right; auto).
    apply in_app_or in Hy'. apply in_or_app. destruct Hy' as [|[<-|]]; auto. contradiction. }
  unfold sum_nat in *. rewrite !map_app, !fold_right_app in *. cbn.
  assert (G : forall l a b, fold_right Nat.add (a + b) l = a + fold_right Nat.add b l).
  { induction l as [|z l' IHl]; intros; cbn; [auto|]. rewrite IHl. lia. }
  rewrite G. lia.
Qed.

Lemma resolves_le x order arrs :
  NoDup order -> resolves x order arrs ->
  total nbytes arrs <= sum_nat (map (fun pa => nbytes (snd pa)) (extract_arrays [] x)).
Proof.
  intros N R.
  assert (E : total nbytes arrs = sum_nat (map (fun pa => nbytes (snd pa)) (combine order arrs))).
  { clear N. induction R; cbn; [auto|]. unfold total, sum_nat in *. cbn. lia. }
  rewrite E. apply sum_incl.
  - clear E. assert (L : length order = length arrs) by (eapply Forall2_length; eauto).
    clear R. revert arrs L. induction N as [|k r K N IH]; intros arrs L; cbn; [constructor|].
    destruct arrs as [|a arrs]; [constructor|]. constructor.
    + intros H. apply in_combine_l in H. auto.
    + apply IH. cbn in L. lia.
  - intros [p a] H. clear E N. induction R as [|k b o bs [H1 _] R IH]; cbn in H; [tauto|].
    destruct H as [H|H]; [injection H as -> ->|auto].
    apply (at_path_extract x [] p a H1).
Qed.

Lemma total_cons f a l : total f (a :: l) = f a + total f l.
Proof. reflexivity. Qed.
Lemma total_nil f : total f [] = 0.
Proof. reflexivity. Qed.

Lemma total_app f l1 l2 : total f (l1 ++ l2) = total f l1 + total f l2.
Proof. induction l1; cbn; [auto|]. unfold total in *. lia. Qed.

Lemma concat_bytes_length arrs :
  Forall arr_wf arrs -> length (concat (map a_bytes arrs)) = total nbytes arrs.
Proof.
  induction 1 as [|a r H _ IH]; cbn; [auto|]. rewrite app_length, IH, H. reflexivity.
Qed.

Lemma resolves_wf x order arrs : resolves x order arrs -> Forall arr_wf arrs.
Proof. induction 1 as [|? ? ? ? (_ & ? & _)]; constructor; auto. Qed.

Lemma assign_slice_ok pre rest bs :
  length bs <= length rest ->
  assign_slice (pre ++ rest) (length pre) (length bs) bs
  = Ok (pre ++ bs ++ skipn (length bs) rest).
Proof.
  intros H. unfold assign_slice. rewrite app_length.
  replace (Nat.min (length bs) (length pre + length rest - length pre)) with (length bs) by lia.
  rewrite Nat.eqb_refl. do 2 f_equal.
  - rewrite firstn_app, Nat.sub_diag, firstn_all2 by lia. cbn. apply app_nil_r.
  - rewrite skipn_app, skipn_all2 by lia.
    cbn. do 2 f_equal. lia.
Qed.

Definition last_dt (d : option dtype) (arrs : list array) : option dtype :=
  match rev arrs with [] => d | a :: _ => Some (a_dtype a) end.

Lemma write_keys_ok x order arrs : resolves x order arrs ->
  forall pre rest shs blk dt,
  total nbytes arrs <= length rest ->
  write_keys x order (W (pre ++ rest) (length pre) shs blk dt)
  = let mm := pre ++ concat (map a_bytes arrs) ++ skipn (total nbytes arrs) rest in
    (mm, Ok (W mm (length pre + total nbytes arrs) (shs ++ map a_shape arrs)
               (blk + total asize arrs) (last_dt dt arrs))).
Proof.
  induction 1 as [|k a o arrs (H1 & H2 & H3) R IH]; intros pre rest shs blk dt L.
  - cbn. rewrite app_nil_r, !Nat.add_0_r. reflexivity.
  - cbn [write_keys]. unfold write_key. rewrite (at_path_get _ _ _ H1).
    destruct (a_shape a) as [|s0 s1] eqn:S; [congruence|].
    cbn [reduce_mul bind w_mm w_off w_shapes w_block w_dt].
    unfold arr_wf in H2. cbn [total fold_right] in L. fold (total nbytes arrs) in L.
    rewrite <- H2 at 1. rewrite assign_slice_ok by lia. cbn [bind].
    rewrite app_assoc. replace (length pre + nbytes a) with (length (pre ++ a_bytes a))
      by (rewrite app_length; lia).
    rewrite IH by (rewrite skipn_length; lia).
    cbn zeta. cbn [map concat total fold_right].
    fold (total nbytes arrs). fold (total asize arrs).
    assert (E : skipn (total nbytes arrs) (skipn (length (a_bytes a)) rest)
                = skipn (nbytes a + total nbytes arrs) rest).
    { rewrite skipn_skipn. f_equal. lia. }
    rewrite E, <- !app_assoc. f_equal. f_equal. f_equal.
    + rewrite app_length. lia.
    + rewrite S. reflexivity.
    + unfold asize. rewrite S. unfold prod. lia.
    + unfold last_dt. cbn [rev]. destruct (rev arrs) as [|b r] eqn:Rv; reflexivity.
Qed.

(** What [write] stores: the entries and the bytes, described from the resolved arrays. *)
Fixpoint entries (order : list (list string)) (off : nat) (ids : list did)
         (arrss : list (list array)) : list entry :=
  match ids, arrss with
  | i :: ids, arrs :: r =>
      Entry i order off (map a_shape arrs) (total asize arrs)
            (match last_dt None arrs with Some d => d | None => U8 end)
      :: entries order (off + total nbytes arrs) ids r
  | _, _ => []
  end.
Definition records (arrss : list (list array)) : list byte :=
  concat (map (fun arrs => concat (map a_bytes arrs)) arrss).
Definition totals (arrss : list (list array)) : nat := sum_nat (map (total nbytes) arrss).

Lemma last_dt_some arrs : arrs <> [] -> exists a, In a arrs /\ forall d', last_dt d' arrs = Some (a_dtype a).
Proof.
  intros N. unfold last_dt. destruct (rev arrs) as [|a r] eqn:E.
  - apply (f_equal (@rev _)) in E. rewrite rev_involutive in E. contradiction.
  - exists a. split; [|reflexivity]. apply in_rev. rewrite E. left; auto.
Qed.

Lemma write_samples_ok order (buf : list (did * nd array)) arrss : order <> [] ->
  Forall2 (fun x arrs => resolves (snd x) order arrs) buf arrss ->
  forall pre rest meta,
  totals arrss <= length rest ->
  write_samples order buf (pre ++ rest) (length pre) meta
  = (pre ++ records arrss ++ skipn (totals arrss) rest,
     Ok (meta ++ entries order (length pre) (map fst buf) arrss)).
Proof.
  intros NE. induction 1 as [|[i x] arrs buf arrss R F IH]; intros pre rest meta L.
  - cbn. rewrite app_nil_r. reflexivity.
  - cbn [write_samples map fst]. cbn [snd] in R. unfold totals in L. cbn [map sum_nat fold_right] in L.
    fold (sum_nat (map (total nbytes) arrss)) in L. fold (totals arrss) in L.
    rewrite (write_keys_ok x order arrs R) by lia. cbn zeta. cbn [w_dt w_off w_shapes w_block].
    assert (NA : arrs <> []).
    { intros ->. inversion R. subst. contradiction. }
    destruct (last_dt_some arrs NA) as (a & Ia & La). rewrite La.
    pose proof (concat_bytes_length arrs (resolves_wf _ _ _ R)) as CL.
    rewrite app_assoc.
    replace (length pre + total nbytes arrs)
      with (length (pre ++ concat (map a_bytes arrs))) by (rewrite app_length; lia).
    rewrite IH by (rewrite skipn_length; lia).
    f_equal.
    + unfold records, totals. cbn [map concat sum_nat fold_right]. rewrite <- !app_assoc.
      rewrite skipn_skipn. do 4 f_equal. unfold totals. fold (sum_nat (map (total nbytes) arrss)). lia.
    + f_equal. rewrite <- app_assoc. f_equal. cbn [entries app]. rewrite La. f_equal.
      f_equal. rewrite app_length. lia.
Qed.

Lemma totals_le order (buf : list (did * nd array)) arrss : NoDup order ->
  Forall2 (fun x arrs => resolves (snd x) order arrs) buf arrss -> totals arrss <= total_size buf.
Proof.
  intros N. unfold totals, total_size. induction 1 as [|x arrs buf arrss R F IH]; cbn [map sum_nat fold_right]; [auto|].
  pose proof (resolves_le _ _ _ N R). unfold sum_nat in *. lia.
Qed.

Lemma records_length order (buf : list (did * nd array)) arrss :
  Forall2 (fun x arrs => resolves (snd x) order arrs) buf arrss -> length (records arrss) = totals arrss.
Proof.
  induction 1 as [|x arrs buf arrss R F IH]; [reflexivity|].
  unfold records, totals in *. cbn [map concat sum_nat fold_right]. rewrite app_length, IH.
  rewrite (concat_bytes_length arrs (resolves_wf _ _ _ R)). reflexivity.
Qed.

Lemma entries_ids order off ids arrss : length ids = length arrss ->
  map e_id (entries order off ids arrss) = ids.
Proof.
  revert off arrss. induction ids as [|i ids IH]; intros off [|a r] L; cbn in *; try lia; auto.
  f_equal. apply IH. lia.
Qed.

Lemma forallb_map {A B} (f : A -> B) p l : forallb p (map f l) = forallb (fun x => p (f x)) l.
Proof. induction l; cbn; [auto|]. rewrite IHl. auto. Qed.

(** [write] succeeds and produces exactly this. *)
Lemma write_ok d name (buf : list (did * nd array)) order arrss :
  order <> [] -> NoDup order ->
  Forall2 (fun x arrs => resolves (snd x) order arrs) buf arrss ->
  0 < total_size buf ->
  forallb serialisable (map fst buf) = true ->
  write d name buf order
  = (dset (meta_name name) (FMeta (entries order 0 (map fst buf) arrss))
       (dset (data_name name)
             (FData (records arrss ++ repeat x00 (total_size buf - totals arrss))) d), Ok tt).
Proof.
  intros NE N F T S. unfold write.
  destruct (Nat.eqb_spec (total_size buf) 0); [lia|].
  pose proof (totals_le _ _ _ N F) as TL.
  pose proof (write_samples_ok order buf arrss NE F [] (repeat x00 (total_size buf)) []) as W.
  cbn [app length] in W. rewrite W by (rewrite repeat_length; exact TL).
  assert (E : forallb (fun e => serialisable (e_id e)) (entries order 0 (map fst buf) arrss) = true).
  { rewrite <- forallb_map, entries_ids; auto. rewrite map_length. eapply Forall2_length; eauto. }
  rewrite E. do 4 f_equal.
  replace (total_size buf) with (totals arrss + (total_size buf - totals arrss)) at 1 by lia.
  rewrite repeat_app, skipn_app, skipn_all2 by (rewrite repeat_length; lia).
  rewrite repeat_length, Nat.sub_diag. reflexivity.
Qed.

(** ---- reading back ---- *)
Lemma firstn_skipn_mid {X} (a b c : list X) n m :
  n = length a -> m = length b -> firstn m (skipn n (a ++ b ++ c)) = b.
Proof.
  intros -> ->. rewrite skipn_app, skipn_all2, Nat.sub_diag by lia. cbn.
  rewrite firstn_app, Nat.sub_diag, firstn_all2 by lia. cbn. apply app_nil_r.
Qed.

Lemma total_nbytes_dtype dt arrs : Forall (fun a => a_dtype a = dt) arrs ->
  total nbytes arrs = total asize arrs * itemsize dt.
Proof.
  induction 1 as [|a r H _ IH]; [reflexivity|].
  unfold total in *. cbn [fold_right]. rewrite IH. unfold nbytes, asize. rewrite H. lia.
Qed.

Lemma get_flatten_ok dt arrs pre post :
  Forall arr_wf arrs -> Forall (fun a => a_dtype a = dt) arrs ->
  get_flatten_item (pre ++ concat (map a_bytes arrs) ++ post) (length pre) (total asize arrs) dt
  = Ok (flat_of dt arrs).
Proof.
  intros W D. unfold get_flatten_item.
  rewrite <- (total_nbytes_dtype dt arrs D).
  pose proof (concat_bytes_length arrs W) as L.
  rewrite !app_length, L.
  destruct (Nat.leb_spec (length pre + total nbytes arrs) (length pre + (total nbytes arrs + length post))); [|lia].
  rewrite firstn_skipn_mid by (auto; lia). reflexivity.
Qed.

Lemma nd_set_fresh {A} m (v : A) acc : ~ In m (dkeys acc) ->
  nd_set [m; "grad"%string] v acc = Ok (acc ++ [(m, Node [("grad"%string, Leaf v)])]).
Proof.
  intros H. cbn [nd_set]. apply dget_None_keys in H as H'. rewrite H'. cbn [bind].
  rewrite dset_notin by auto. reflexivity.
Qed.

Lemma unflatten_all_ok dt ms arrs : length ms = length arrs -> NoDup ms ->
  Forall (fun a => arr_wf a /\ a_shape a <> [] /\ a_dtype a = dt) arrs ->
  forall pre acc, 
  Forall (fun a => arr_wf a /\ a_shape a <> [] /\ a_dtype a = dt) pre ->
  (forall m, In m ms -> ~ In m (dkeys acc)) ->
  unflatten_all (flat_of dt (pre ++ arrs)) (grad_paths ms) (map a_shape arrs) (total asize pre) acc
  = Ok (acc ++ map (fun ma => (fst ma, Node [("grad"%string, Leaf (snd ma))])) (combine ms arrs),
        total asize pre + total asize arrs).
Proof.
  intros L N. revert arrs L. induction N as [|m ms K N IH]; intros arrs L F pre acc P Fr.
  - destruct arrs; [|discriminate]. cbn. rewrite app_nil_r, Nat.add_0_r. reflexivity.
  - destruct arrs as [|a arrs]; [discriminate|]. cbn [grad_paths map unflatten_all].
    inversion F as [|? ? (Wa & Sa & Da) F']; subst.
    assert (U : unflatten_tensor (flat_of (a_dtype a) (pre ++ a :: arrs)) (a_shape a) (total asize pre)
                = Ok (a, total asize pre + asize a)).
    { unfold unflatten_tensor, reduce_mul. destruct (a_shape a) as [|s0 s1] eqn:S; [congruence|].
      cbn [bind flat_of a_shape a_dtype a_bytes]. rewrite total_app.
      assert (T : total asize (a :: arrs) = prod (s0 :: s1) + total asize arrs).
      { unfold total, asize at 1. cbn [fold_right]. rewrite S. reflexivity. }
      rewrite T. replace (asize a) with (prod (s0 :: s1)) by (unfold asize; rewrite S; reflexivity).
      assert (P1 : prod [total asize pre + (prod (s0 :: s1) + total asize arrs)]
                   = total asize pre + (prod (s0 :: s1) + total asize arrs)).
      { cbn [prod fold_right]. lia. }
      rewrite P1.
      replace (Nat.min (prod (s0 :: s1)) _) with (prod (s0 :: s1)) by lia.
      rewrite Nat.eqb_refl. do 2 f_equal.
      rewrite map_app, concat_app. cbn [map concat].
      rewrite firstn_skipn_mid.
      - destruct a as [sh dt bs]; cbn in *. subst. reflexivity.
      - rewrite concat_bytes_length by (eapply Forall_impl; [|exact P]; cbn; tauto).
        symmetry. apply total_nbytes_dtype. eapply Forall_impl; [|exact P]; cbn; tauto.
      - rewrite Wa. unfold nbytes. rewrite S. lia. }
    rewrite U. cbn [bind]. rewrite nd_set_fresh by (apply Fr; left; auto). cbn [bind].
    replace (pre ++ a :: arrs) with ((pre ++ [a]) ++ arrs) by (rewrite <- app_assoc; reflexivity).
    replace (total asize pre + asize a) with (total asize (pre ++ [a]))
      by (rewrite total_app, total_cons, total_nil; lia).
    fold (grad_paths ms). rewrite IH; auto.
    + rewrite <- app_assoc. cbn [combine map fst snd app]. do 2 f_equal.
      rewrite total_app, !total_cons, total_nil. lia.
    + apply Forall_app. split; [auto|]. constructor; auto.
    + intros m' I. unfold dkeys. rewrite map_app, in_app_iff. cbn. intros [H|[H|[]]].
      * apply (Fr m'); [right; auto|exact H].
      * subst. contradiction.
Qed.

(** One stored record read back from a chunk. *)
Definition good_arrs (dt : dtype) (arrs : list array) : Prop :=
  Forall (fun a => arr_wf a /\ a_shape a <> [] /\ a_dtype a = dt) arrs.

Lemma good_arrs_wf dt arrs : good_arrs dt arrs -> Forall arr_wf arrs.
Proof. apply Forall_impl. tauto. Qed.
Lemma good_arrs_dt dt arrs : good_arrs dt arrs -> Forall (fun a => a_dtype a = dt) arrs.
Proof. apply Forall_impl. tauto. Qed.

Lemma entries_read dt ms : ms <> [] -> forall arrss ids off pre post k,
  length ids = length arrss -> Forall (good_arrs dt) arrss ->
  Forall (fun arrs => length arrs = length ms) arrss ->
  off = length pre -> k < length ids ->
  exists e, nth_error (entries (grad_paths ms) off ids arrss) k = Some e /\
    e_id e = nth k ids (DInt 0) /\
    e_path e = grad_paths ms /\ e_shape e = map a_shape (nth k arrss []) /\
    e_block e = total asize (nth k arrss []) /\
    get_flatten_item (pre ++ records arrss ++ post) (e_offset e) (e_block e) (e_dtype e)
    = Ok (flat_of dt (nth k arrss [])).
Proof.
  intros NE. induction arrss as [|arrs arrss IH]; intros ids off pre post k L G LM -> K.
  - cbn in L. lia.
  - destruct ids as [|i ids]; [discriminate|].
    inversion G as [|? ? G1 G2]; subst. inversion LM as [|? ? M1 M2]; subst.
    destruct k as [|k].
    + cbn [entries nth_error nth]. eexists. repeat split. cbn [e_offset e_block e_dtype].
      assert (NA : arrs <> []). { intros ->. destruct ms; [congruence|discriminate]. }
      destruct (last_dt_some arrs NA) as (a & Ia & La). rewrite La.
      assert (Da : a_dtype a = dt).
      { unfold good_arrs in G1. rewrite Forall_forall in G1. apply G1; auto. }
      rewrite Da. unfold records. cbn [map concat]. rewrite <- app_assoc.
      apply get_flatten_ok; [eapply good_arrs_wf|eapply good_arrs_dt]; eauto.
    + cbn [entries nth_error nth]. cbn in L, K.
      destruct (IH ids (length pre + total nbytes arrs) (pre ++ concat (map a_bytes arrs)) post k)
        as (e & E1 & E2 & E3 & E4 & E5 & E6); auto; try lia.
      { rewrite app_length, concat_bytes_length by (eapply good_arrs_wf; eauto). reflexivity. }
      exists e. repeat split; auto.
      unfold records in *. cbn [map concat]. rewrite <- !app_assoc in *. exact E6.
Qed.

Lemma unflatten_entry dt ms arrs : length arrs = length ms -> NoDup ms -> good_arrs dt arrs ->
  unflatten_all (flat_of dt arrs) (grad_paths ms) (map a_shape arrs) 0 []
  = Ok (map (fun ma => (fst ma, Node [("grad"%string, Leaf (snd ma))])) (combine ms arrs),
        total asize arrs).
Proof.
  intros L N G. exact (unflatten_all_ok dt ms arrs (eq_sym L) N G [] [] (Forall_nil _) (fun _ _ F => F)).
Qed.
