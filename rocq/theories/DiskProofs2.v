(** A run of saved batches, read by the log loader. *)
From Coq Require Import ZArith Lia Permutation.
From Verif Require Import Py PyStr Field Tensor ModelGrad Monad ModelState ModelMmap ModelSaver ModelLoader ModelLogger ModelModules ModelLora ModelScheduler ModelInfluence ModelUtils ModelTrainer SpecGrad SpecState SpecStore SpecInfluence SpecRows SpecDisk StoreProofs4 StoreProofs7 InfProofs1 InfProofs10 DiskProofs1.
Local Open Scope string_scope.
Local Open Scope list_scope.
Local Open Scope nat_scope.

Section Disk.
  Context {F : Type} `{OField F}.
  Notation tensor := (tensor F).
  Notation dten := (@dten F).
  Notation tlog := (@tlog F).
  Notation data := Tensor.data.
  Context (dt : dtype) (e : F -> list byte) (exact : F -> Prop) (enc : dten -> array) (dec : array -> dten) (CD : codec dt e exact enc dec).
  Context (show : did -> string) (ms : list string) (n : nat) (M : tlog) (ST : storable exact ms n M).

  Definition raw (L : tlog) : nd dten := Node (map (fun p => (fst p, Node (map (fun q => (fst q, Leaf (snd q))) (snd p)))) L).
  Definition enc_nd (L : tlog) : nd array := Node (map (fun p => (fst p, Node (map (fun q => (fst q, Leaf (enc (snd q)))) (snd p)))) L).
  Lemma raw_enc L : leaf_map enc (raw L) = enc_nd L.
  Proof. exact (leaf_map_two enc (fun e : dict string dten => e) (fun x => x) L). Qed.
  Definition unVT (v : @sval F) : dten := match v with VT d => d | _ => (Cpu, T [] []) end.
  Lemma raw_of (l : nd dten) L : leaf_map VT l = log_nd L -> l = raw L.
  Proof.
    intros E. apply (f_equal (leaf_map unVT)) in E. rewrite leaf_map_comp, (leaf_map_id (fun a => unVT (VT a))) in E by reflexivity. rewrite E.
    exact (leaf_map_two unVT (fun e : dict string dten => e) VT L).
  Qed.
  Lemma at_path_enc L m t : at_path (enc_nd L) [m; t] = option_map (fun x => Leaf (enc x)) (look L m t).
  Proof.
    unfold enc_nd, look. cbn [at_path]. rewrite (dget_map (fun e : dict string dten => Node (map (fun q => (fst q, Leaf (enc (snd q)))) e))). destruct (dget m L) as [d|]; [|reflexivity]. cbn [option_map].
    rewrite (dget_map (fun x : dten => Leaf (enc x))). destruct (dget t d); reflexivity.
  Qed.

  Definition gr (m : string) : tensor := match look M m "grad" with Some x => snd x | None => T [] [] end.
  Notation recs_from := (recs_from enc ms gr).
  Lemma gr_of m : In m ms -> exists d k rest, look M m "grad" = Some (d, gr m) /\ shape (gr m) = n :: k :: rest /\ 0 < prod (k :: rest) /\ Forall exact (data (gr m)) /\ twf (gr m).
  Proof.
    destruct ST as (U & _ & G). intros I0. destruct (G m I0) as (d & t & k & rest & E & Sh & P & X). destruct (U m "grad" (d, t) E) as (r & _ & W). unfold gr. rewrite E. cbn [snd] in *. exists d, k, rest. auto.
  Qed.
  Lemma grad_part off k m : In m ms -> exists d, grad_tensor (enc_nd (part off k M)) m = enc (d, rows off k (gr m)) /\ at_path (enc_nd (part off k M)) [m; "grad"] = Some (Leaf (enc (d, rows off k (gr m)))).
  Proof.
    intros I0. destruct (gr_of m I0) as (d & k0 & rest & E & _). exists d. unfold grad_tensor. rewrite at_path_enc, part_look, E. split; reflexivity.
  Qed.
  Lemma from_recs off k ids : forall i, i + length ids <= k -> samples_from ms (enc_nd (part off k M)) i ids = recs_from (off + i) ids.
  Proof.
    induction ids as [|d r IH]; intros i L; [reflexivity|]. cbn [samples_from DiskProofs1.recs_from length] in *. rewrite IH by lia. replace (off + S i) with (S (off + i)) by lia. do 2 f_equal.
    unfold sample_rows, recs. apply map_ext_in. intros m I0. destruct (grad_part off k m I0) as (dv & E & _). rewrite E. apply (row_piece dt e exact enc dec CD). lia.
  Qed.

  Fixpoint wbatches (off : nat) (ks : list nat) (ids : list did) : list (list did * nd array) :=
    match ks with [] => [] | k :: r => (firstn k (skipn off ids), enc_nd (part off k M)) :: wbatches (off + k) r ids end.
  Lemma wbatch_ok off k ids : off + k <= n -> Forall json_id ids -> length ids <= k -> batch_ok ms dt (ids, enc_nd (part off k M)).
  Proof.
    intros L J Li. destruct ST as (U & (N1 & N2) & G). exists k. cbn [fst snd]. split; [exact Li|]. split; [|split; [|exact J]].
    - unfold enc_nd. eexists. split; [reflexivity|]. split; [unfold dkeys, part; rewrite !map_map; exact N1|]. unfold part. rewrite !Forall_map. apply Forall_forall. intros [m d] I0. cbn [fst snd]. eexists. split; [reflexivity|].
      rewrite Forall_forall in N2. specialize (N2 _ I0). cbn [snd] in N2. split; [unfold dkeys; rewrite !map_map; exact N2|]. rewrite !Forall_map. apply Forall_forall. intros [t [dv x]] J0. cbn [fst snd].
      destruct (U m t (dv, x)) as (r & Sh & W). { unfold look. rewrite (In_dget _ _ _ N1 I0). apply (In_dget _ _ _ N2 J0). } cbn [snd] in *.
      exists (enc (dv, rows off k x)), r. split; [reflexivity|]. split; [rewrite (cd_enc _ _ _ _ _ CD); cbn [a_shape snd]; apply (rows_shape off k x n r Sh)|].
      split; [apply (enc_wf dt e exact enc dec CD); apply (rows_wf off k x n r Sh W L)|]. rewrite (cd_enc _ _ _ _ _ CD). cbn [a_dtype]. apply (cd_real _ _ _ _ _ CD).
    - apply Forall_forall. intros m I0. destruct (gr_of m I0) as (_ & k0 & rest & _ & Sh & P & _). destruct (grad_part off k m I0) as (d & _ & E). exists (enc (d, rows off k (gr m))), k0, rest. split; [exact E|].
      rewrite (cd_enc _ _ _ _ _ CD). cbn [a_dtype a_shape snd]. split; [reflexivity|]. split; [apply (rows_shape off k (gr m) n (k0 :: rest) Sh)|exact P].
  Qed.
  Lemma wbatches_ok ids : Forall json_id ids -> forall ks off, off + fold_right Nat.add 0 ks <= n -> Forall (batch_ok ms dt) (wbatches off ks ids).
  Proof.
    intros J. induction ks as [|k ks IH]; intros off L; cbn [wbatches]; [constructor|]. cbn [fold_right] in L. constructor; [|apply IH; lia].
    apply wbatch_ok; [lia| |apply firstn_le_length]. apply Forall_forall. intros d I0. rewrite Forall_forall in J. apply J. rewrite <- (firstn_skipn off ids). apply in_or_app. right. rewrite <- (firstn_skipn k (skipn off ids)). apply in_or_app. left. exact I0.
  Qed.
  Lemma wbatches_ids ids : forall ks off, concat (map fst (wbatches off ks ids)) = firstn (fold_right Nat.add 0 ks) (skipn off ids).
  Proof.
    induction ks as [|k ks IH]; intros off; cbn [wbatches map concat fold_right fst]; [reflexivity|]. rewrite IH. rewrite Nat.add_comm, <- skipn_skipn. generalize (skipn off ids) as l. generalize (fold_right Nat.add 0 ks) as q. intros q l.
    rewrite <- (firstn_skipn k l) at 3. rewrite firstn_app, firstn_firstn, firstn_length. rewrite (Nat.min_r (k + q) k) by lia. f_equal. destruct (Nat.le_gt_cases k (length l)) as [L|L].
    - rewrite Nat.min_l by exact L. f_equal. lia.
    - rewrite (skipn_all2 l) by lia. rewrite !firstn_nil. reflexivity.
  Qed.
  Lemma wbatches_samples ids : forall ks off, off + fold_right Nat.add 0 ks = length ids -> concat (map (batch_samples ms) (wbatches off ks ids)) = recs_from off (skipn off ids).
  Proof.
    induction ks as [|k ks IH]; intros off L; cbn [wbatches map concat fold_right] in *; [rewrite skipn_all2 by lia; reflexivity|]. rewrite IH by lia. unfold batch_samples at 1. cbn [fst snd].
    assert (Lk : length (firstn k (skipn off ids)) = k) by (rewrite firstn_length, skipn_length; lia). rewrite (from_recs off k _ 0) by lia. rewrite Nat.add_0_r.
    rewrite <- (firstn_skipn k (skipn off ids)) at 2. rewrite recs_app, Lk. rewrite (Nat.add_comm off k), <- skipn_skipn. reflexivity.
  Qed.

  (** ---- reading ---- *)
  Lemma combine_map {A B} (f : A -> B) (l : list A) : List.combine l (map f l) = map (fun a => (a, f a)) l.
  Proof. induction l as [|a l IH]; cbn [List.combine map]; [|rewrite IH]; reflexivity. Qed.
  Lemma read_batch off ids1 : ids1 <> [] ->
    leaf_map (fun a => VT (dec a)) (nested_of ms (map (SpecStore.stacked (recs_from off ids1)) (seq 0 (length ms)))) = log_nd (part off (length ids1) (regrad ms M)).
  Proof.
    intros N. assert (Q : map (SpecStore.stacked (recs_from off ids1)) (seq 0 (length ms)) = map (fun m => enc (Cpu, rows off (length ids1) (gr m))) ms).
    { transitivity (map (fun j => enc (Cpu, rows off (length ids1) (gr (nth j ms "")))) (seq 0 (length ms))).
      - apply map_ext_in. intros j I0. apply in_seq in I0. apply (stacked_rows dt e exact enc dec CD ms gr); [exact N|lia].
      - clear. induction ms as [|m r IH]; [reflexivity|]. cbn [length seq map nth]. f_equal. rewrite <- seq_shift, map_map. exact IH. }
    rewrite Q. unfold nested_of. rewrite combine_map, map_map. cbn [fst snd]. unfold log_nd, part, regrad. cbn [leaf_map]. f_equal. rewrite !map_map. cbn [fst snd].
    assert (V : forall m, In m ms -> dec (enc (Cpu, rows off (length ids1) (gr m))) = (Cpu, rows off (length ids1) (gr m))).
    { intros m I0. destruct (gr_of m I0) as (_ & k & rest & _ & _ & _ & X & _). rewrite (cd_enc _ _ _ _ _ CD), (cd_dec _ _ _ _ _ CD); [reflexivity|]. cbn [snd rows data]. apply Forall_forall. intros y J. rewrite Forall_forall in X. apply X.
      rewrite <- (firstn_skipn (off * prod (tl (shape (gr m)))) (data (gr m))). apply in_or_app. right. rewrite <- (firstn_skipn (length ids1 * prod (tl (shape (gr m)))) (skipn _ _)). apply in_or_app. left. exact J. }
    fold gr. clear - V. induction ms as [|m r IH]; [reflexivity|]. cbn [map fst snd leaf_map]. rewrite IH by (intros; apply V; right; assumption). rewrite V by (left; reflexivity). reflexivity.
  Qed.
  Lemma read_chunks b ids : 0 < b -> forall fuel off ids1, ids1 = skipn off ids -> length ids1 <= fuel ->
    map (fun c => (map show (map fst c), Nest (leaf_map (fun a => VT (dec a)) (nested_of ms (map (SpecStore.stacked c) (seq 0 (length ms))))))) (chunks_fuel fuel b (recs_from off ids1))
    = batches off (map (@length did) (chunks_fuel fuel b ids1)) (map show ids) (regrad ms M).
  Proof.
    intros B. induction fuel as [|f IH]; intros off ids1 E L; [reflexivity|]. destruct ids1 as [|d r] eqn:D; [reflexivity|]. rewrite <- D in *. assert (NN : ids1 <> []) by congruence.
    replace (chunks_fuel (S f) b (recs_from off ids1)) with (firstn b (recs_from off ids1) :: chunks_fuel f b (skipn b (recs_from off ids1))) by (rewrite D; reflexivity).
    replace (chunks_fuel (S f) b ids1) with (firstn b ids1 :: chunks_fuel f b (skipn b ids1)) by (rewrite D; reflexivity).
    cbn [map batches]. rewrite recs_firstn, recs_skipn, recs_ids. assert (N1 : firstn b ids1 <> []) by (destruct b; [lia|]; rewrite D; discriminate). rewrite read_batch by exact N1.
    assert (Lf : firstn (length (firstn b ids1)) ids1 = firstn b ids1) by (rewrite firstn_length; destruct (Nat.le_gt_cases b (length ids1)); [rewrite Nat.min_l by lia; reflexivity|rewrite Nat.min_r by lia; rewrite !firstn_all2 by lia; reflexivity]).
    f_equal.
    - f_equal. rewrite skipn_map, <- E, firstn_map, Lf. reflexivity.
    - destruct (Nat.le_gt_cases b (length ids1)) as [Lb|Lb].
      + rewrite firstn_length, Nat.min_l by exact Lb. apply IH; [rewrite E, skipn_skipn; f_equal; lia|rewrite skipn_length; lia].
      + rewrite (skipn_all2 ids1) by lia. destruct f; reflexivity.
  Qed.
  Lemma read_back rank w thr d ks ids b : ms <> [] -> NoDup ms -> fresh_dir d -> (w <= 1)%Z -> Forall json_id ids -> NoDup ids -> length ids = n -> fold_right Nat.add 0 ks = n -> 0 < b ->
    exists d' s', save_run d (saver_init rank w thr (grad_paths ms)) (wbatches 0 ks ids) = (d', s', Ok tt) /\
      log_batches dec show b d' = Ok (batches 0 (map (@length did) (chunks b ids)) (map show ids) (regrad ms M)).
  Proof.
    intros NE N Fd W J ND Ln Sk B. destruct (no_loss_sync ms dt rank w thr d (wbatches 0 ks ids)) as (d' & s' & E & O); auto.
    { apply wbatches_ok; [exact J|lia]. } { rewrite wbatches_ids. cbn [skipn]. rewrite firstn_all2 by lia. exact ND. }
    exists d', s'. split; [exact E|]. destruct (O (dkeys d') (Permutation_refl _)) as (ds & O1 & O2 & _). cbn zeta in O2. rewrite wbatches_samples in O2 by lia. cbn [skipn] in O2.
    unfold log_batches. rewrite O1. cbn [bind]. rewrite (dataloader_ok ds ms dt _ b _ N B O2 (recs_uniform dt e exact enc dec CD ms gr ids 0)). cbn [bind]. f_equal. rewrite map_map. cbn [fst snd]. unfold chunks. rewrite recs_length.
    apply read_chunks; [exact B|reflexivity|lia].
  Qed.
End Disk.
