(** Proofs about logs that cannot be stored. *)
From Coq Require Import Permutation.
From Verif Require Import Py PyStr ModelMmap ModelLoader ModelSaver SpecStore SpecDamage StoreProofs1 StoreProofs2 StoreProofs3 StoreProofs4 StoreProofs5 StoreProofs6.
Local Open Scope nat_scope.

(** ---- write ---- *)
(** The exception the arrays cause, in order: [T] bytes are available, [off] are used. *)
Fixpoint fate (T off : nat) (arrs : list array) : option exn :=
  match arrs with
  | [] => None
  | a :: r => match a_shape a with
              | [] => Some TypeError
              | _ => if nbytes a <=? T - off then fate T (off + nbytes a) r
                     else if nbytes a =? 1 then fate T (off + nbytes a) r else Some ValueError
              end
  end.
Definition reach (off : nat) (arrs : list array) : nat := off + total nbytes arrs.
Lemma assign_length m off bs : match assign_slice m off (length bs) bs with
  | Ok m' => length m' = length m /\ (length bs <= length m - off \/ length bs = 1)
  | Err e => e = ValueError /\ length m - off < length bs /\ length bs <> 1
  end.
Proof.
  unfold assign_slice. destruct (Nat.eqb_spec (length bs) (Nat.min (length bs) (length m - off))) as [E|E].
  - split; [|lia]. rewrite !app_length, firstn_length, skipn_length. lia.
  - destruct (Nat.eqb_spec (length bs) 1) as [E1|E1].
    + split; [|lia]. rewrite !app_length, firstn_length, skipn_length, repeat_length. lia.
    + repeat split; lia.
Qed.
Definition sits (x : nd array) (order : list (list string)) (arrs : list array) : Prop :=
  Forall2 (fun k a => at_path x k = Some (Leaf a) /\ arr_wf a) order arrs.
Lemma write_keys_fate x order arrs : sits x order arrs -> forall more mm off shs blk dt,
  match write_keys x order (W mm off shs blk dt) with
  | (mm', Ok s) => fate (length mm) off (arrs ++ more) = fate (length mm) (off + total nbytes arrs) more /\ w_off s = off + total nbytes arrs /\
                   length mm' = length mm /\ w_mm s = mm' /\ (arrs <> [] \/ dt <> None -> w_dt s <> None)
  | (mm', Err e) => fate (length mm) off (arrs ++ more) = Some e /\ length mm' = length mm
  end.
Proof.
  induction 1 as [|k a o arrs [H1 H2] R IH]; intros more mm off shs blk dt; cbn [write_keys].
  - cbn [app w_mm w_off total fold_right w_dt]. rewrite Nat.add_0_r. repeat split. intros [C|C]; [contradiction|exact C].
  - unfold write_key. rewrite (at_path_get _ _ _ H1). cbn [app fate].
    destruct (a_shape a) as [|s0 s1] eqn:S; cbn [reduce_mul bind]; [split; reflexivity|]. cbn [w_mm w_off w_shapes w_block].
    unfold arr_wf in H2. pose proof (assign_length mm off (a_bytes a)) as A. rewrite H2 in A.
    destruct (assign_slice mm off (nbytes a) (a_bytes a)) as [m'|e]; cbn [bind].
    + destruct A as [AL AC].
      assert (G : (if nbytes a <=? length mm - off then fate (length mm) (off + nbytes a) (arrs ++ more) else if nbytes a =? 1 then fate (length mm) (off + nbytes a) (arrs ++ more) else Some ValueError)
                = fate (length mm) (off + nbytes a) (arrs ++ more)).
      { destruct (Nat.leb_spec (nbytes a) (length mm - off)); [reflexivity|]. destruct AC as [AC|AC]; [lia|]. rewrite AC. reflexivity. }
      rewrite G. specialize (IH more m' (off + nbytes a) (shs ++ [a_shape a]) (blk + prod (a_shape a)) (Some (a_dtype a))).
      rewrite S in *. rewrite AL in IH.
      destruct (write_keys x o _) as [mm' [s|e]].
      * destruct IH as (I1 & I2 & I3 & I4 & I5). rewrite I1, I2. cbn [total fold_right]. fold (total nbytes arrs). rewrite Nat.add_assoc. repeat split; auto. intros _. apply I5. right. discriminate.
      * exact IH.
    + destruct A as (-> & A1 & A2). split; [|reflexivity].
      destruct (Nat.leb_spec (nbytes a) (length mm - off)); [lia|]. destruct (Nat.eqb_spec (nbytes a) 1); [lia|reflexivity].
Qed.
Lemma write_samples_fate order : order <> [] -> forall (buf : list (did * nd array)) arrss,
  Forall2 (fun x arrs => sits (snd x) order arrs) buf arrss -> forall mm off meta e,
  fate (length mm) off (concat arrss) = Some e -> exists mm', write_samples order buf mm off meta = (mm', Err e) /\ length mm' = length mm.
Proof.
  intros NE. induction 1 as [|[i x] arrs buf arrss R F IH]; intros mm off meta e E; [discriminate E|].
  cbn [concat] in E. cbn [write_samples]. cbn [snd] in R.
  pose proof (write_keys_fate x order arrs R (concat arrss) mm off [] 0 None) as K.
  destruct (write_keys x order _) as [mm' [s|e']].
  - destruct K as (K1 & K2 & K3 & K4 & K5). rewrite K1 in E.
    assert (D : w_dt s <> None). { apply K5. left. intros ->. inversion R; subst. contradiction. }
    destruct (w_dt s) as [dt|]; [|contradiction]. rewrite K2. rewrite <- K3 in E. destruct (IH mm' _ (meta ++ [Entry i order off (w_shapes s) (w_block s) dt]) e E) as (m2 & E2 & L2).
    exists m2. rewrite L2, K3. auto.
  - destruct K as [K1 K2]. rewrite K1 in E. injection E as <-. eauto.
Qed.

Lemma held_sits ms x arrs : held_arrays ms x arrs -> sits x (grad_paths ms) arrs.
Proof. induction 1; constructor; auto. Qed.
Lemma sits_le x order arrs : NoDup order -> sits x order arrs ->
  total nbytes arrs <= sum_nat (map (fun pa => nbytes (snd pa)) (extract_arrays [] x)).
Proof.
  intros N R.
  assert (E : total nbytes arrs = sum_nat (map (fun pa => nbytes (snd pa)) (combine order arrs))).
  { clear N. induction R; cbn; [auto|]. unfold total, sum_nat in *. cbn. lia. }
  rewrite E. apply sum_incl.
  - clear E. assert (L : length order = length arrs) by (eapply Forall2_length; eauto).
    clear R. revert arrs L. induction N as [|k r K N IH]; intros arrs L; cbn; [constructor|].
    destruct arrs as [|a arrs]; [constructor|]. constructor.
    + intros H. apply in_combine_l in H. auto.
    + apply IH. cbn in L. lia.
  - intros [p a] H. clear E N. induction R as [|k b o bs [H1 _] R IH]; cbn in H; [tauto|].
    destruct H as [H|H]; [injection H as -> ->|auto].
    apply (at_path_extract x [] p a H1).
Qed.
Lemma total_concat arrss : total nbytes (concat arrss) = sumf (total nbytes) arrss.
Proof. induction arrss as [|a r IH]; [reflexivity|]. cbn [concat sumf fold_right]. rewrite total_app, IH. reflexivity. Qed.
Lemma fate_scalar T : forall arrs off a, off + total nbytes arrs <= T -> In a arrs -> a_shape a = [] -> fate T off arrs = Some TypeError.
Proof.
  induction arrs as [|b r IH]; intros off a L Ha S; [destruct Ha|]. cbn [fate]. cbn [total fold_right] in L. fold (total nbytes r) in L.
  destruct (a_shape b) as [|s0 s1] eqn:Sb; [reflexivity|]. destruct Ha as [<-|Ha]; [congruence|].
  destruct (Nat.leb_spec (nbytes b) (T - off)); [|lia]. apply (IH _ a); auto; lia.
Qed.
Lemma fate_over T : forall arrs off, off <= T -> T < off + total nbytes arrs -> Forall (fun a => a_shape a <> [] /\ nbytes a <> 1) arrs -> fate T off arrs = Some ValueError.
Proof.
  induction arrs as [|b r IH]; intros off L1 L2 Fo; cbn [total fold_right] in L2; [lia|]. fold (total nbytes r) in L2.
  inversion Fo as [|? ? [S1 S2] Fr]; subst. cbn [fate]. destruct (a_shape b) as [|s0 s1] eqn:Sb; [congruence|].
  destruct (Nat.leb_spec (nbytes b) (T - off)).
  - apply IH; auto; lia.
  - destruct (Nat.eqb_spec (nbytes b) 1); [contradiction|reflexivity].
Qed.

Lemma flush_fault ms d s arrss e : ms <> [] -> s_path s = grad_paths ms -> 0 < buf_bytes (s_buffer s) ->
  Forall2 (fun x arrs => held_arrays ms (snd x) arrs) (s_buffer s) arrss ->
  fate (buf_bytes (s_buffer s)) 0 (concat arrss) = Some e ->
  exists d', flush_serialized d s = (d', s, Err e) /\ after_fault d s d'.
Proof.
  intros NE P T Fo E. unfold flush_serialized. rewrite <- total_size_bytes in T, E.
  destruct (s_buffer s) as [|x0 r0] eqn:Eb; [cbn in T; lia|]. rewrite <- Eb in *. rewrite P. unfold write.
  replace (Nat.eqb (total_size (s_buffer s)) 0) with false by (symmetry; apply Nat.eqb_neq; lia).
  rewrite <- (repeat_length x00 (total_size (s_buffer s))) in E.
  assert (Fo' : Forall2 (fun x arrs => sits (snd x) (grad_paths ms) arrs) (s_buffer s) arrss) by (clear - Fo; induction Fo; constructor; auto using held_sits).
  destruct (write_samples_fate (grad_paths ms) (grad_paths_ne ms NE) (s_buffer s) arrss Fo' _ 0 [] e E) as (mm & Ew & Lm). rewrite Ew.
  change (chunk_file (s_rank s) (s_count s)) with (cfile (s_rank s, s_count s)). rewrite data_name_cfile. eexists. split; [reflexivity|].
  rewrite repeat_length, total_size_bytes in Lm. split; [exists mm; split; [reflexivity|exact Lm]|].
  change (chunk_file (s_rank s) (s_count s)) with (cfile (s_rank s, s_count s)). rewrite meta_name_cfile. intros M listing Il.
  apply (open_unreadable _ _ (s_rank s, s_count s)).
  - apply Il. apply In_dkeys_dset. auto.
  - right. right. rewrite dget_dset_neq; [exact M|]. apply mfile_cfile.
Qed.
(** a sample that is a single number *)
Lemma flush_scalar ms d s arrss : ms <> [] -> NoDup ms -> s_path s = grad_paths ms -> 0 < buf_bytes (s_buffer s) ->
  Forall2 (fun x arrs => held_arrays ms (snd x) arrs) (s_buffer s) arrss ->
  (exists arrs a, In arrs arrss /\ In a arrs /\ a_shape a = []) ->
  exists d', flush_serialized d s = (d', s, Err TypeError) /\ after_fault d s d'.
Proof.
  intros NE N P T Fo (arrs & a & H1 & H2 & S). apply (flush_fault ms d s arrss); auto. apply (fate_scalar _ _ _ a); [|apply in_concat; eauto|exact S].
  cbn [Nat.add]. rewrite total_concat. clear - Fo N. induction Fo as [|x b l r Hx Fo IH]; cbn; [lia|]. fold (sumf (total nbytes) r). fold (sumf (fun kv : did * nd array => nd_bytes (snd kv)) l).
  apply held_sits in Hx. pose proof (sits_le _ _ _ (grad_paths_NoDup ms N) Hx) as L. pose proof (total_size_bytes [x]) as B. cbn in B. rewrite !Nat.add_0_r in B. rewrite <- B. unfold buf_bytes in IH. lia.
Qed.
(** more arrays to write than are buffered *)
Lemma flush_over ms d s arrss : ms <> [] -> s_path s = grad_paths ms -> 0 < buf_bytes (s_buffer s) ->
  Forall2 (fun x arrs => held_arrays ms (snd x) arrs) (s_buffer s) arrss ->
  Forall (Forall (fun a => a_shape a <> [] /\ nbytes a <> 1)) arrss ->
  buf_bytes (s_buffer s) < sumf (total nbytes) arrss ->
  exists d', flush_serialized d s = (d', s, Err ValueError) /\ after_fault d s d'.
Proof.
  intros NE P T Fo Fa L. apply (flush_fault ms d s arrss); auto. apply fate_over; [lia|rewrite total_concat; cbn; exact L|].
  clear - Fa. induction Fa; [constructor|]. cbn [concat]. apply Forall_app; auto.
Qed.
(** nothing but empty arrays *)
Lemma flush_empty d s : s_buffer s <> [] -> buf_bytes (s_buffer s) = 0 ->
  exists d', flush_serialized d s = (d', s, Err ValueError) /\ d' = dset (chunk_file (s_rank s) (s_count s)) (FData []) d /\
    forall listing, incl (dkeys d') listing -> exists e, open_dataset d' listing = Err e.
Proof.
  intros NE T. unfold flush_serialized. destruct (s_buffer s) as [|x0 r0] eqn:Eb; [contradiction|]. rewrite <- Eb in *. unfold write. rewrite total_size_bytes, T. cbn [Nat.eqb].
  change (chunk_file (s_rank s) (s_count s)) with (cfile (s_rank s, s_count s)). rewrite data_name_cfile. eexists. split; [reflexivity|]. split; [reflexivity|].
  intros listing Il. apply (open_unreadable _ _ (s_rank s, s_count s)).
  - apply Il. apply In_dkeys_dset. auto.
  - left. apply dget_dset_eq.
Qed.

(** ---- buffer_write ---- *)
Lemma row_ok t : storable 0 t -> exists a, (let* row := tensor_row t 0 in to_numpy row) = Ok a.
Proof. intros (D & n & rest & S & L). unfold tensor_row. rewrite S. destruct n; [lia|]. cbn [Nat.ltb Nat.leb bind]. unfold to_numpy. cbn [a_dtype]. destruct (a_dtype t); try contradiction; eauto. Qed.
Lemma row_bad t e : no_row t e -> (let* row := tensor_row t 0 in to_numpy row) = Err e.
Proof.
  intros [[[S|(rest & S)] ->]|(D & (n & rest & S) & ->)]; unfold tensor_row; rewrite S; try reflexivity. cbn [Nat.ltb Nat.leb bind]. unfold to_numpy. cbn [a_dtype]. rewrite D. reflexivity.
Qed.
Lemma add_leaves pre : Forall (fun kv => exists t, snd kv = Leaf t /\ storable 0 t) pre -> forall k t e post lb n, no_row t e ->
  NoDup (dkeys (pre ++ (k, Leaf t) :: post)) ->
  exists lb' m, add_items (pre ++ (k, Leaf t) :: post) (Node lb) n 0 = (Node lb', m, Some e) /\ dget k lb' = dget k lb.
Proof.
  induction 1 as [|[k0 v0] pre (t0 & Et & S0) Fp IH]; intros k t e post lb n B N; cbn [app add_items].
  - rewrite (row_bad t e B). eauto.
  - cbn [snd] in Et. subst v0. destruct (row_ok t0 S0) as (a & Ea). rewrite Ea. cbn [dkeys map fst app] in N. inversion N as [|? ? N1 N2]; subst.
    destruct (IH k t e post (dset k0 (Leaf a) lb) (n + asize a) B N2) as (lb' & m & E1 & E2). exists lb', m. split; [exact E1|]. rewrite E2, dget_dset.
    destruct (eqb_spec k k0) as [->|]; [|reflexivity]. exfalso. apply N1. rewrite map_app. apply in_or_app. right. left. reflexivity.
Qed.
Lemma add_leaves_ok lm : Forall (fun kv => exists t, snd kv = Leaf t /\ storable 0 t) lm -> forall lb n,
  exists lb' m, add_items lm (Node lb) n 0 = (Node lb', m, None).
Proof.
  induction 1 as [|[k0 v0] pre (t0 & Et & S0) Fp IH]; intros lb n; cbn [add_items]; [eauto|].
  cbn [snd] in Et. subst v0. destruct (row_ok t0 S0) as (a & Ea). rewrite Ea. apply IH.
Qed.
Lemma storable_leaves lm : NoDup (dkeys lm) -> Forall (fun kv => exists t, snd kv = Leaf t) lm -> module_storable (Node lm) -> Forall (fun kv => exists t, snd kv = Leaf t /\ storable 0 t) lm.
Proof.
  intros N A S. apply Forall_forall. intros [k v] Hk. rewrite Forall_forall in A. destruct (A _ Hk) as (t & Et). cbn [snd] in *. subst v. exists t. split; [reflexivity|].
  apply (S k). cbn [at_path]. apply In_dget in Hk; [|exact N]. rewrite Hk. reflexivity.
Qed.
Lemma add_modules_bad pre : any_log pre -> Forall (fun kv => module_storable (snd kv)) pre -> forall m lpre k t lpost post e, no_row t e ->
  NoDup (dkeys (pre ++ (m, Node (lpre ++ (k, Leaf t) :: lpost)) :: post)) -> any_module (Node (lpre ++ (k, Leaf t) :: lpost)) -> module_storable (Node lpre) ->
  forall l n, node_vals l ->
  exists l' j, add_items (pre ++ (m, Node (lpre ++ (k, Leaf t) :: lpost)) :: post) (Node l) n 0 = (Node l', j, Some e) /\
    node_vals l' /\ at_path (Node l') [m; k] = at_path (Node l) [m; k].
Proof.
  intros [Np Ap] Sp m lpre k t lpost post e B. induction pre as [|[m0 x0] pre IH]; intros N (lm & Elm & Nlm & Alm) Sl l n NV; cbn [app add_items].
  - injection Elm as <-. destruct (two_level_sub l m NV) as (lb & Eb). rewrite Eb, add_log_items.
    assert (Alp : Forall (fun kv : string * nd array => exists t, snd kv = Leaf t) lpre) by (apply Forall_app in Alm; tauto).
    assert (Nlp : NoDup (dkeys lpre)). { unfold dkeys in Nlm. rewrite map_app in Nlm. apply NoDup_app_l in Nlm. exact Nlm. }
    destruct (add_leaves lpre (storable_leaves lpre Nlp Alp Sl) k t e lpost lb 0 B Nlm) as (lb' & j & E1 & E2). rewrite E1.
    exists (dset m (Node lb') l), (n + j). split; [reflexivity|]. split; [apply (Forall_dset (fun v => exists lm, v = Node lm)); eauto|].
    cbn [at_path]. rewrite dget_dset_eq, E2. destruct (dget m l) as [y|]; [subst y; reflexivity|]. injection Eb as <-. reflexivity.
  - inversion Ap as [|? ? (lm0 & E0 & N0 & A0) Ap']; subst. inversion Sp as [|? ? S0 Sp']; subst. cbn [snd] in E0, S0. subst x0. cbn [dkeys map fst app] in Np, N. inversion Np as [|? ? Np1 Np2]; subst. inversion N as [|? ? N1 N2]; subst.
    destruct (two_level_sub l m0 NV) as (lb & Eb). rewrite Eb, add_log_items.
    destruct (add_leaves_ok lm0 (storable_leaves lm0 N0 A0 S0) lb 0) as (lb' & j & E1). rewrite E1.
    destruct (IH Np2 Ap' Sp' N2 (ex_intro _ lm (conj Elm (conj Nlm Alm))) Sl (dset m0 (Node lb') l) (n + j)) as (l' & j' & E2 & E3 & E4).
    { apply (Forall_dset (fun v => exists lm, v = Node lm)); eauto. }
    exists l', j'. split; [exact E2|]. split; [exact E3|]. rewrite E4. cbn [at_path]. rewrite dget_dset.
    destruct (eqb_spec m m0) as [->|]; [|reflexivity]. exfalso. apply N1. rewrite map_app. apply in_or_app. right. left. reflexivity.
Qed.
(** The first tensor that cannot be stored stops the batch at its first sample. *)
Lemma buffer_fault pre m lpre k t lpost post e id ids s :
  let log := pre ++ (m, Node (lpre ++ (k, Leaf t) :: lpost)) :: post in
  any_log log -> Forall (fun kv => module_storable (snd kv)) pre -> module_storable (Node lpre) -> no_row t e ->
  Forall (fun kv => two_level (snd kv)) (s_buffer s) ->
  exists s' x, buffer_write s (id :: ids) (Node log) = (s', Err e) /\ dget id (s_buffer s') = Some x /\
    at_path x [m; k] = match dget id (s_buffer s) with Some y => at_path y [m; k] | None => None end /\
    (forall j, j <> id -> dget j (s_buffer s') = dget j (s_buffer s)) /\
    forall d, save_log d s (id :: ids) (Node log) = (d, s', Err e).
Proof.
  intros log [N A] Sp Sl B T. unfold save_log, buffer_write. cbn [buffer_write_from].
  assert (TL : exists l, match dget id (s_buffer s) with Some x => x | None => Node [] end = Node l /\ node_vals l).
  { destruct (dget id (s_buffer s)) as [x|] eqn:D.
    - apply dget_In in D. rewrite Forall_forall in T. destruct (T _ D) as (l & E & Nv). cbn in E. eauto.
    - exists []. split; [auto|constructor]. }
  destruct TL as (l & El & NV). rewrite El, add_log_items.
  assert (Ap : any_log pre). { split; [unfold log, dkeys in N; rewrite map_app in N; apply NoDup_app_l in N; exact N|]. apply Forall_app in A. tauto. }
  assert (Am : any_module (Node (lpre ++ (k, Leaf t) :: lpost))). { apply Forall_app in A as [_ A]. inversion A; subst. assumption. }
  destruct (add_modules_bad pre Ap Sp m lpre k t lpost post e B N Am Sl l 0 NV) as (l' & j & E1 & E2 & E3). fold log in E1. rewrite E1. cbn [s_buffer].
  eexists. exists (Node l'). split; [reflexivity|]. cbn [s_buffer]. split; [apply dget_dset_eq|]. split; [|split; [|reflexivity]].
  - rewrite E3. destruct (dget id (s_buffer s)) as [y|]; [subst y; reflexivity|]. injection El as <-. reflexivity.
  - intros j0 Hj. apply dget_dset_neq. exact Hj.
Qed.
