(** Proofs about single records, collation of different structures, and stray files. *)
From Verif Require Import Py PyStr ModelMmap ModelLoader ModelSaver SpecStore SpecDamage SpecRecord StoreProofs1 StoreProofs2 StoreProofs10.
From Coq Require Import Lia Permutation.
Local Open Scope nat_scope.

Lemma at_path_nil {A} (x : nd A) : at_path x [] = Some x.
Proof. destruct x; reflexivity. Qed.
Lemma at_path_cons {A} (l : list (string * nd A)) k r : at_path (Node l) (k :: r) = match dget k l with Some y => at_path y r | None => None end.
Proof. reflexivity. Qed.
Lemma at_path_leaf {A} (a : A) k r : at_path (Leaf a) (k :: r) = None.
Proof. reflexivity. Qed.

Lemma nd_set_two {A} k k2 r (v : A) cur : nd_set (k :: k2 :: r) v cur =
  match dget k cur with
  | None => let* sub := nd_set (k2 :: r) v [] in Ok (dset k (Node sub) cur)
  | Some (Node l) => let* sub := nd_set (k2 :: r) v l in Ok (dset k (Node sub) cur)
  | Some (Leaf _) => Err TypeError
  end.
Proof. reflexivity. Qed.

Lemma nd_set_spec {A} (r : list string) (v : A) : r <> [] -> forall cur,
  (forall cur', nd_set r v cur = Ok cur' ->
     at_path (Node cur') r = Some (Leaf v) /\
     (forall p w, at_path (Node cur') p = Some (Leaf w) -> p = r \/ at_path (Node cur) p = Some (Leaf w)) /\
     (forall p w, ~ above r p -> at_path (Node cur) p = Some (Leaf w) -> at_path (Node cur') p = Some (Leaf w))) /\
  (forall e, nd_set r v cur = Err e -> exists q w, below q r /\ at_path (Node cur) q = Some (Leaf w)) /\
  (forall q w, below q r -> at_path (Node cur) q = Some (Leaf w) -> exists e, nd_set r v cur = Err e).
Proof.
  induction r as [|k [|k2 r] IH]; intros Hr cur; [contradiction| |].
  - split; [|split].
    + intros cur' E. cbn in E. injection E as <-. split; [rewrite at_path_cons, dget_dset_eq; apply at_path_nil|]. split.
      * intros [|j p] w E; [discriminate|]. rewrite at_path_cons in *. destruct (eqb_spec j k) as [->|N].
        -- rewrite dget_dset_eq in E. destruct p; [left; reflexivity|rewrite at_path_leaf in E; discriminate].
        -- rewrite dget_dset_neq in E by exact N. right. exact E.
      * intros [|j p] w Nu E; [discriminate|]. rewrite at_path_cons in *. destruct (eqb_spec j k) as [->|N].
        -- exfalso. apply Nu. exists p. reflexivity.
        -- rewrite dget_dset_neq by exact N. exact E.
    + intros e E. discriminate.
    + intros q w (j & l & E) E2. destruct q as [|x q]; [discriminate|]. destruct q; discriminate E.
  - assert (G : forall l, (forall p w, at_path (Node l) p = Some (Leaf w) -> at_path (Node cur) (k :: p) = Some (Leaf w)) ->
       (forall p w, at_path (Node cur) (k :: p) = Some (Leaf w) -> at_path (Node l) p = Some (Leaf w)) ->
       nd_set (k :: k2 :: r) v cur = (let* sub := nd_set (k2 :: r) v l in Ok (dset k (Node sub) cur)) ->
       (forall cur', nd_set (k :: k2 :: r) v cur = Ok cur' ->
     at_path (Node cur') (k :: k2 :: r) = Some (Leaf v) /\
     (forall p w, at_path (Node cur') p = Some (Leaf w) -> p = k :: k2 :: r \/ at_path (Node cur) p = Some (Leaf w)) /\
     (forall p w, ~ above (k :: k2 :: r) p -> at_path (Node cur) p = Some (Leaf w) -> at_path (Node cur') p = Some (Leaf w))) /\
  (forall e, nd_set (k :: k2 :: r) v cur = Err e -> exists q w, below q (k :: k2 :: r) /\ at_path (Node cur) q = Some (Leaf w)) /\
  (forall q w, below q (k :: k2 :: r) -> at_path (Node cur) q = Some (Leaf w) -> exists e, nd_set (k :: k2 :: r) v cur = Err e)).
    { intros l L1 L2 E0. destruct (IH ltac:(discriminate) l) as (I1 & I2 & I3). rewrite E0. split; [|split].
      - intros cur' E. destruct (nd_set (k2 :: r) v l) as [sub|e] eqn:Es; cbn [bind] in E; [|discriminate]. injection E as <-.
        destruct (I1 sub eq_refl) as (J1 & J2 & J3). split; [rewrite at_path_cons, dget_dset_eq; exact J1|]. split.
        + intros [|j p] w E; [discriminate|]. rewrite at_path_cons in E. destruct (eqb_spec j k) as [->|N].
          * rewrite dget_dset_eq in E. destruct (J2 p w E) as [->|E2]; [left; reflexivity|]. right. apply L1. exact E2.
          * rewrite dget_dset_neq in E by exact N. right. exact E.
        + intros [|j p] w Nu E; [discriminate|]. rewrite at_path_cons. destruct (eqb_spec j k) as [->|N].
          * rewrite dget_dset_eq. apply J3; [|apply L2; exact E]. intros (x & ->). apply Nu. exists x. reflexivity.
          * rewrite dget_dset_neq by exact N. exact E.
      - intros e E. destruct (nd_set (k2 :: r) v l) as [sub|e'] eqn:Es; cbn [bind] in E; [discriminate|].
        destruct (I2 _ eq_refl) as (q & w & (j & z & Eq) & Hq). exists (k :: q), w. split; [exists j, z; rewrite Eq; reflexivity|apply L1; exact Hq].
      - intros q w (j & z & Eq) Hq. destruct q as [|x q]; [discriminate|]. cbn [app] in Eq. injection Eq as <- Eq.
        destruct (I3 q w) as (e & Ee); [exists j, z; exact Eq|apply L2; exact Hq|]. rewrite Ee. exists e. reflexivity. }
    rewrite nd_set_two in G. destruct (dget k cur) as [[a|l]|] eqn:Dk.
    + rewrite nd_set_two, Dk. split; [discriminate|]. split.
      * intros e _. exists [k], a. split; [exists k2, r; reflexivity|]. rewrite at_path_cons, Dk. apply at_path_nil.
      * intros q w _ _. eexists. reflexivity.
    + rewrite nd_set_two, Dk. apply (G l); [| |reflexivity]; intros p w E; rewrite at_path_cons, Dk in *; exact E.
    + rewrite nd_set_two, Dk. apply (G []); [| |reflexivity]; intros p w E.
      * destruct p; discriminate.
      * rewrite at_path_cons, Dk in E. discriminate.
Qed.

(** What the dictionary holds after some paths were written. *)
Definition held {A} (acc : list (string * nd A)) (done : list (list string * A)) : Prop :=
  (forall q, In q (map fst done) -> exists p w, above p q /\ at_path (Node acc) p = Some (Leaf w)) /\
  (forall p w, at_path (Node acc) p = Some (Leaf w) -> In p (map fst done)) /\
  (forall pre q a post, done = pre ++ (q, a) :: post -> (forall r, In r (map fst post) -> ~ above r q) -> at_path (Node acc) q = Some (Leaf a)).
Lemma held_nil {A} : @held A [] [].
Proof. split; [intros q []|]. split; [intros [|] w E; discriminate|]. intros [|] q a post E; discriminate. Qed.
Lemma above_trans p q r : above p q -> above q r -> above p r.
Proof. intros (a & ->) (b & ->). exists (a ++ b). rewrite app_assoc. reflexivity. Qed.
Lemma above_below p q r : above p q -> below q r -> below p r.
Proof. intros (a & ->) (k & b & ->). destruct a as [|x a]; [exists k, b; rewrite app_nil_r; reflexivity|]. exists x, (a ++ k :: b). rewrite <- app_assoc. reflexivity. Qed.
Lemma above_dec r q : above r q \/ ~ above r q.
Proof.
  revert q. induction r as [|k r IH]; intros q; [left; exists q; reflexivity|]. destruct q as [|j q]; [right; intros (l & E); discriminate|].
  destruct (string_dec k j) as [->|N]; [|right; intros (l & E); injection E as -> _; contradiction]. destruct (IH q) as [(l & ->)|N]; [left; exists l; reflexivity|].
  right. intros (l & E). injection E as ->. apply N. exists l. reflexivity.
Qed.
Lemma held_set {A} (acc : list (string * nd A)) done r v : held acc done -> r <> [] ->
  ((forall q, In q (map fst done) -> ~ below q r) -> exists acc', nd_set r v acc = Ok acc' /\ held acc' (done ++ [(r, v)])) /\
  ((exists q, In q (map fst done) /\ below q r) -> exists e, nd_set r v acc = Err e).
Proof.
  intros (H1 & H2 & H3) Hr. destruct (nd_set_spec r v Hr acc) as (S1 & S2 & S3). split.
  - intros Nb. destruct (nd_set r v acc) as [acc'|e] eqn:E.
    + exists acc'. split; [reflexivity|]. destruct (S1 _ eq_refl) as (T1 & T2 & T3). split; [|split].
      * intros q Iq. rewrite map_app in Iq. apply in_app_or in Iq. destruct Iq as [Iq|[<-|[]]].
        -- destruct (H1 q Iq) as (p & w & Up & Hp). destruct (above_dec r p) as [U|N].
           ++ exists r, v. split; [eapply above_trans; eassumption|exact T1].
           ++ exists p, w. split; [exact Up|]. apply T3; assumption.
        -- exists r, v. split; [exists []; cbn; rewrite app_nil_r; reflexivity|exact T1].
      * intros p w Hp. rewrite map_app. apply in_or_app. destruct (T2 p w Hp) as [->|Hp']; [right; left; reflexivity|left; eapply H2; exact Hp'].
      * intros pre q a post Ed Np. destruct (exists_last (l := (q, a) :: post) ltac:(discriminate)) as (m & z & Em).
        rewrite Em, app_assoc in Ed. apply app_inj_tail in Ed. destruct Ed as [Ed <-]. destruct m as [|y m].
        -- cbn in Em. injection Em as -> -> _. exact T1.
        -- cbn in Em. injection Em as <- Em. apply T3.
           ++ apply Np. rewrite Em, map_app. apply in_or_app. right. left. reflexivity.
           ++ apply (H3 pre q a m Ed). intros x Ix. apply Np. rewrite Em, map_app. apply in_or_app. left. exact Ix.
    + exfalso. destruct (S2 e eq_refl) as (q & w & Bq & Hq). exact (Nb q (H2 q w Hq) Bq).
  - intros (q & Iq & Bq). destruct (H1 q Iq) as (p & w & Up & Hp). exact (S3 p w (above_below _ _ _ Up Bq) Hp).
Qed.

Definition cut (flat : array) (start : nat) (sh : list nat) : array :=
  Arr sh (a_dtype flat) (firstn (prod sh * itemsize (a_dtype flat)) (skipn (start * itemsize (a_dtype flat)) (a_bytes flat))).
Lemma unflatten_ok flat n sh start : a_shape flat = [n] -> sh <> [] -> start + prod sh <= n -> unflatten_tensor flat sh start = Ok (cut flat start sh, start + prod sh).
Proof.
  intros E Hs L. unfold unflatten_tensor, reduce_mul. destruct sh as [|x sh]; [contradiction|]. cbn [bind]. rewrite E. replace (prod [n]) with n by (cbn; lia).
  rewrite Nat.min_l by lia. rewrite Nat.eqb_refl. reflexivity.
Qed.
Lemma unflatten_empty flat start : unflatten_tensor flat [] start = Err TypeError.
Proof. reflexivity. Qed.
Lemma unflatten_over flat n sh start : a_shape flat = [n] -> sh <> [] -> start <= n -> n < start + prod sh -> unflatten_tensor flat sh start = Err RuntimeError.
Proof.
  intros E Hs L1 L. unfold unflatten_tensor, reduce_mul. destruct sh as [|x sh]; [contradiction|]. cbn [bind]. rewrite E. replace (prod [n]) with n by (cbn; lia).
  rewrite Nat.min_r by lia. destruct (Nat.eqb_spec (n - start) (prod (x :: sh))); [lia|reflexivity].
Qed.
Fixpoint pieces (flat : array) (start : nat) (ps : list (list string)) (ss : list (list nat)) : list (list string * array) :=
  match ps, ss with p :: ps, s :: ss => (p, cut flat start s) :: pieces flat (start + prod s) ps ss | _, _ => [] end.
Lemma pieces_fst flat ps : forall start ss, length ss = length ps -> map fst (pieces flat start ps ss) = ps.
Proof. induction ps as [|p ps IH]; intros start [|s ss] L; cbn in *; try lia; [reflexivity|]. f_equal. apply IH. lia. Qed.
Lemma elements_cons s ss : elements (s :: ss) = prod s + elements ss.
Proof. reflexivity. Qed.
Lemma unflatten_prefix flat n : a_shape flat = [n] -> forall ps ss start acc done, length ss = length ps -> Forall (fun s => s <> []) ss -> start + elements ss <= n -> held acc done ->
  (forall pre q post, ps = pre ++ q :: post -> q <> [] /\ forall r, In r (map fst done ++ pre) -> ~ below r q) ->
  exists acc', held acc' (done ++ pieces flat start ps ss) /\ forall ps2 ss2, unflatten_all flat (ps ++ ps2) (ss ++ ss2) start acc = unflatten_all flat ps2 ss2 (start + elements ss) acc'.
Proof.
  intros En. induction ps as [|p ps IH]; intros [|s ss] start acc done L Fs Le Hh Hp; cbn [length] in L; try lia.
  - exists acc. cbn [pieces]. rewrite app_nil_r. split; [exact Hh|]. intros ps2 ss2. cbn. rewrite Nat.add_0_r. reflexivity.
  - rewrite elements_cons in Le. destruct (Hp [] p ps eq_refl) as [Np Nb]. rewrite app_nil_r in Nb.
    destruct (held_set acc done p (cut flat start s) Hh Np) as [HS _]. destruct (HS Nb) as (acc1 & E1 & H1).
    destruct (IH ss (start + prod s) acc1 (done ++ [(p, cut flat start s)])) as (acc' & H' & E').
    + lia.
    + exact (Forall_inv_tail Fs).
    + lia.
    + exact H1.
    + intros pre q post ->. destruct (Hp (p :: pre) q post eq_refl) as [Nq Bq]. split; [exact Nq|]. intros r Ir. apply Bq. rewrite map_app in Ir. cbn [map fst] in Ir. rewrite <- app_assoc in Ir. exact Ir.
    + exists acc'. cbn [pieces]. split; [rewrite <- app_assoc in H'; exact H'|]. intros ps2 ss2. cbn [app unflatten_all].
      rewrite (unflatten_ok flat n s start En (Forall_inv Fs)) by lia. cbn [bind]. rewrite E1. cbn [bind]. rewrite E', elements_cons. f_equal. lia.
Qed.

Lemma record_read ds i id e mm : record_at ds i id e mm -> get_record ds i = Ok (id, mm, e).
Proof. intros (c & E1 & E2). unfold get_record. rewrite E1, E2. reflexivity. Qed.
Lemma block_flat mm e : e_offset e + e_block e * itemsize (e_dtype e) <= length mm -> get_flatten_item mm (e_offset e) (e_block e) (e_dtype e) = Ok (block_of mm e).
Proof.
  intros L. unfold get_flatten_item. destruct (Nat.leb_spec (e_offset e + e_block e * itemsize (e_dtype e)) (length mm)); [|lia]. unfold block_of, piece. replace (prod [e_block e]) with (e_block e) by (cbn; lia). rewrite Nat.mul_0_l, Nat.add_0_r. reflexivity.
Qed.
Lemma cut_block mm e start sh : start + prod sh <= e_block e -> cut (block_of mm e) start sh = piece mm e start sh.
Proof.
  intros L. unfold cut, block_of, piece. cbn [a_dtype a_bytes]. f_equal. rewrite skipn_firstn_comm, skipn_skipn, firstn_firstn. f_equal; [|f_equal; lia].
  replace (prod [e_block e]) with (e_block e) by (cbn; lia). nia.
Qed.
Theorem short_record ds i id e mm : record_at ds i id e mm -> length mm < e_offset e + e_block e * itemsize (e_dtype e) -> get_nested ds i = Err TypeError /\ get_flat ds i = Err TypeError.
Proof.
  intros R L. unfold get_nested, get_flat. rewrite (record_read _ _ _ _ _ R). cbn [bind]. unfold get_flatten_item.
  destruct (Nat.leb_spec (e_offset e + e_block e * itemsize (e_dtype e)) (length mm)); [lia|]. split; reflexivity.
Qed.
Theorem flat_record ds i id e mm : record_at ds i id e mm -> e_offset e + e_block e * itemsize (e_dtype e) <= length mm -> get_flat ds i = Ok (id, block_of mm e).
Proof. intros R L. unfold get_flat. rewrite (record_read _ _ _ _ _ R). cbn [bind]. rewrite (block_flat _ _ L). reflexivity. Qed.
Lemma list_sum_le (ss1 ss2 : list (list nat)) : elements (ss1 ++ ss2) = elements ss1 + elements ss2.
Proof. unfold elements. rewrite map_app, list_sum_app. reflexivity. Qed.
Theorem bad_record ds i id e mm ps p ps' ss rest : record_at ds i id e mm -> e_offset e + e_block e * itemsize (e_dtype e) <= length mm ->
  e_path e = ps ++ p :: ps' -> e_shape e = ss ++ rest -> sound ps ss (e_block e) ->
  (rest = [] -> get_nested ds i = Err IndexError) /\
  (forall sh rest', rest = sh :: rest' ->
     (sh = [] -> get_nested ds i = Err TypeError) /\
     (sh <> [] -> e_block e < elements ss + prod sh -> get_nested ds i = Err RuntimeError) /\
     (sh <> [] -> elements ss + prod sh <= e_block e -> p = [] -> get_nested ds i = Err IndexError) /\
     (sh <> [] -> elements ss + prod sh <= e_block e -> (exists q, In q ps /\ below q p) -> exists x, get_nested ds i = Err x)).
Proof.
  intros R L Ep Es (Ll & Fs & Le & Hp). set (flat := block_of mm e).
  assert (En : a_shape flat = [e_block e]) by reflexivity.
  destruct (unflatten_prefix flat (e_block e) En ps ss 0 [] [] Ll Fs ltac:(lia) held_nil) as (acc & Hh & Eu).
  { intros pre q post E. destruct (Hp pre q post E) as [N B]. split; [exact N|]. intros r Ir. exact (B r Ir). }
  cbn [app] in Hh.
  assert (G : forall x, unflatten_all flat (p :: ps') rest (elements ss) acc = Err x -> get_nested ds i = Err x).
  { intros x Ex. unfold get_nested. rewrite (record_read _ _ _ _ _ R). cbn [bind]. rewrite (block_flat _ _ L). cbn [bind]. fold flat. rewrite Ep, Es, Eu. cbn [Nat.add]. rewrite Ex. reflexivity. }
  split; [intros ->; apply G; reflexivity|]. intros sh rest' ->. repeat split.
  - intros ->. apply G. reflexivity.
  - intros Ns Lo. apply G. cbn [unflatten_all]. rewrite (unflatten_over flat _ _ _ En Ns) by lia. reflexivity.
  - intros Ns Lo ->. apply G. cbn [unflatten_all]. rewrite (unflatten_ok flat _ _ _ En Ns) by lia. reflexivity.
  - intros Ns Lo (q & Iq & Bq). assert (Np : p <> []) by (intros ->; destruct Bq as (k & l & E); destruct q; discriminate).
    destruct (held_set acc _ p (cut flat (elements ss) sh) Hh Np) as [_ HS]. destruct HS as (x & Ex).
    { exists q. split; [|exact Bq]. rewrite pieces_fst by exact Ll. exact Iq. }
    exists x. apply G. cbn [unflatten_all]. rewrite (unflatten_ok flat _ _ _ En Ns) by lia. cbn [bind]. rewrite Ex. reflexivity.
Qed.
Lemma pieces_nth flat ps : forall start ss j p sh, nth_error ps j = Some p -> nth_error ss j = Some sh ->
  exists pre post, pieces flat start ps ss = pre ++ (p, cut flat (start + elements (firstn j ss)) sh) :: post /\ length pre = j.
Proof.
  induction ps as [|p0 ps IH]; intros start [|s ss] [|j] p sh E1 E2; cbn in E1, E2; try discriminate.
  - injection E1 as ->. injection E2 as ->. exists [], (pieces flat (start + prod sh) ps ss). cbn. rewrite Nat.add_0_r. split; reflexivity.
  - destruct (IH (start + prod s) ss j p sh E1 E2) as (pre & post & E & Lp). exists ((p0, cut flat start s) :: pre), post. cbn [pieces firstn]. rewrite E, elements_cons, Nat.add_assoc. split; [reflexivity|cbn; lia].
Qed.
Lemma elements_firstn ss : forall j sh, nth_error ss j = Some sh -> elements (firstn j ss) + prod sh <= elements ss.
Proof. induction ss as [|s ss IH]; intros [|j] sh E; cbn in E; try discriminate; cbn [firstn]; rewrite ?elements_cons; [injection E as ->; unfold elements at 1; cbn; lia|]. specialize (IH _ _ E). lia. Qed.
Theorem sound_record ds i id e mm ss rest : record_at ds i id e mm -> e_offset e + e_block e * itemsize (e_dtype e) <= length mm ->
  e_shape e = ss ++ rest -> sound (e_path e) ss (e_block e) ->
  (elements ss <> e_block e -> get_nested ds i = Err AssertionError) /\
  (elements ss = e_block e -> exists x, get_nested ds i = Ok (id, x) /\
     forall j p sh, nth_error (e_path e) j = Some p -> nth_error ss j = Some sh -> (forall k q, j < k -> nth_error (e_path e) k = Some q -> ~ above q p) ->
       at_path x p = Some (Leaf (piece mm e (elements (firstn j ss)) sh))).
Proof.
  intros R L Es (Ll & Fs & Le & Hp). set (flat := block_of mm e).
  assert (En : a_shape flat = [e_block e]) by reflexivity.
  destruct (unflatten_prefix flat (e_block e) En (e_path e) ss 0 [] [] Ll Fs ltac:(lia) held_nil) as (acc & Hh & Eu).
  { intros pre q post E. destruct (Hp pre q post E) as [N B]. split; [exact N|]. intros r Ir. exact (B r Ir). }
  cbn [app] in Hh. specialize (Eu [] rest). rewrite app_nil_r in Eu. cbn [unflatten_all Nat.add] in Eu.
  unfold get_nested. rewrite (record_read _ _ _ _ _ R). cbn [bind]. rewrite (block_flat _ _ L). cbn [bind]. fold flat. rewrite Es, Eu. cbn [bind]. split.
  - intros N. destruct (Nat.eqb_spec (e_block e) (elements ss)); [congruence|reflexivity].
  - intros E. destruct (Nat.eqb_spec (e_block e) (elements ss)); [|congruence]. eexists. split; [reflexivity|]. intros j p sh Ej Esh Nl.
    destruct (pieces_nth flat (e_path e) 0 ss j p sh Ej Esh) as (pre & post & Epc & Lpre). destruct Hh as (_ & _ & H3). cbn [Nat.add] in Epc.
    rewrite <- (cut_block mm e (elements (firstn j ss)) sh) by (pose proof (elements_firstn ss j sh Esh); lia). fold flat. apply (H3 _ _ _ _ Epc).
    intros r Ir. apply In_nth_error in Ir. destruct Ir as (k & Ek). apply (Nl (j + S k) r); [lia|].
    rewrite <- (pieces_fst flat (e_path e) 0 ss Ll), Epc, map_app. rewrite nth_error_app2 by (rewrite map_length; lia). rewrite map_length, Lpre. replace (j + S k - j) with (S k) by lia. cbn. exact Ek.
Qed.

(** ---- collation ---- *)
Section Collate.
  Context {A B : Type} (stack : list A -> res B).
  Fixpoint skel {X} (x : nd X) : nd unit := match x with Leaf _ => Leaf tt | Node l => Node (map (fun kv => (fst kv, skel (snd kv))) l) end.
  Lemma skel_init (x : nd A) : skel (init_collate x) = skel x.
  Proof.
    induction x as [a|l IH] using nd_ind'; [reflexivity|]. cbn [init_collate skel]. f_equal. induction l as [|[k v] l IHl]; [reflexivity|]. cbn [map fst snd]. pose proof (Forall_inv IH) as E0. cbn [snd] in E0. rewrite E0. f_equal. apply IHl. exact (Forall_inv_tail IH).
  Qed.
  Lemma skel_node {X Y} (x : nd X) (f : list (string * nd Y)) : skel x = skel (Node f) -> exists l, x = Node l /\ map (fun kv => (fst kv, skel (snd kv))) l = map (fun kv => (fst kv, skel (snd kv))) f.
  Proof. destruct x as [a|l]; cbn; intros E; [discriminate|]. injection E as E. exists l. split; [reflexivity|exact E]. Qed.
  Lemma skel_leaf {X Y} (x : nd X) (b : Y) : skel x = skel (Leaf b) -> exists a, x = Leaf a.
  Proof. destruct x as [a|l]; cbn; intros E; [eexists; reflexivity|discriminate]. Qed.
  Lemma dget_skel {X} k (l : list (string * nd X)) : dget k (map (fun kv => (fst kv, skel (snd kv))) l) = option_map skel (dget k l).
  Proof. induction l as [|[j v] l IH]; [reflexivity|]. cbn [map fst snd dget]. destruct (eqb k j); [reflexivity|exact IH]. Qed.
  Lemma dset_skel {X} k (s t : nd X) (l : list (string * nd X)) : dget k l = Some s -> skel t = skel s -> map (fun kv => (fst kv, skel (snd kv))) (dset k t l) = map (fun kv => (fst kv, skel (snd kv))) l.
  Proof.
    intros D E. induction l as [|[j v] l IH]; [discriminate|]. cbn [dget] in D. cbn [dset]. destruct (eqb k j) eqn:K.
    - injection D as ->. cbn [map fst snd]. rewrite E. destruct (eqb_spec k j); [subst; reflexivity|discriminate].
    - cbn [map fst snd]. f_equal. apply IH. exact D.
  Qed.
  Fixpoint go (items : list (string * nd A)) (acc : nd (list A)) : res (nd (list A)) :=
    match items with
    | [] => Ok acc
    | (k, v) :: r =>
        match acc with
        | Leaf _ => Err TypeError
        | Node l =>
            let* sub := dgetM k l in
            match v with
            | Node _ => let* sub' := merge_dicts v sub in go r (Node (dset k sub' l))
            | Leaf a => match sub with Leaf xs => go r (Node (dset k (Leaf (xs ++ [a])) l)) | Node _ => Err AttributeError end
            end
        end
    end.
  Lemma merge_node items acc : merge_dicts (Node items) acc = go items acc.
  Proof. reflexivity. Qed.
  Lemma fits_tail kv (l : list (string * nd A)) f : fits (Node (kv :: l)) (Node f) -> (exists g, dget (fst kv) f = Some g /\ fits (snd kv) g) /\ fits (Node l) (Node f).
  Proof. intros E. inversion E as [| |? ? Hk]; subst. split; [destruct kv as [k v]; apply Hk; left; reflexivity|]. constructor. intros k v I. apply Hk. right. exact I. Qed.
  Lemma place k (l : list (string * nd (list A))) (f : list (string * nd A)) g : map (fun kv => (fst kv, skel (snd kv))) l = map (fun kv => (fst kv, skel (snd kv))) f -> dget k f = Some g ->
    exists s, dget k l = Some s /\ skel s = skel g.
  Proof.
    intros E D. pose proof (dget_skel k l) as D1. rewrite E, dget_skel, D in D1. cbn in D1. destruct (dget k l) as [s|]; cbn in D1; [|discriminate]. injection D1 as D1. exists s. split; [reflexivity|congruence].
  Qed.
  Lemma no_place k (l : list (string * nd (list A))) (f : list (string * nd A)) : map (fun kv => (fst kv, skel (snd kv))) l = map (fun kv => (fst kv, skel (snd kv))) f -> dget k f = None -> dget k l = None.
  Proof. intros E D. pose proof (dget_skel k l) as D1. rewrite E, dget_skel, D in D1. cbn in D1. destruct (dget k l); [discriminate|reflexivity]. Qed.
  Definition merges (v : nd A) : Prop := forall items, v = Node items -> forall f acc, fits (Node items) f -> skel acc = skel f -> exists acc', merge_dicts (Node items) acc = Ok acc' /\ skel acc' = skel f.
  Lemma go_step l f acc r : Forall (fun kv => merges (snd kv)) l -> fits (Node l) (Node f) -> skel acc = skel (Node f) -> exists acc', skel acc' = skel (Node f) /\ go (l ++ r) acc = go r acc'.
  Proof.
    revert acc. induction l as [|[k v] l IH]; intros acc FM Hf Ha; [exists acc; split; [exact Ha|reflexivity]|].
    destruct (fits_tail _ _ _ Hf) as [(g & Dg & Fg) Ft]. cbn [fst snd] in Dg, Fg. destruct (skel_node _ _ Ha) as (d & -> & Ed). destruct (place k d f g Ed Dg) as (s & Ds & Ss).
    cbn [app go]. unfold dgetM. rewrite Ds. cbn [bind]. destruct v as [a|items].
    - inversion Fg; subst. destruct (skel_leaf _ _ Ss) as (xs & ->). apply IH; [exact (Forall_inv_tail FM)|exact Ft|]. cbn [skel]. f_equal. rewrite <- Ed. apply (dset_skel k (Leaf xs)); [exact Ds|reflexivity].
    - destruct (Forall_inv FM items eq_refl g s Fg Ss) as (s' & Es & Ss'). cbn [snd] in Es. rewrite Es. cbn [bind]. apply IH; [exact (Forall_inv_tail FM)|exact Ft|]. cbn [skel]. f_equal. rewrite <- Ed. apply (dset_skel k s); [exact Ds|congruence].
  Qed.
  Lemma merges_all v : merges v.
  Proof.
    induction v as [a|l IH] using nd_ind'; intros items E f acc Hf Ha; [discriminate|]. injection E as <-. rewrite merge_node. destruct f as [b|f].
    - inversion Hf; subst. exists acc. split; [reflexivity|exact Ha].
    - destruct (go_step l f acc [] IH Hf Ha) as (acc' & Ha' & E). rewrite app_nil_r in E. rewrite E. exists acc'. split; [reflexivity|exact Ha'].
  Qed.
  Lemma all_merges (l : list (string * nd A)) : Forall (fun kv => merges (snd kv)) l.
  Proof. apply Forall_forall. intros kv _. apply merges_all. Qed.
  Lemma clash_merge v : forall k post (d : list (string * nd (list A))) f e, map (fun kv => (fst kv, skel (snd kv))) d = map (fun kv => (fst kv, skel (snd kv))) f -> clash v (dget k f) e -> go ((k, v) :: post) (Node d) = Err e.
  Proof.
    induction v as [a|l IH] using nd_ind'; intros k post d f e Ed Hc; cbn [go]; unfold dgetM; destruct (dget k f) as [g|] eqn:Dg.
    - inversion Hc; subst. destruct (place k d f _ Ed Dg) as (s & Ds & Ss). rewrite Ds. cbn [bind]. destruct (skel_node _ _ Ss) as (x & -> & _). reflexivity.
    - inversion Hc; subst. rewrite (no_place k d f Ed Dg). reflexivity.
    - destruct (place k d f _ Ed Dg) as (s & Ds & Ss). rewrite Ds. cbn [bind]. inversion Hc; subst.
      + destruct (skel_leaf _ _ Ss) as (x & ->). rewrite merge_node. destruct kv. reflexivity.
      + match goal with M : misfit _ _ _ |- _ => inversion M; subst end. destruct (skel_node _ _ Ss) as (x & -> & Ex). rewrite merge_node.
        destruct (go_step pre f0 (Node x) ((k0, v) :: post0) (all_merges pre)) as (acc' & Ha & Eg); [assumption|cbn [skel]; congruence|]. rewrite Eg.
        destruct (skel_node _ _ Ha) as (d' & -> & Ed'). apply Forall_app in IH. destruct IH as [_ IH]. pose proof (Forall_inv IH k0 post0 d' f0 e Ed') as E0. cbn [snd] in E0. rewrite E0 by assumption. reflexivity.
    - inversion Hc; subst. rewrite (no_place k d f Ed Dg). reflexivity.
  Qed.
  Lemma misfit_merge (l f : list (string * nd A)) e acc : misfit l f e -> skel acc = skel (Node f) -> merge_dicts (Node l) acc = Err e.
  Proof.
    intros M Ha. inversion M; subst. rewrite merge_node. destruct (go_step pre f acc ((k, v) :: post) (all_merges pre)) as (acc' & Ha' & Eg); [assumption|exact Ha|]. rewrite Eg.
    destruct (skel_node _ _ Ha') as (d & -> & Ed). apply (clash_merge v k post d f e Ed). assumption.
  Qed.
  Theorem collate_misfit id0 f good id l rest e : Forall (fun x : did * nd A => fits (snd x) (Node f)) ((id0, Node f) :: good) -> misfit l f e ->
    collate_nested_dicts stack ((id0, Node f) :: good ++ (id, Node l) :: rest) = Err e.
  Proof.
    intros G M. unfold collate_nested_dicts. set (b := (id0, Node f) :: good) in *. change ((id0, Node f) :: good ++ (id, Node l) :: rest) with (b ++ (id, Node l) :: rest). clearbody b.
    assert (K : forall acc, skel acc = skel (Node f) -> foldM (fun acc x => merge_dicts (snd x) acc) (b ++ (id, Node l) :: rest) acc = Err e).
    { induction G as [|x b Fx G IH]; intros acc Ha; cbn [app foldM].
      - cbn [snd]. rewrite (misfit_merge l f e acc M Ha). reflexivity.
      - destruct (snd x) as [a|items] eqn:Ex; [inversion Fx|]. destruct (merges_all (Node items) items eq_refl _ acc Fx Ha) as (acc' & Em & Ha'). rewrite Em. cbn [bind]. apply IH. exact Ha'. }
    rewrite K; [reflexivity|]. apply (skel_init (Node f)).
  Qed.
End Collate.
Theorem loader_misfit ds k items cs id0 f good id l rest cs' e : all_nested ds = Ok items ->
  chunks k items = cs ++ ((id0, Node f) :: good ++ (id, Node l) :: rest) :: cs' -> Forall (fun c => exists r, collate_nested_dicts stack_arrays c = Ok r) cs ->
  Forall (fun x : did * nd array => fits (snd x) (Node f)) ((id0, Node f) :: good) -> misfit l f e -> dataloader ds k = Err e.
Proof.
  intros E1 E2 Fc G M. unfold dataloader. rewrite E1. cbn [bind]. rewrite E2. clear E2. induction Fc as [|c cs (r & Er) Fc IH]; cbn [app mapM].
  - rewrite (collate_misfit stack_arrays id0 f good id l rest e G M). reflexivity.
  - rewrite Er. cbn [bind]. rewrite IH. reflexivity.
Qed.

(** ---- stray files ---- *)
Lemma copy_index r c s : copy_suffix s -> chunk_index_of (copy_name r c s) = chunk_index_of (chunk_file r c).
Proof.
  intros Hs. change (chunk_file r c) with (cfile (r, c)). unfold chunk_index_of.
  assert (E : copy_name r c s = (("log_" ++ chunk_idx (r, c)) ++ (s ++ ".mmap"))%string) by (unfold copy_name, chunk_idx; cbn [fst snd]; rewrite !sapp_assoc; reflexivity).
  destruct (chunk_idx_last (r, c)) as (l & x & El & D). destruct (digit_not_in x D) as (N1 & _ & _).
  assert (E2 : chars ("log_" ++ chunk_idx (r, c)) = (chars "log_" ++ l) ++ [x]) by (rewrite chars_app, El, app_assoc; reflexivity).
  rewrite E, (rstrip_app_stop _ _ _ _ _ E2 N1).
  - rewrite cfile_eq, <- sapp_assoc. rewrite (rstrip_app_stop _ _ _ _ _ E2 N1) by reflexivity. reflexivity.
  - apply forallb_forall. intros y Iy. apply in_rev in Iy. rewrite chars_app in Iy. apply in_app_or in Iy.
    assert (Iy' : In y (chars ".map")) by (destruct Iy as [Iy|Iy]; [exact (Hs y Iy)|cbn in Iy |- *; intuition]). cbn in Iy'. intuition; subst; reflexivity.
Qed.
Lemma copy_is_chunk r c s : is_chunk_file (copy_name r c s) = true.
Proof.
  unfold is_chunk_file, copy_name. apply andb_true_intro. split.
  - replace ("log_rank_" ++ dec r ++ "_chunk_" ++ dec c ++ s ++ ".mmap")%string with (("log_rank_" ++ dec r ++ "_chunk_" ++ dec c ++ s) ++ ".mmap")%string by (rewrite !sapp_assoc; reflexivity). apply endswith_app.
  - reflexivity.
Qed.
Theorem copy_read r c s d l1 l2 : copy_suffix s -> open_dataset d (l1 ++ copy_name r c s :: l2) = open_dataset d (l1 ++ chunk_file r c :: l2).
Proof.
  intros Hs. unfold open_dataset, find_chunk_indices. rewrite !filter_app. cbn [filter]. rewrite copy_is_chunk.
  replace (is_chunk_file (chunk_file r c)) with true by (symmetry; apply (is_chunk_file_cfile (r, c))). rewrite !map_app. cbn [map]. rewrite (copy_index r c s Hs). reflexivity.
Qed.
Lemma fetch_missing d s k : dget (chunk_file (fst k) (snd k)) d = None -> fetch_one d s (chunk_idx k) = Err FileNotFoundError.
Proof. intros G. unfold fetch_one. rewrite sapp_assoc. unfold read. rewrite <- cfile_eq, data_name_cfile. unfold cfile. rewrite G. reflexivity. Qed.
Theorem copy_alone r c s d others : copy_suffix s -> (forall n, In n others -> ~ exists mid, n = ("log_" ++ mid ++ ".mmap")%string) -> dget (chunk_file r c) d = None ->
  open_dataset d (copy_name r c s :: others) = Err FileNotFoundError.
Proof.
  intros Hs Ho G. pose proof (copy_read r c s d [] others Hs) as E. cbn [app] in E. rewrite E.
  destruct (open_found d (chunk_file r c :: others) [(r, c)] others) as (sorted & P & _ & Eo).
  - repeat constructor. intros [].
  - exact Ho.
  - apply Permutation_refl.
  - apply Permutation_length_1_inv in P. subst sorted. rewrite Eo. cbn [map foldM]. rewrite (fetch_missing d _ (r, c) G). reflexivity.
Qed.

(** ---- keys that are missing ---- *)
Lemma write_samples_map order (f g : did * array -> did * nd array) : (forall x, fst (f x) = fst (g x)) -> (forall x k, In k order -> get_from_nested_dict (snd (f x)) k = get_from_nested_dict (snd (g x)) k) ->
  forall l mm off meta, write_samples order (map f l) mm off meta = write_samples order (map g l) mm off meta.
Proof.
  intros E1 E2. induction l as [|x l IH]; intros mm off meta; [reflexivity|]. cbn [map]. specialize (E1 x) as E1x. specialize (fun k => E2 x k) as E2x. destruct (f x) as [i u], (g x) as [j v]. cbn [fst snd] in E1x, E2x. subst j. cbn [write_samples].
  assert (K : forall o s, incl o order -> write_keys u o s = write_keys v o s).
  { induction o as [|k o IHo]; intros s I; [reflexivity|]. cbn [write_keys]. unfold write_key. rewrite (E2x k (I k (or_introl eq_refl))).
    match goal with |- match ?a with _ => _ end = _ => destruct a end; [|reflexivity]. apply IHo. intros y Iy. apply I. right. exact Iy. }
  rewrite (K order _ (incl_refl _)). destruct (write_keys v order _) as [mm' [s|e]]; [|reflexivity]. destruct (w_dt s); [apply IH|reflexivity].
Qed.
Theorem write_skips d f m t (recs : list (did * array)) : m <> t ->
  write d f (map (fun x => (fst x, Node [(t, Leaf (snd x))])) recs) [[m; t]] = write d f (map (fun x => (fst x, Node [(m, Node [(t, Leaf (snd x))])])) recs) [[m; t]].
Proof.
  intros N. unfold write.
  assert (T : total_size (map (fun x : did * array => (fst x, Node [(t, Leaf (snd x))])) recs) = total_size (map (fun x : did * array => (fst x, Node [(m, Node [(t, Leaf (snd x))])])) recs)).
  { unfold total_size. rewrite !map_map. reflexivity. }
  rewrite T. destruct (Nat.eqb _ 0); [reflexivity|].
  rewrite (write_samples_map [[m; t]] (fun x => (fst x, Node [(t, Leaf (snd x))])) (fun x => (fst x, Node [(m, Node [(t, Leaf (snd x))])]))); [reflexivity|reflexivity|].
  intros x k [<-|[]]. cbn [snd].
  assert (K : forall (j : string) (y : nd array), dget j [(j, y)] = Some y) by (intros j y; cbn [dget]; destruct (eqb_spec j j); [reflexivity|contradiction]).
  assert (Z : dget m [(t, Leaf (snd x))] = None) by (cbn [dget]; destruct (eqb_spec m t); [contradiction|reflexivity]).
  cbn [get_from_nested_dict]. rewrite Z, !K. reflexivity.
Qed.
