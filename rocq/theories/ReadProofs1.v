(** Lemmas: the reads of a log or a state attribute, and the simulation between the two models of the influence
    functions. *)
From Verif Require Import Py PyStr Field Tensor ModelGrad Monad ModelState ModelInfluence ModelReads SpecInfluence.
From Verif Require Import StateProofs1 InfProofs1 InfProofs2 InfProofs16.
Local Open Scope nat_scope.

Section ReadProofs1.
  Context {F : Type} `{OField F}.
  Notation tensor := (tensor F).
  Notation sval := (@sval F).
  Notation lstate := (@lstate F).
  Notation dten := (@dten F).
  Notation world := (@world F).
  Notation logs := (list (bool * nd sval)).

  Lemma nth_error_upd_same {A} (l : list A) k a x : nth_error l k = Some x -> nth_error (upd l k a) k = Some a.
  Proof. unfold upd. revert k. induction l as [|y l IH]; intros [|k] E; try discriminate; [reflexivity|]. apply IH. exact E. Qed.
  Lemma nth_error_upd_other {A} (l : list A) k j a x : nth_error l k = Some x -> j <> k -> nth_error (upd l k a) j = nth_error l j.
  Proof.
    unfold upd. revert k j. induction l as [|y l IH]; intros [|k] [|j] E N; try discriminate; try reflexivity; try congruence.
    cbn [firstn skipn app nth_error]. apply IH; [exact E|congruence].
  Qed.
  Lemma upd_same {A} (l : list A) k x : nth_error l k = Some x -> upd l k x = l.
  Proof. unfold upd. revert k. induction l as [|y l IH]; intros [|k] E; try discriminate; [injection E as ->; reflexivity|]. cbn [firstn skipn app]. f_equal. apply IH. exact E. Qed.
  Lemma upd_len {A} (l : list A) k a x : nth_error l k = Some x -> length (upd l k a) = length l.
  Proof. unfold upd. revert k. induction l as [|y l IH]; intros [|k] E; try discriminate; [reflexivity|]. cbn [firstn skipn app length]. f_equal. apply IH. exact E. Qed.

  Definition item_of (x : nd sval) (m t : string) : res (nd sval) := let* y := nd_item x m in nd_item y t.
  Lemma getitem_val (x : nd sval) k : snd (getitem true x k) = nd_item x k.
  Proof. destruct x as [v|d]; [reflexivity|]. cbn [getitem nd_item]. destruct (dget k d); reflexivity. Qed.
  Lemma getitem2_val (x : nd sval) m t : snd (getitem2 true x m t) = item_of x m t.
  Proof.
    unfold getitem2, item_of. pose proof (getitem_val x m) as E. destruct (getitem true x m) as [x' [y|e]]; cbn [snd] in E; rewrite <- E; cbn [bind snd]; [|reflexivity].
    rewrite <- getitem_val. destruct (getitem true y t). reflexivity.
  Qed.
  (** a tensor was there before the read *)
  Lemma getitem2_leaf b (x : nd sval) m t v : item_of x m t = Ok (Leaf v) -> getitem2 b x m t = (x, Ok (Leaf v)).
  Proof.
    unfold getitem2, item_of. destruct x as [w|d]; [discriminate|]. cbn [nd_item getitem bind]. destruct (dget m d) as [y|] eqn:E; [|discriminate].
    destruct y as [w|e]; [discriminate|]. cbn [nd_item getitem]. destruct (dget t e) as [z|] eqn:E2; [|discriminate]. intros [= ->].
    rewrite (dset_same m (Node e) d E). reflexivity.
  Qed.
  Lemma getitem2_plain (x : nd sval) m t : item_of x m t <> Err TypeError -> getitem2 false x m t = (x, item_of x m t) \/ getitem2 false x m t = (x, Err KeyError).
  Proof.
    unfold getitem2, item_of. destruct x as [w|d]; [cbn; congruence|]. cbn [nd_item getitem bind]. destruct (dget m d) as [y|] eqn:E; [|auto].
    destruct y as [w|e]; [cbn; congruence|]. cbn [nd_item getitem]. destruct (dget t e); rewrite (dset_same m (Node e) d E); auto.
  Qed.
  Lemma item_of_look (L : @tlog F) m t : item_of (log_nd L) m t = Ok (match look L m t with Some d => Leaf (VT d) | None => Node [] end).
  Proof. unfold item_of. rewrite log_nd_item. cbn [bind]. rewrite leafs_item. unfold look. destruct (dget m L) as [e|]; [|reflexivity]. destruct (dget t e); reflexivity. Qed.

  (** what a read of log [r] does *)
  Lemma read_run r m t (w : world) b x : nth_error (w_logs w) r = Some (b, x) ->
    read r m t w = (World (w_st w) (upd (w_logs w) r (b, fst (getitem2 b x m t))), snd (getitem2 b x m t)).
  Proof.
    intros E. unfold read, logs_at, sbind, write_log, lift. rewrite E. cbn [fst snd]. destruct (getitem2 b x m t) as [y o]. cbn [fst snd]. destruct o; reflexivity.
  Qed.
  Lemma read_hit r m t (w : world) b x v : nth_error (w_logs w) r = Some (b, x) -> item_of x m t = Ok (Leaf v) -> read r m t w = (w, Ok (Leaf v)).
  Proof. intros E G. rewrite (read_run r m t w b x E), (getitem2_leaf b x m t v G). cbn [fst snd]. rewrite (upd_same _ _ _ E). destruct w. reflexivity. Qed.
  Lemma read_len r m t (w : world) b x : nth_error (w_logs w) r = Some (b, x) -> length (w_logs (fst (read r m t w))) = length (w_logs w).
  Proof. intros E. rewrite (read_run r m t w b x E). cbn [fst w_logs]. exact (upd_len _ _ _ _ E). Qed.
  Lemma attr_same a x (s : lstate) : dget a (attrs s) = Some x -> set_attr a x s = (s, Ok tt).
  Proof. intros E. unfold set_attr. rewrite (dset_same a x _ E). destruct s. reflexivity. Qed.

  (** [g], in the model with objects, follows [f]: when [f] returns, [g] does, and [R] relates what they leave and
      return; when [f] raises, [g] raises the same exception, or KeyError if [K] allows it. *)
  Definition tracks (K : Prop) {A B} (R : lstate -> A -> world -> B -> Prop) (f : lstate * res A) (g : world * res B) : Prop :=
    match f with
    | (s, Ok a) => exists w b, g = (w, Ok b) /\ R s a w b
    | (_, Err e) => exists w e', g = (w, Err e') /\ (e' = e \/ (K /\ e' = KeyError))
    end.
  Definition same (L : logs) {A} (s : lstate) (a : A) (w : world) (b : A) : Prop := w = World s L /\ b = a.
  Lemma tr_bind K {A B C D} (R : lstate -> A -> world -> B -> Prop) (R' : lstate -> C -> world -> D -> Prop) (f : SM lstate A) f' (g : SM world B) g' s w :
    tracks K R (f s) (g w) -> (forall s1 a w b, f s = (s1, Ok a) -> R s1 a w b -> tracks K R' (f' a s1) (g' b w)) -> tracks K R' (sbind f f' s) (sbind g g' w).
  Proof.
    unfold tracks at 1, sbind. destruct (f s) as [s1 [a|e]].
    - intros (w1 & b & -> & HR) X. apply X; [reflexivity|exact HR].
    - intros (w1 & e' & -> & He) _. exists w1, e'. auto.
  Qed.
  Lemma tr_ret K {A} (L : logs) (a : A) s : tracks K (same L) (sret a s) (sret a (World s L)).
  Proof. exists (World s L), a. split; [reflexivity|]. split; reflexivity. Qed.
  Lemma tr_lift K {A} (L : logs) (r : res A) s : tracks K (same L) (lift r s) (lift r (World s L)).
  Proof. destruct r as [a|e]; [apply tr_ret|]. exists (World s L), e. auto. Qed.
  Lemma tr_fail K {A B} (R : lstate -> A -> world -> B -> Prop) e s w : tracks K R (sfail e s) (sfail e w).
  Proof. exists w, e. auto. Qed.
  Lemma tr_on K {A} (L : logs) (f : SM lstate A) s : tracks K (same L) (f s) (on_st f (World s L)).
  Proof. unfold tracks, on_st. cbn [w_st w_logs]. destruct (f s) as [s1 [a|e]]; [exists (World s1 L), a; repeat split|exists (World s1 L), e; auto]. Qed.
  Lemma tr_mono (K : Prop) {A B} (R R' : lstate -> A -> world -> B -> Prop) f g : tracks K R f g -> (forall s a w b, R s a w b -> R' s a w b) -> tracks K R' f g.
  Proof. unfold tracks. destruct f as [s [a|e]]; [|auto]. intros (w & b & E & HR) X. exists w, b. auto. Qed.

  (** the read of a tensor *)
  Lemma tr_read_t (K : Prop) (L : logs) r b x m t s : nth_error L r = Some (b, x) -> (b = false -> K) ->
    tracks K (same L) (lift (log_item x m t) s) (read_t r m t (World s L)).
  Proof.
    intros E HK. assert (Y : log_item x m t = let* z := item_of x m t in as_dten z) by (unfold log_item, item_of; destruct (nd_item x m); reflexivity).
    rewrite Y. unfold read_t. destruct (let* z := item_of x m t in as_dten z) as [d|e] eqn:G.
    - destruct (item_of x m t) as [z|e'] eqn:G1; [|discriminate]. cbn [bind] in G. assert (z = Leaf (VT d)) as -> by (destruct z as [[]|]; try discriminate; cbn in G; congruence).
      rewrite (sbind_run _ _ _ _ _ (read_hit r m t (World s L) b x (VT d) E G1)). apply tr_ret.
    - cbn [lift tracks]. unfold sbind. rewrite (read_run r m t (World s L) b x E). cbn [w_st w_logs].
      assert (Z : snd (getitem2 b x m t) = item_of x m t \/ (K /\ snd (getitem2 b x m t) = Err KeyError)).
      { destruct b; [left; apply getitem2_val|]. destruct (item_of x m t) as [z|[]] eqn:G1.
        1: destruct (getitem2_plain x m t) as [X|X]; [rewrite G1; discriminate|rewrite X, G1; auto|rewrite X; auto].
        all: try (destruct (getitem2_plain x m t) as [X|X]; [rewrite G1; discriminate|rewrite X, G1; auto|rewrite X; auto]).
        all: left; revert G1; unfold item_of, getitem2; destruct x as [v|d]; [reflexivity|]; cbn [nd_item getitem bind];
          destruct (dget m d) as [[v|e0]|]; try discriminate; reflexivity. }
      destruct (snd (getitem2 b x m t)) as [z|e'].
      + destruct Z as [Z|[_ Z]]; [|discriminate]. rewrite <- Z in G. cbn [bind] in G. unfold lift. rewrite G. eexists; eexists; split; [reflexivity|auto].
      + destruct Z as [Z|[k Z]]; [rewrite <- Z in G; cbn [bind] in G; injection G as <-; eexists; eexists; split; [reflexivity|auto]|injection Z as ->; eexists; eexists; split; [reflexivity|auto]].
  Qed.
  (** the read of a tensor of the state *)
  Lemma tr_item2_t K (L : logs) a x m t s : dget a (attrs s) = Some x -> tracks K (same L) (lift (log_item x m t) s) (on_st (item2_t a m t) (World s L)).
  Proof.
    intros E. assert (Y : log_item x m t = let* z := item_of x m t in as_dten z) by (unfold log_item, item_of; destruct (nd_item x m); reflexivity).
    rewrite Y. unfold on_st. cbn [w_st w_logs]. unfold item2_t, item2.
    assert (R : forall (s : lstate), dget a (attrs s) = Some x -> sbind (sbind (attr a) (fun x => let (y, o) := getitem2 true x m t in set_attr a y ;; lift o)) (fun z => lift (as_dten z)) s =
      (fst (set_attr a (fst (getitem2 true x m t)) s), let* z := item_of x m t in as_dten z)).
    { intros s0 E0. unfold sbind, attr. rewrite E0. rewrite <- getitem2_val. destruct (getitem2 true x m t) as [y o]. cbn [fst snd]. unfold set_attr, lift. destruct o; reflexivity. }
    rewrite (R s E). destruct (let* z := item_of x m t in as_dten z) as [d|e] eqn:G; cbn [lift tracks]; [|eexists; eexists; split; [reflexivity|auto]].
    destruct (item_of x m t) as [z|e'] eqn:G1; [|discriminate]. cbn [bind] in G. assert (z = Leaf (VT d)) as -> by (destruct z as [[]|]; try discriminate; cbn in G; congruence).
    rewrite (getitem2_leaf true x m t (VT d) G1). cbn [fst]. rewrite (attr_same a x s E). cbn [fst]. exists (World s L), d. repeat split.
  Qed.
End ReadProofs1.
