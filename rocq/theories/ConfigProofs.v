From Coq Require Import ZArith Lia.
From Verif Require Import Py PyStr Monad ModelConfig SpecConfig.
Local Open Scope string_scope.
Local Open Scope list_scope.
Local Open Scope nat_scope.

(** sorting *)
Lemma keys_kinsert {A} k (v : A) d x : In x (dkeys (kinsert k v d)) <-> x = k \/ In x (dkeys d).
Proof.
  induction d as [|[k' v'] r IH]; cbn [kinsert dkeys map fst In]; [intuition|]. destruct (String.leb k k'); cbn [dkeys map fst In]; [intuition|]. unfold dkeys in IH. rewrite IH. intuition.
Qed.
Lemma dget_kinsert {A} k (v : A) d x : ~ In k (dkeys d) -> dget x (kinsert k v d) = if eqb x k then Some v else dget x d.
Proof.
  induction d as [|[k' v'] r IH]; cbn [kinsert]; [reflexivity|]. intros N. destruct (String.leb k k'); [reflexivity|]. cbn [dget]. rewrite IH by (intros X; apply N; right; exact X).
  destruct (eqb_spec x k) as [E|E]; [|reflexivity]. rewrite (eqb_neq x k'); [reflexivity|]. intros E'. apply N. left. cbn. congruence.
Qed.
Lemma keys_ksort {A} (d : dict string A) x : In x (dkeys (ksort d)) <-> In x (dkeys d).
Proof. induction d as [|[k v] r IH]; [reflexivity|]. cbn [ksort]. rewrite keys_kinsert, IH. cbn. intuition. Qed.
Lemma dget_ksort {A} (d : dict string A) x : NoDup (dkeys d) -> dget x (ksort d) = dget x d.
Proof.
  induction d as [|[k v] r IH]; [reflexivity|]. cbn [dkeys map fst]. intros N. apply NoDup_cons_iff in N as [N1 N2]. cbn [ksort dget]. rewrite dget_kinsert by (rewrite keys_ksort; exact N1). rewrite IH by exact N2. reflexivity.
Qed.
Lemma nodup_kinsert {A} k (v : A) d : ~ In k (dkeys d) -> NoDup (dkeys d) -> NoDup (dkeys (kinsert k v d)).
Proof.
  induction d as [|[k' v'] r IH]; cbn [kinsert]; [intros _ _; repeat constructor; intros []|]. intros N D. destruct (String.leb k k'); [constructor; assumption|].
  cbn [dkeys map fst] in D |- *. apply NoDup_cons_iff in D as [D1 D2]. constructor.
  - intros X. apply (keys_kinsert k v r k') in X as [->|X]; [apply N; left; reflexivity|apply D1, X].
  - apply IH; [intros X; apply N; right; exact X|exact D2].
Qed.
Lemma nodup_ksort {A} (d : dict string A) : NoDup (dkeys d) -> NoDup (dkeys (ksort d)).
Proof.
  induction d as [|[k v] r IH]; [auto|]. cbn [dkeys map fst ksort]. intros N. apply NoDup_cons_iff in N as [N1 N2]. apply nodup_kinsert; [rewrite keys_ksort; exact N1|apply IH, N2].
Qed.
(** asdict *)
Lemma fields_keys {A B} (get : A -> res B) fs a l : fields_of get fs a = Ok l -> dkeys l = fs.
Proof.
  revert l. induction fs as [|f r IH]; intros l; cbn [fields_of]; [intros [= <-]; reflexivity|]. destruct (match dget f a with Some v => get v | None => Err AttributeError end) as [v|e]; cbn [bind]; [|discriminate].
  destruct (fields_of get r a) as [l'|e]; cbn [bind]; [|discriminate]. intros [= <-]. cbn [dkeys map fst]. f_equal. apply IH. reflexivity.
Qed.
Lemma fields_get {A B} (get : A -> res B) fs a l f : fields_of get fs a = Ok l -> In f fs -> exists v w, dget f a = Some v /\ get v = Ok w /\ dget f l = Some w.
Proof.
  revert l. induction fs as [|f0 r IH]; intros l; [intros _ []|]. cbn [fields_of]. destruct (dget f0 a) as [v0|] eqn:E; [|discriminate]. destruct (get v0) as [w0|e] eqn:G; cbn [bind]; [|discriminate].
  destruct (fields_of get r a) as [l'|e]; cbn [bind]; [|discriminate]. intros [= <-] Hf. cbn [dget]. destruct (eqb_spec f f0) as [->|N]; [exists v0, w0; auto|].
  destruct Hf as [->|Hf]; [congruence|]. exact (IH l' eq_refl Hf).
Qed.
Lemma fields_ok {A B} (get : A -> res B) fs a : (forall f, In f fs -> exists v w, dget f a = Some v /\ get v = Ok w) -> exists l, fields_of get fs a = Ok l.
Proof.
  induction fs as [|f r IH]; intros G; [eexists; reflexivity|]. cbn [fields_of]. destruct (G f (or_introl eq_refl)) as (v & w & -> & ->). destruct IH as [l ->]; [intros x Hx; apply G; right; exact Hx|]. eexists. reflexivity.
Qed.
(** loading *)
Lemma load_sec_ok d : forall a, NoDup (dkeys d) -> (forall k v, In (k, v) d -> is_dict v = false) ->
  exists a', load_sec d a = (a', Ok tt) /\ forall j, dget j a' = match dget j d with Some v => Some v | None => dget j a end.
Proof.
  induction d as [|[k v] r IH]; intros a N P; [exists a; split; reflexivity|]. cbn [dkeys map fst] in N. apply NoDup_cons_iff in N as [N1 N2]. cbn [load_sec]. rewrite (P k v (or_introl eq_refl)).
  destruct (IH (dset k v a) N2) as (a' & E & G); [intros x y Hx; apply (P x y); right; exact Hx|]. exists a'. split; [exact E|]. intros j. rewrite G. cbn [dget]. rewrite dget_dset.
  destruct (eqb_spec j k) as [->|Ne]; [|reflexivity]. rewrite (proj2 (dget_None_keys k r) N1). reflexivity.
Qed.
Lemma load_step c f k v : fits c k v -> exists c1, updated c [(k, v)] c1 /\ forall d, load_dict ((k, v) :: d) (c, f) = load_dict d (c1, f).
Proof.
  assert (X : forall w, is_dict w = false -> updated c [(k, w)] (dset k (V w) c)).
  { intros w Hw x. cbn [dget]. destruct (eqb_spec x k) as [->|N].
    - destruct w; try discriminate Hw; apply dget_dset_eq.
    - apply dget_dset_neq, N. }
  destruct v as [|b|z|l|s|l|x]; intros Ft; try (eexists; split; [apply X; reflexivity|reflexivity]).
  destruct Ft as (N & (fl & a & E) & P). destruct (load_sec_ok x a N P) as (a' & E' & G). exists (dset k (Sec fl a') c). split.
  - intros y. cbn [dget]. destruct (eqb_spec y k) as [->|Ne]; [|apply dget_dset_neq, Ne]. exists fl, a, a'. split; [exact E|]. split; [apply dget_dset_eq|exact G].
  - intros d. cbn [load_dict]. unfold sbind. cbn [fst]. unfold getattr. rewrite E, E'. reflexivity.
Qed.
Lemma fits_other c k v c1 k' v' : k <> k' -> updated c [(k, v)] c1 -> fits c k' v' -> fits c1 k' v'.
Proof.
  intros N U Ft. destruct v' as [| | | | | |x]; try exact Logic.I. destruct Ft as (A & (f & a & E) & P). split; [exact A|]. split; [|exact P]. exists f, a. rewrite <- E. specialize (U k'). cbn [dget] in U. rewrite (eqb_neq k' k) in U by congruence. exact U.
Qed.
Lemma load_ok d : forall c f, NoDup (dkeys d) -> (forall k v, In (k, v) d -> fits c k v) -> exists c', updated c d c' /\ forall d2, load_dict (d ++ d2) (c, f) = load_dict d2 (c', f).
Proof.
  induction d as [|[k v] r IH]; intros c f N P.
  { exists c. split; [intros k; reflexivity|]. reflexivity. }
  cbn [dkeys map fst] in N. apply NoDup_cons_iff in N as [N1 N2].
  destruct (load_step c f k v (P k v (or_introl eq_refl))) as (c1 & U1 & E1).
  destruct (IH c1 f N2) as (c' & U & E).
  { intros k' v' Hk. apply (fits_other c k v); [|exact U1|apply P; right; exact Hk]. intros ->. apply N1. change k' with (fst (k', v')). apply in_map, Hk. }
  exists c'. split.
  - intros x. specialize (U x). specialize (U1 x). cbn [dget] in U1 |- *. destruct (eqb_spec x k) as [Ex|Ne].
    + rewrite Ex in *. rewrite (proj2 (dget_None_keys k r) N1) in U. rewrite U. exact U1.
    + destruct (dget x r) as [[| | | | | |y]|]; try exact U; [|rewrite U; exact U1]. destruct U as (fl & a & a' & H1 & H2 & H3). exists fl, a, a'. rewrite <- U1. auto.
  - intros d2. cbn [app]. rewrite E1. apply E.
Qed.
(** configure_log_dir *)
Lemma locate c r p fl a f : dget "root_dir" c = Some (V (PStr r)) -> dget "project" c = Some (V (PStr p)) -> dget "logging" c = Some (Sec fl a) -> (join r p <> "" \/ In "" (f_dirs f)) ->
  exists c' f', configure_log_dir (c, f) = ((c', f'), Ok tt) /\ located c r p c' /\ with_dir (join r p) f f'.
Proof.
  intros R P L D. unfold configure_log_dir, sbind, sget, lift, getattr, set_cfg. cbn [fst snd]. rewrite R, P, L. cbn [join_v fst snd]. set (d := join r p) in *.
  assert (X : located c r p (dset "logging" (Sec fl (dset "log_dir" (PStr d) a)) (dset "log_dir" (V (PStr d)) c))).
  { repeat split; auto.
    - rewrite dget_dset_neq by discriminate. apply dget_dset_eq.
    - exists fl, a, (dset "log_dir" (PStr d) a). split; [exact L|]. split; [apply dget_dset_eq|]. intros j. rewrite dget_dset. reflexivity.
    - intros k N1 N2. rewrite !dget_dset_neq by assumption. reflexivity. }
  destruct (mem d (f_dirs f)) eqn:M.
  - eexists _, f. split; [reflexivity|]. split; [exact X|]. split; [reflexivity|]. intros x. apply mem_In in M. split; [auto|intros [->|Y]; auto].
  - destruct (String.eqb_spec d "") as [E|E]; [exfalso; destruct D as [D|D]; [exact (D E)|]; rewrite <- E in D; apply mem_In in D; congruence|].
    eexists _, _. split; [reflexivity|]. split; [exact X|]. split; [reflexivity|]. intros x. cbn [f_dirs In]. split; intros [Y|Y]; auto.
Qed.
