(** Python run-time vocabulary shared by all models: exceptions as values,
    insertion-ordered dictionaries, nested dictionaries.
    This file models the Python language, not a file of /repo. *)
From Coq Require Export String Ascii ZArith Lia Bool Arith List.
Export ListNotations.
Open Scope list_scope.
Open Scope nat_scope.

(** Exceptions that the modelled code can raise. [CollectiveMismatch] stands for a
    collective (all_reduce) whose participants disagree, i.e. a hang or a backend error. *)
Inductive exn :=
| AssertionError | KeyError | AttributeError | TypeError | ValueError | IndexError
| NotImplementedError | FileNotFoundError | StopIteration | UnboundLocalError
| RuntimeError | InvalidModuleError | JSONDecodeError | CollectiveMismatch.

Inductive res (A : Type) :=
| Ok (a : A)
| Err (e : exn).
Arguments Ok {A} a.
Arguments Err {A} e.

Definition bind {A B} (r : res A) (f : A -> res B) : res B :=
  match r with Ok a => f a | Err e => Err e end.
Notation "'let*' x ':=' r 'in' k" := (bind r (fun x => k))
  (at level 200, x pattern, r at level 100, k at level 200, right associativity).

Definition is_ok {A} (r : res A) : bool := match r with Ok _ => true | Err _ => false end.

(** Monadic list traversals (Python for-loops that may raise). *)
Fixpoint mapM {A B} (f : A -> res B) (l : list A) : res (list B) :=
  match l with
  | [] => Ok []
  | a :: r => let* b := f a in let* bs := mapM f r in Ok (b :: bs)
  end.

Fixpoint foldM {A S} (f : S -> A -> res S) (l : list A) (s : S) : res S :=
  match l with
  | [] => Ok s
  | a :: r => let* s' := f s a in foldM f r s'
  end.

(** Keys with decidable equality (Python [==] on hashable keys). *)
Class Eqb (K : Type) := {
  eqb : K -> K -> bool;
  eqb_spec : forall x y, reflect (x = y) (eqb x y)
}.

Global Instance Eqb_string : Eqb string := {| eqb := String.eqb; eqb_spec := String.eqb_spec |}.
Global Instance Eqb_nat : Eqb nat := {| eqb := Nat.eqb; eqb_spec := Nat.eqb_spec |}.

Lemma eqb_refl {K} `{Eqb K} (x : K) : eqb x x = true.
Proof. destruct (eqb_spec x x); congruence. Qed.

Lemma eqb_neq {K} `{Eqb K} (x y : K) : x <> y -> eqb x y = false.
Proof. destruct (eqb_spec x y); congruence. Qed.

(** [mem x l] is Python's [x in l] for a list. *)
Fixpoint mem {K} `{Eqb K} (x : K) (l : list K) : bool :=
  match l with [] => false | y :: r => if eqb x y then true else mem x r end.

Lemma mem_In {K} `{Eqb K} (x : K) l : mem x l = true <-> In x l.
Proof.
  induction l as [|y r IH]; cbn [mem In].
  - split; [discriminate | tauto].
  - destruct (eqb_spec x y) as [E|E].
    + subst; tauto.
    + rewrite IH. split; [tauto|]. intros [E'|E']; [congruence|exact E'].
Qed.

Lemma mem_false {K} `{Eqb K} (x : K) l : mem x l = false <-> ~ In x l.
Proof. rewrite <- mem_In. destruct (mem x l); split; congruence. Qed.

(** Insertion-ordered dictionaries. *)
Section Dict.
  Context {K V : Type} `{Eqb K}.

  Definition dict := list (K * V).

  Fixpoint dget (k : K) (d : dict) : option V :=
    match d with
    | [] => None
    | (k', v) :: r => if eqb k k' then Some v else dget k r
    end.

  (** [d[k] = v]: keeps the position of an existing key, appends a new one. *)
  Fixpoint dset (k : K) (v : V) (d : dict) : dict :=
    match d with
    | [] => [(k, v)]
    | (k', v') :: r => if eqb k k' then (k', v) :: r else (k', v') :: dset k v r
    end.

  Definition dkeys (d : dict) : list K := map fst d.
  Definition dvals (d : dict) : list V := map snd d.
  Definition dmem (k : K) (d : dict) : bool :=
    match dget k d with Some _ => true | None => false end.
  (** [d[k]] on a plain dict. *)
  Definition dgetM (k : K) (d : dict) : res V :=
    match dget k d with Some v => Ok v | None => Err KeyError end.

  Lemma dget_dset_eq k v d : dget k (dset k v d) = Some v.
  Proof.
    induction d as [|[k' v'] r IH]; cbn [dset dget].
    - rewrite eqb_refl. reflexivity.
    - destruct (eqb k k') eqn:E; cbn [dget]; rewrite E; auto.
  Qed.

  Lemma dget_dset_neq k k' v d : k <> k' -> dget k (dset k' v d) = dget k d.
  Proof.
    intros N. induction d as [|[k2 v2] r IH]; cbn [dset dget].
    - rewrite (eqb_neq k k'); auto.
    - destruct (eqb_spec k' k2) as [E|E]; cbn [dget].
      + subst. rewrite (eqb_neq k k2); auto.
      + rewrite IH. reflexivity.
  Qed.

  Lemma dget_dset k k' v d :
    dget k (dset k' v d) = if eqb k k' then Some v else dget k d.
  Proof.
    destruct (eqb_spec k k') as [E|E].
    - subst. apply dget_dset_eq.
    - apply dget_dset_neq; auto.
  Qed.

  Lemma dget_In_keys k d : (exists v, dget k d = Some v) <-> In k (dkeys d).
  Proof.
    induction d as [|[k' v'] r IH]; cbn [dget dkeys map fst In].
    - split; [intros [v Hv]; discriminate | tauto].
    - destruct (eqb_spec k k') as [E|E].
      + subst. split; eauto.
      + rewrite IH. unfold dkeys. split; [tauto|]. intros [E'|E']; [congruence|exact E'].
  Qed.

  Lemma dget_None_keys k d : dget k d = None <-> ~ In k (dkeys d).
  Proof.
    rewrite <- dget_In_keys. destruct (dget k d) eqn:E.
    - split; [discriminate|]. intros N. exfalso; eauto.
    - split; [intros _ [v Hv]; discriminate|auto].
  Qed.

  Lemma dkeys_dset_in k v d : In k (dkeys d) -> dkeys (dset k v d) = dkeys d.
  Proof.
    induction d as [|[k' v'] r IH]; cbn [dset dkeys map fst In]; [tauto|].
    intros HI. destruct (eqb_spec k k') as [E|E]; cbn [map fst]; [reflexivity|].
    f_equal. apply IH. destruct HI; [congruence|assumption].
  Qed.

  Lemma dset_notin k v d : ~ In k (dkeys d) -> dset k v d = d ++ [(k, v)].
  Proof.
    induction d as [|[k' v'] r IH]; cbn [dset dkeys map fst In app]; [reflexivity|].
    intros HI. rewrite (eqb_neq k k') by (intros E; apply HI; auto).
    f_equal. apply IH. tauto.
  Qed.

  Lemma dkeys_dset_notin k v d : ~ In k (dkeys d) -> dkeys (dset k v d) = dkeys d ++ [k].
  Proof. intros N. rewrite dset_notin by assumption. unfold dkeys. rewrite map_app. reflexivity. Qed.

  Lemma In_dkeys_dset k k' v d : In k (dkeys (dset k' v d)) <-> k = k' \/ In k (dkeys d).
  Proof.
    rewrite <- !dget_In_keys. rewrite dget_dset. destruct (eqb_spec k k') as [E|E].
    - subst; split; eauto.
    - split; [tauto|]. intros [E'|E']; [congruence|assumption].
  Qed.

  Lemma NoDup_dset k v d : NoDup (dkeys d) -> NoDup (dkeys (dset k v d)).
  Proof.
    intros N. destruct (mem k (dkeys d)) eqn:M.
    - rewrite dkeys_dset_in; [assumption|]. apply mem_In; assumption.
    - apply mem_false in M. rewrite dkeys_dset_notin by assumption.
      apply NoDup_rev in N. rewrite <- (rev_involutive (dkeys d ++ [k])).
      apply NoDup_rev. rewrite rev_app_distr. cbn [rev app].
      constructor; [rewrite <- in_rev; assumption|assumption].
  Qed.

  Lemma dmem_In k d : dmem k d = true <-> In k (dkeys d).
  Proof.
    unfold dmem. rewrite <- dget_In_keys. destruct (dget k d); split; eauto; try discriminate.
    intros [v Hv]; discriminate.
  Qed.

  Lemma dget_In k v d : dget k d = Some v -> In (k, v) d.
  Proof.
    induction d as [|[k' v'] r IH]; cbn [dget In]; [discriminate|].
    destruct (eqb_spec k k') as [E|E]; intros HH.
    - inversion HH; subst; auto.
    - auto.
  Qed.

  Lemma In_dget k v d : NoDup (dkeys d) -> In (k, v) d -> dget k d = Some v.
  Proof.
    induction d as [|[k' v'] r IH]; cbn [dget In dkeys map fst]; [tauto|].
    intros N [E|I].
    - inversion E; subst. rewrite eqb_refl. reflexivity.
    - inversion N; subst. rewrite (eqb_neq k k'); auto.
      intros E; subst. apply H2. change k' with (fst (k', v)). apply in_map. assumption.
  Qed.

  Lemma dget_app k d1 d2 :
    dget k (d1 ++ d2) = match dget k d1 with Some v => Some v | None => dget k d2 end.
  Proof.
    induction d1 as [|[k' v'] r IH]; cbn [app dget]; [reflexivity|].
    destruct (eqb k k'); auto.
  Qed.
End Dict.
Arguments dict : clear implicits.

(** Nested dictionaries with string keys (e.g. the repo's [nested_dict()] logs). *)
Inductive nd (A : Type) :=
| Leaf (a : A)
| Node (l : list (string * nd A)).
Arguments Leaf {A} a.
Arguments Node {A} l.

Section NdInd.
  Context {A : Type} (P : nd A -> Prop).
  Hypothesis HL : forall a, P (Leaf a).
  Hypothesis HN : forall l, Forall (fun kv => P (snd kv)) l -> P (Node l).
  Fixpoint nd_ind' (x : nd A) : P x :=
    match x with
    | Leaf a => HL a
    | Node l => HN l ((fix go l : Forall (fun kv => P (snd kv)) l :=
                         match l with
                         | [] => Forall_nil _
                         | kv :: r => Forall_cons kv (nd_ind' (snd kv)) (go r)
                         end) l)
    end.
End NdInd.

(** General list facts. *)
Lemma mapM_ok_map {A B} (f : A -> B) l : mapM (fun a => Ok (f a)) l = Ok (map f l).
Proof. induction l as [|a r IH]; cbn [mapM map bind]; [reflexivity|]. rewrite IH. reflexivity. Qed.

Lemma mapM_ext {A B} (f g : A -> res B) l :
  (forall a, In a l -> f a = g a) -> mapM f l = mapM g l.
Proof.
  induction l as [|a r IH]; cbn [mapM]; intros E; [reflexivity|].
  rewrite E by (left; reflexivity). rewrite IH; [reflexivity|]. intros; apply E; right; assumption.
Qed.

Lemma mapM_Forall2 {A B} (f : A -> res B) l bs :
  mapM f l = Ok bs -> Forall2 (fun a b => f a = Ok b) l bs.
Proof.
  revert bs. induction l as [|a r IH]; cbn [mapM]; intros bs E.
  - inversion E. constructor.
  - destruct (f a) as [b|e] eqn:Fa; cbn [bind] in E; [|discriminate].
    destruct (mapM f r) as [bs'|e] eqn:Fr; cbn [bind] in E; [|discriminate].
    inversion E; subst. constructor; auto.
Qed.

Lemma mapM_app {A B} (f : A -> res B) l1 l2 :
  mapM f (l1 ++ l2) = let* a := mapM f l1 in let* b := mapM f l2 in Ok (a ++ b).
Proof.
  induction l1 as [|x r IH]; cbn [mapM app bind].
  - destruct (mapM f l2); reflexivity.
  - destruct (f x); cbn [bind]; [|reflexivity]. rewrite IH.
    destruct (mapM f r); cbn [bind]; [|reflexivity].
    destruct (mapM f l2); reflexivity.
Qed.

Lemma foldM_app {A S} (f : S -> A -> res S) l1 l2 s :
  foldM f (l1 ++ l2) s = let* s' := foldM f l1 s in foldM f l2 s'.
Proof.
  revert s. induction l1 as [|x r IH]; intros s; cbn [foldM app bind]; [reflexivity|].
  destruct (f s x); cbn [bind]; auto.
Qed.

Lemma foldM_ok {A S} (f : S -> A -> S) l s :
  foldM (fun s a => Ok (f s a)) l s = Ok (fold_left f l s).
Proof. revert s. induction l as [|a r IH]; intros s; cbn [foldM fold_left bind]; auto. Qed.

(** Split a list into consecutive pieces of [k] elements (last one may be shorter). *)
Fixpoint chunks_fuel {A} (fuel k : nat) (l : list A) : list (list A) :=
  match fuel with
  | O => []
  | S f => match l with
           | [] => []
           | _ => firstn k l :: chunks_fuel f k (skipn k l)
           end
  end.
Definition chunks {A} (k : nat) (l : list A) : list (list A) := chunks_fuel (length l) k l.

Lemma chunks_fuel_concat {A} fuel k (l : list A) :
  0 < k -> length l <= fuel -> concat (chunks_fuel fuel k l) = l.
Proof.
  intros Hk. revert l. induction fuel as [|f IH]; intros l Hl.
  - destruct l; [reflexivity|cbn in Hl; lia].
  - cbn [chunks_fuel]. destruct l as [|a l']; [reflexivity|].
    cbn [concat]. rewrite IH.
    + apply firstn_skipn.
    + rewrite skipn_length. cbn [length] in *. lia.
Qed.

Lemma chunks_concat {A} k (l : list A) : 0 < k -> concat (chunks k l) = l.
Proof. intros. apply chunks_fuel_concat; auto. Qed.

Lemma chunks_fuel_nonempty {A} fuel k (l : list A) :
  0 < k -> Forall (fun c => c <> []) (chunks_fuel fuel k l).
Proof.
  intros Hk. revert l. induction fuel as [|f IH]; intros l; cbn [chunks_fuel]; [constructor|].
  destruct l as [|a l']; [constructor|]. constructor; [|apply IH].
  destruct k; [lia|]. cbn. discriminate.
Qed.

Lemma Forall2_length {A B} (R : A -> B -> Prop) l1 l2 : Forall2 R l1 l2 -> length l1 = length l2.
Proof. induction 1; cbn; congruence. Qed.

Lemma skipn_skipn {A} (m n : nat) (l : list A) : skipn m (skipn n l) = skipn (m + n) l.
Proof.
  revert l. induction n as [|n IH]; intros l; [rewrite Nat.add_0_r; reflexivity|].
  rewrite Nat.add_succ_r. destruct l; cbn [skipn]; [apply skipn_nil|apply IH].
Qed.

Definition pair_eqb {A B} `{Eqb A} `{Eqb B} (x y : A * B) : bool :=
  eqb (fst x) (fst y) && eqb (snd x) (snd y).
Lemma pair_eqb_spec {A B} `{Eqb A} `{Eqb B} (x y : A * B) : reflect (x = y) (pair_eqb x y).
Proof.
  destruct x as [a b], y as [a' b']. unfold pair_eqb. cbn [fst snd].
  destruct (eqb_spec a a'), (eqb_spec b b'); cbn; constructor; congruence.
Defined.
Global Instance Eqb_pair {A B} `{Eqb A} `{Eqb B} : Eqb (A * B) :=
  {| eqb := pair_eqb; eqb_spec := pair_eqb_spec |}.

(** Number of elements of a shape. *)
Definition prod (l : list nat) : nat := fold_right Nat.mul 1 l.
