(** Python string functions used by the repo, as total functions on Coq strings.
    This file models the Python standard library (str methods, os.path.splitext,
    re, int/str conversion), not a file of /repo. Characters are 8-bit. *)
From Coq Require Import DecimalNat DecimalString DecimalFacts.
From Verif Require Import Py.
Open Scope string_scope.
Open Scope list_scope.

Definition chars (s : string) : list ascii := list_ascii_of_string s.
Definition unchars (l : list ascii) : string := string_of_list_ascii l.

Definition cmem (c : ascii) (l : list ascii) : bool := existsb (Ascii.eqb c) l.

Fixpoint drop_while {A} (f : A -> bool) (l : list A) : list A :=
  match l with [] => [] | a :: r => if f a then drop_while f r else l end.

Fixpoint span {A} (f : A -> bool) (l : list A) : list A * list A :=
  match l with
  | [] => ([], [])
  | a :: r => if f a then let '(x, y) := span f r in (a :: x, y) else ([], l)
  end.

(** [s.startswith(p)], [s.endswith(p)], [p in s] *)
Definition startswith (s p : string) : bool := String.prefix p s.
Definition endswith (s p : string) : bool :=
  String.prefix (unchars (rev (chars p))) (unchars (rev (chars s))).
Fixpoint contains (p s : string) : bool :=
  if String.prefix p s then true
  else match s with EmptyString => false | String _ r => contains p r end.

(** [s.lstrip(cs)], [s.rstrip(cs)], [s.strip(cs)]: strip a *set of characters*. *)
Definition lstrip (cs s : string) : string :=
  unchars (drop_while (fun c => cmem c (chars cs)) (chars s)).
Definition rstrip (cs s : string) : string :=
  unchars (rev (drop_while (fun c => cmem c (chars cs)) (rev (chars s)))).
Definition strip (cs s : string) : string := lstrip cs (rstrip cs s).

(** [os.path.splitext(s)] for a name without directory separators:
    split at the last dot unless only dots precede it. *)
Definition splitext (s : string) : string * string :=
  let '(ext_rev, rest) := span (fun c => negb (Ascii.eqb c ".")) (rev (chars s)) in
  match rest with
  | [] => (s, "")
  | _dot :: root_rev =>
      if existsb (fun c => negb (Ascii.eqb c ".")) root_rev
      then (unchars (rev root_rev), unchars ("."%char :: rev ext_rev))
      else (s, "")
  end.

(** [str(n)] for a natural number. *)
Definition dec (n : nat) : string := NilEmpty.string_of_uint (Nat.to_uint n).

Definition is_digit (c : ascii) : bool :=
  let n := nat_of_ascii c in (48 <=? n)%nat && (n <=? 57)%nat.

(** [int(s)] for a string of ASCII digits. *)
Definition int_of_digits (l : list ascii) : nat :=
  match NilEmpty.uint_of_string (unchars l) with
  | Some d => Nat.of_uint d
  | None => 0
  end.

(** ---------- basic lemmas ---------- *)
Lemma unchars_chars s : unchars (chars s) = s.
Proof. apply string_of_list_ascii_of_string. Qed.
Lemma chars_unchars l : chars (unchars l) = l.
Proof. apply list_ascii_of_string_of_list_ascii. Qed.
Lemma chars_app s t : chars (s ++ t)%string = chars s ++ chars t.
Proof. induction s as [|c s IH]; cbn; [reflexivity|]. f_equal. exact IH. Qed.
Lemma unchars_app l m : unchars (l ++ m) = (unchars l ++ unchars m)%string.
Proof. induction l as [|c s IH]; cbn; [reflexivity|]. f_equal. exact IH. Qed.
Lemma chars_inj s t : chars s = chars t -> s = t.
Proof. intros E. rewrite <- (unchars_chars s), <- (unchars_chars t), E. reflexivity. Qed.

Lemma string_app_assoc (a b c : string) : (a ++ (b ++ c) = (a ++ b) ++ c)%string.
Proof. induction a as [|x a IH]; cbn; [reflexivity|]. f_equal. exact IH. Qed.

Lemma prefix_app p s : String.prefix p (p ++ s)%string = true.
Proof.
  induction p as [|c p IH]; cbn; [destruct s; reflexivity|].
  destruct (ascii_dec c c) as [_|N]; [exact IH|congruence].
Qed.

Lemma prefix_spec p s : String.prefix p s = true <-> exists t, s = (p ++ t)%string.
Proof.
  split.
  - revert s. induction p as [|c p IH]; intros s H.
    + exists s. reflexivity.
    + destruct s as [|d s]; [discriminate|]. cbn in H.
      destruct (ascii_dec c d) as [E|E]; [|discriminate]. subst.
      destruct (IH _ H) as [t Ht]. exists t. cbn. f_equal. exact Ht.
  - intros [t E]. subst. apply prefix_app.
Qed.

Lemma contains_spec p s :
  contains p s = true <-> exists a b, s = (a ++ p ++ b)%string.
Proof.
  split.
  - induction s as [|c s IH]; cbn [contains].
    + destruct (String.prefix p "") eqn:E; [|discriminate]. intros _.
      apply prefix_spec in E as [t E]. exists "", t. exact E.
    + destruct (String.prefix p (String c s)) eqn:E.
      * intros _. apply prefix_spec in E as [t E]. exists "", t. exact E.
      * intros H. destruct (IH H) as (a & b & Hs). exists (String c a), b. cbn. f_equal. exact Hs.
  - intros (a & b & E). subst. induction a as [|c a IH].
    + cbn [append]. destruct (p ++ b)%string eqn:E; cbn [contains];
        rewrite <- E, prefix_app; reflexivity.
    + cbn [append contains]. rewrite IH. destruct (String.prefix _ _); reflexivity.
Qed.

Lemma contains_app_l p s t : contains p s = true -> contains p (s ++ t) = true.
Proof.
  rewrite !contains_spec. intros (a & b & E). subst. exists a, (b ++ t)%string.
  rewrite <- !string_app_assoc. reflexivity.
Qed.
Lemma contains_app_r p s t : contains p t = true -> contains p (s ++ t) = true.
Proof.
  rewrite !contains_spec. intros (a & b & E). subst. exists (s ++ a)%string, b.
  rewrite !string_app_assoc. reflexivity.
Qed.

Lemma endswith_app s p : endswith (s ++ p)%string p = true.
Proof. unfold endswith. rewrite chars_app, rev_app_distr, unchars_app. apply prefix_app. Qed.

Lemma startswith_app s p : startswith (p ++ s)%string p = true.
Proof. apply prefix_app. Qed.

Lemma drop_while_all {A} (f : A -> bool) l m :
  forallb f l = true -> drop_while f (l ++ m) = drop_while f m.
Proof.
  induction l as [|a l IH]; cbn; [reflexivity|]. intros H.
  apply andb_true_iff in H as [H1 H2]. rewrite H1. auto.
Qed.

Lemma drop_while_stop {A} (f : A -> bool) a l : f a = false -> drop_while f (a :: l) = a :: l.
Proof. cbn. intros ->. reflexivity. Qed.

Lemma span_app {A} (f : A -> bool) l m :
  forallb f l = true -> match m with [] => True | a :: _ => f a = false end ->
  span f (l ++ m) = (l, m).
Proof.
  intros H Hm. induction l as [|a l IH]; cbn [app span].
  - destruct m as [|a m]; cbn [span]; [reflexivity|]. rewrite Hm. reflexivity.
  - cbn in H. apply andb_true_iff in H as [H1 H2]. rewrite H1, (IH H2). reflexivity.
Qed.

(** ---------- decimal numerals ---------- *)
Lemma string_of_uint_digits d : forallb is_digit (chars (NilEmpty.string_of_uint d)) = true.
Proof. induction d; cbn; auto. Qed.

Lemma dec_digits n : forallb is_digit (chars (dec n)) = true.
Proof. apply string_of_uint_digits. Qed.

Lemma dec_nonempty n : chars (dec n) <> [].
Proof.
  unfold dec. intros E. assert (D : Nat.to_uint n = Decimal.Nil).
  { destruct (Nat.to_uint n); cbn in E; try discriminate. reflexivity. }
  rewrite <- (DecimalNat.Unsigned.of_to n), DecimalNat.Unsigned.to_of in D.
  exact (DecimalFacts.unorm_nonnil _ D).
Qed.

Lemma int_dec n : int_of_digits (chars (dec n)) = n.
Proof.
  unfold int_of_digits, dec. rewrite unchars_chars, NilEmpty.usu.
  apply DecimalNat.Unsigned.of_to.
Qed.

Lemma dec_inj n m : dec n = dec m -> n = m.
Proof. intros E. rewrite <- (int_dec n), <- (int_dec m), E. reflexivity. Qed.

Lemma dec_last n : exists l c, chars (dec n) = l ++ [c] /\ is_digit c = true.
Proof.
  destruct (exists_last (dec_nonempty n)) as (l & c & E). exists l, c. split; [exact E|].
  pose proof (dec_digits n) as H. rewrite E, forallb_app in H.
  apply andb_true_iff in H as [_ H]. cbn in H. rewrite andb_true_r in H. exact H.
Qed.
