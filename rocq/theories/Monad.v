(** State plus exceptions: an operation returns the state it leaves behind also when it raises. *)
From Verif Require Import Py.

Definition SM (S A : Type) := S -> S * res A.
Definition sret {S A} (a : A) : SM S A := fun s => (s, Ok a).
Definition sfail {S A} (e : exn) : SM S A := fun s => (s, Err e).
Definition lift {S A} (r : res A) : SM S A := fun s => (s, r).
Definition sget {S} : SM S S := fun s => (s, Ok s).
Definition sput {S} (s : S) : SM S unit := fun _ => (s, Ok tt).
Definition sbind {S A B} (m : SM S A) (f : A -> SM S B) : SM S B :=
  fun s => match m s with (s', Ok a) => f a s' | (s', Err e) => (s', Err e) end.
Notation "'let!' x ':=' m 'in' k" := (sbind m (fun x => k))
  (at level 200, x pattern, m at level 100, k at level 200).
Notation "m ;; k" := (sbind m (fun _ => k)) (at level 100, k at level 200, right associativity).

(** a [for] loop *)
Fixpoint seach {S A} (f : A -> SM S unit) (l : list A) : SM S unit :=
  match l with [] => sret tt | a :: r => f a ;; seach f r end.

Lemma sbind_ok {S A B} (m : SM S A) (f : A -> SM S B) s s' b :
  sbind m f s = (s', Ok b) <-> exists s1 a, m s = (s1, Ok a) /\ f a s1 = (s', Ok b).
Proof.
  unfold sbind. destruct (m s) as [s1 [a|e]]; split.
  - intros E. eauto.
  - intros (s2 & a' & [= <- <-] & E). exact E.
  - discriminate.
  - intros (s2 & a' & E & _). discriminate.
Qed.
Lemma sbind_run {S A B} (m : SM S A) (f : A -> SM S B) s s1 a : m s = (s1, Ok a) -> sbind m f s = f a s1.
Proof. unfold sbind. intros ->. reflexivity. Qed.
Lemma sbind_err {S A B} (m : SM S A) (f : A -> SM S B) s s1 e : m s = (s1, Err e) -> sbind m f s = (s1, Err e).
Proof. unfold sbind. intros ->. reflexivity. Qed.
Lemma seach_app {S A} (f : A -> SM S unit) l1 l2 s :
  seach f (l1 ++ l2) s = (seach f l1 ;; seach f l2) s.
Proof.
  revert s. induction l1 as [|a l IH]; intros s; [reflexivity|]. cbn [app seach]. unfold sbind in *.
  destruct (f a s) as [s1 [u|e]]; [apply IH|reflexivity].
Qed.
