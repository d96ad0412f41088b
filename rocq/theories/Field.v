(** Exact scalars. The numeric models are parameterised by an ordered field [F], so every numeric
    theorem holds for the rationals and for the real numbers. Floating point rounding is not modelled.
    This file models no file of /repo. *)
From Coq Require Export Ring Field.
From Coq Require Import QArith Qcanon.
From Verif Require Import Py.
Local Open Scope nat_scope.

Class OField (F : Type) := {
  f0 : F; f1 : F;
  fadd : F -> F -> F; fmul : F -> F -> F; fsub : F -> F -> F; fopp : F -> F;
  fdiv : F -> F -> F; finv : F -> F;
  f_theory : field_theory f0 f1 fadd fmul fsub fopp fdiv finv (@eq F);
  feq_dec : forall x y : F, x = y \/ x <> y;
  fle : F -> F -> Prop;
  fle_refl : forall x, fle x x;
  fle_trans : forall x y z, fle x y -> fle y z -> fle x z;
  fle_antisym : forall x y, fle x y -> fle y x -> x = y;
  fle_total : forall x y, fle x y \/ fle y x;
  fle_add : forall x y z, fle x y -> fle (fadd x z) (fadd y z);
  fle_mul : forall x y, fle f0 x -> fle f0 y -> fle f0 (fmul x y)
}.

Declare Scope F_scope.
Delimit Scope F_scope with F.
Infix "+" := fadd : F_scope.
Infix "*" := fmul : F_scope.
Infix "-" := fsub : F_scope.
Infix "/" := fdiv : F_scope.
Notation "- x" := (fopp x) : F_scope.
Infix "<=" := fle : F_scope.
Notation "0" := f0 : F_scope.
Notation "1" := f1 : F_scope.

(** The canonical rationals. *)
Global Program Instance OField_Qc : OField Qc := {|
  f0 := Q2Qc 0; f1 := Q2Qc 1; fadd := Qcplus; fmul := Qcmult; fsub := Qcminus; fopp := Qcopp;
  fdiv := Qcdiv; finv := Qcinv; f_theory := Qcft; fle := Qcle;
  fle_refl := Qcle_refl; fle_trans := Qcle_trans; fle_antisym := Qcle_antisym |}.
Next Obligation. destruct (Qc_eq_dec x y); auto. Qed.
Next Obligation. destruct (Qclt_le_dec x y) as [H|H]; [left; apply Qclt_le_weak; exact H|right; exact H]. Qed.
Next Obligation. apply Qcplus_le_compat; [assumption|apply Qcle_refl]. Qed.
Next Obligation.
  replace (Q2Qc 0) with (0 * y)%Qc by (apply Qcmult_0_l). apply Qcmult_le_compat_r; assumption.
Qed.

Section Facts.
  Context {F : Type} `{OField F}.
  Local Open Scope F_scope.
  Add Field Ff : f_theory.

  Lemma f1_neq_0 : (1 : F) <> 0.
  Proof. exact (F_1_neq_0 f_theory). Qed.
  Lemma fle_add2 (a b c d : F) : a <= b -> c <= d -> a + c <= b + d.
  Proof.
    intros H1 H2. apply fle_trans with (b + c); [apply fle_add; exact H1|].
    replace (b + c) with (c + b) by ring. replace (b + d) with (d + b) by ring. apply fle_add. exact H2.
  Qed.
  Lemma fle_sub (a b : F) : a <= b <-> 0 <= b - a.
  Proof.
    split; intros L.
    - apply (fle_add _ _ (- a)) in L. replace (a + - a) with (0 : F) in L by ring.
      replace (b - a) with (b + - a) by ring. exact L.
    - apply (fle_add _ _ a) in L. replace (0 + a) with a in L by ring. replace (b - a + a) with b in L by ring. exact L.
  Qed.
  Lemma fopp_nonneg (a : F) : a <= 0 -> 0 <= - a.
  Proof. intros L. apply (fle_add _ _ (- a)) in L. replace (a + - a) with (0 : F) in L by ring. replace (0 + - a) with (- a) in L by ring. exact L. Qed.
  Lemma fsq_nonneg (a : F) : 0 <= a * a.
  Proof.
    destruct (fle_total 0 a) as [L|L]; [apply fle_mul; exact L|].
    replace (a * a) with ((- a) * (- a)) by ring. apply fle_mul; apply fopp_nonneg; exact L.
  Qed.
  Lemma f1_pos : (0 : F) <= 1.
  Proof. replace (1 : F) with (1 * 1 : F) by ring. apply fsq_nonneg. Qed.
  Lemma fmul_0 (a b : F) : a * b = 0 -> a <> 0 -> b = 0.
  Proof. intros E N. transitivity (finv a * (a * b)); [field; exact N|]. rewrite E. ring. Qed.
  Lemma finv_nonneg (a : F) : 0 <= a -> a <> 0 -> 0 <= finv a.
  Proof.
    intros L N. replace (finv a) with (a * (finv a * finv a)) by (field; exact N).
    apply fle_mul; [exact L|apply fsq_nonneg].
  Qed.
  Lemma fdiv_nonneg (a b : F) : 0 <= a -> 0 <= b -> b <> 0 -> 0 <= a / b.
  Proof.
    intros La Lb N. replace (a / b) with (a * finv b) by (field; exact N). apply fle_mul; [exact La|].
    apply finv_nonneg; assumption.
  Qed.
  Lemma fadd_nonneg (a b : F) : 0 <= a -> 0 <= b -> 0 <= a + b.
  Proof. intros La Lb. replace (0 : F) with (0 + 0 : F) by ring. apply fle_add2; assumption. Qed.
  Lemma fadd_0 (a b : F) : 0 <= a -> 0 <= b -> a + b = 0 -> a = 0 /\ b = 0.
  Proof.
    intros La Lb E.
    assert (a <= 0). { rewrite <- E. replace a with (a + 0) at 1 by ring. apply fle_add2; [apply fle_refl|exact Lb]. }
    assert (a = 0) by (apply fle_antisym; assumption). subst a. split; [reflexivity|].
    rewrite <- E. ring.
  Qed.
  Lemma fsub_0 (a b : F) : a - b = 0 -> a = b.
  Proof. intros E. transitivity (a - b + b); [ring|]. rewrite E. ring. Qed.
  Lemma fsq_0 (a : F) : a * a = 0 -> a = 0.
  Proof. intros E. destruct (feq_dec a 0) as [D|D]; [exact D|]. apply (fmul_0 a a); assumption. Qed.
  Lemma fmul_cancel (a b c : F) : a <> 0 -> a * b = a * c -> b = c.
  Proof. intros N E. apply fsub_0. apply (fmul_0 a); [|exact N]. transitivity (a * b - a * c); [ring|rewrite E; ring]. Qed.
  Lemma fadd_pos_neq (a b : F) : 0 <= a -> 0 <= b -> b <> 0 -> a + b <> 0.
  Proof. intros La Lb N E. apply N. apply (fadd_0 a b La Lb E). Qed.

  (** natural numbers as scalars *)
  Fixpoint fnat (n : nat) : F := match n with O => 0 | S m => fnat m + 1 end.
  Lemma fnat_add n m : fnat (n + m) = fnat n + fnat m.
  Proof. induction m as [|m IH]; cbn; [rewrite Nat.add_0_r; ring|]. rewrite Nat.add_succ_r. cbn. rewrite IH. ring. Qed.
  Lemma fnat_mul n m : fnat (n * m) = fnat n * fnat m.
  Proof. induction m as [|m IH]; cbn; [rewrite Nat.mul_0_r; cbn; ring|]. rewrite Nat.mul_succ_r, fnat_add, IH. ring. Qed.
  Lemma fnat_nonneg n : 0 <= fnat n.
  Proof. induction n; cbn; [apply fle_refl|apply fadd_nonneg; [assumption|apply f1_pos]]. Qed.
  Lemma fnat_neq_0 n : n <> O -> fnat n <> 0.
  Proof.
    destruct n as [|n]; [congruence|]. intros _ E. cbn in E. apply fadd_0 in E; [|apply fnat_nonneg|apply f1_pos].
    apply f1_neq_0. apply E.
  Qed.
  Lemma fnat_inj n m : fnat n = fnat m -> n = m.
  Proof.
    revert m. induction n as [|n IH]; intros m E.
    - destruct m; [reflexivity|]. symmetry in E. destruct (fnat_neq_0 (S m)); [discriminate|exact E].
    - destruct m as [|m]; [destruct (fnat_neq_0 (S n)); [discriminate|exact E]|]. f_equal. apply IH.
      cbn in E. transitivity (fnat n + 1 - 1); [ring|]. rewrite E. ring.
  Qed.
  Fixpoint fpow (x : F) (k : nat) : F := match k with O => 1 | S k => x * fpow x k end.
  Lemma fpow_neq_0 x k : x <> 0 -> fpow x k <> 0.
  Proof. intros N. induction k; cbn; [apply f1_neq_0|]. intros E. apply IHk. exact (fmul_0 _ _ E N). Qed.

  (** [sum n f] = f 0 + ... + f (n-1) *)
  Fixpoint sum (n : nat) (f : nat -> F) : F := match n with O => 0 | S m => sum m f + f m end.
  Lemma sum_ext n f g : (forall i, (i < n)%nat -> f i = g i) -> sum n f = sum n g.
  Proof. induction n; cbn; intros E; [reflexivity|]. rewrite IHn by auto. rewrite (E n) by auto. reflexivity. Qed.
  Lemma sum_0 n : sum n (fun _ => 0) = 0.
  Proof. induction n; cbn; [reflexivity|rewrite IHn; ring]. Qed.
  Lemma sum_zero n f : (forall i, (i < n)%nat -> f i = 0) -> sum n f = 0.
  Proof. intros E. rewrite (sum_ext n f (fun _ => 0) E). apply sum_0. Qed.
  Lemma sum_const n c : sum n (fun _ => c) = fnat n * c.
  Proof. induction n; cbn; [ring|rewrite IHn; ring]. Qed.
  Lemma sum_add n f g : sum n (fun i => f i + g i) = sum n f + sum n g.
  Proof. induction n; cbn; [ring|rewrite IHn; ring]. Qed.
  Lemma sum_sub n f g : sum n (fun i => f i - g i) = sum n f - sum n g.
  Proof. induction n; cbn; [ring|rewrite IHn; ring]. Qed.
  Lemma sum_mul_l n c f : sum n (fun i => c * f i) = c * sum n f.
  Proof. induction n; cbn; [ring|rewrite IHn; ring]. Qed.
  Lemma sum_mul_r n c f : sum n (fun i => f i * c) = sum n f * c.
  Proof. induction n; cbn; [ring|rewrite IHn; ring]. Qed.
  Lemma sum_swap n m f : sum n (fun i => sum m (fun j => f i j)) = sum m (fun j => sum n (fun i => f i j)).
  Proof.
    induction n; cbn; [symmetry; apply sum_0|]. rewrite IHn, <- sum_add. reflexivity.
  Qed.
  Lemma sum_S_l n f : sum (S n) f = f O + sum n (fun i => f (S i)).
  Proof. induction n; [cbn; ring|]. cbn in *. rewrite IHn. ring. Qed.
  Lemma sum_app n m f : sum (n + m) f = sum n f + sum m (fun i => f (n + i)%nat).
  Proof. induction m; [rewrite Nat.add_0_r; cbn; ring|]. rewrite Nat.add_succ_r. cbn. rewrite IHm. ring. Qed.
  Lemma sum_mul n m f : sum (n * m) f = sum n (fun i => sum m (fun j => f (i * m + j)%nat)).
  Proof.
    induction n; [reflexivity|]. rewrite Nat.mul_succ_l, sum_app, IHn. reflexivity.
  Qed.
  Lemma sum_delta n k f : (k < n)%nat -> sum n (fun i => if Nat.eqb i k then f i else 0) = f k.
  Proof.
    induction n; [lia|]. intros L. cbn. destruct (Nat.eqb_spec n k) as [->|N].
    - rewrite sum_zero; [ring|]. intros i Li. destruct (Nat.eqb_spec i k); [lia|reflexivity].
    - rewrite IHn by lia. ring.
  Qed.
  Lemma sum_nonneg n f : (forall i, (i < n)%nat -> 0 <= f i) -> 0 <= sum n f.
  Proof. induction n; cbn; intros E; [apply fle_refl|]. apply fadd_nonneg; auto. Qed.
  Lemma sum_nonneg_0 n f : (forall i, (i < n)%nat -> 0 <= f i) -> sum n f = 0 -> forall i, (i < n)%nat -> f i = 0.
  Proof.
    induction n; cbn; intros P E i L; [lia|].
    destruct (fadd_0 _ _ (sum_nonneg n f (fun i Li => P i (Nat.lt_lt_succ_r _ _ Li))) (P n (Nat.lt_succ_diag_r n)) E) as [E1 E2].
    destruct (Nat.eq_dec i n) as [->|N]; [exact E2|]. apply IHn; [intros; apply P; lia|exact E1|lia].
  Qed.

  (** sum of a list *)
  Definition lsum (l : list F) : F := fold_right fadd 0 l.
  Lemma lsum_app l1 l2 : lsum (l1 ++ l2) = lsum l1 + lsum l2.
  Proof.
    unfold lsum. induction l1 as [|a l1 IH]; cbn [fold_right app]; [ring|]. rewrite IH. ring.
  Qed.
  Lemma lsum_seq n f : lsum (map f (seq 0 n)) = sum n f.
  Proof.
    induction n; [reflexivity|]. rewrite seq_S, map_app, lsum_app, IHn. cbn. ring.
  Qed.
End Facts.
