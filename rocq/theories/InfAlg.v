(** Matrix algebra behind preconditioning: matrices as functions on indices, equal up to bounds. *)
From Verif Require Import Py Field Tensor.
Local Open Scope nat_scope.

Section Alg.
  Context {F : Type} `{OField F}.
  Add Field FfIA : f_theory.
  Definition mm (k : nat) (f g : nat -> nat -> F) : nat -> nat -> F := fun i j => sum k (fun p => fmul (f i p) (g p j)).
  Definition tr (f : nat -> nat -> F) : nat -> nat -> F := fun i j => f j i.
  Definition idm : nat -> nat -> F := fun i j => if Nat.eqb i j then f1 else f0.
  Definition meq (n m : nat) (f g : nat -> nat -> F) : Prop := forall i j, i < n -> j < m -> f i j = g i j.
  Definition orth (n : nat) (u : nat -> nat -> F) : Prop := meq n n (mm n (tr u) u) idm /\ meq n n (mm n u (tr u)) idm.

  Lemma mm_ext n k m f f' g g' : meq n k f f' -> meq k m g g' -> meq n m (mm k f g) (mm k f' g').
  Proof. intros A B i j Li Lj. unfold mm. apply sum_ext. intros p Lp. rewrite A, B by assumption. reflexivity. Qed.
  Lemma meq_refl n m f : meq n m f f.
  Proof. intros i j _ _. reflexivity. Qed.
  Lemma meq_sym n m f g : meq n m f g -> meq n m g f.
  Proof. intros A i j Li Lj. symmetry. apply A; assumption. Qed.
  Lemma meq_trans n m f g h : meq n m f g -> meq n m g h -> meq n m f h.
  Proof. intros A B i j Li Lj. rewrite A, B by assumption. reflexivity. Qed.
  Lemma mm_assoc k l f g h n m : meq n m (mm l (mm k f g) h) (mm k f (mm l g h)).
  Proof.
    intros i j _ _. unfold mm. transitivity (sum l (fun q => sum k (fun p => fmul (fmul (f i p) (g p q)) (h q j)))).
    - apply sum_ext. intros q _. rewrite <- sum_mul_r. apply sum_ext. intros; ring.
    - rewrite sum_swap. apply sum_ext. intros p _. rewrite <- sum_mul_l. apply sum_ext. intros; ring.
  Qed.
  Lemma mm_id_l n m f : meq n m (mm n idm f) f.
  Proof.
    intros i j Li Lj. unfold mm, idm. rewrite (sum_ext n _ (fun p => if Nat.eqb p i then f p j else f0)).
    - apply (sum_delta n i (fun p => f p j)). exact Li.
    - intros p _. rewrite Nat.eqb_sym. destruct (p =? i); ring.
  Qed.
  Lemma mm_id_r n m f : meq n m (mm m f idm) f.
  Proof.
    intros i j Li Lj. unfold mm, idm. rewrite (sum_ext m _ (fun p => if Nat.eqb p j then f i p else f0)).
    - apply (sum_delta m j (fun p => f i p)). exact Lj.
    - intros p _. destruct (p =? j); ring.
  Qed.
  Lemma mm_add k n m f g g' : meq n m (mm k f (fun i j => fadd (g i j) (g' i j))) (fun i j => fadd (mm k f g i j) (mm k f g' i j)).
  Proof. intros i j _ _. unfold mm. rewrite <- sum_add. apply sum_ext. intros; ring. Qed.
  Lemma mm_scale k n m c f g : meq n m (mm k f (fun i j => fmul c (g i j))) (fun i j => fmul c (mm k f g i j)).
  Proof. intros i j _ _. unfold mm. rewrite <- sum_mul_l. apply sum_ext. intros; ring. Qed.
  Lemma mm_scale_l k n m c f g : meq n m (mm k (fun i j => fmul c (f i j)) g) (fun i j => fmul c (mm k f g i j)).
  Proof. intros i j _ _. unfold mm. rewrite <- sum_mul_l. apply sum_ext. intros; ring. Qed.
  Lemma mm_add_l k n m f f' g : meq n m (mm k (fun i j => fadd (f i j) (f' i j)) g) (fun i j => fadd (mm k f g i j) (mm k f' g i j)).
  Proof. intros i j _ _. unfold mm. rewrite <- sum_add. apply sum_ext. intros; ring. Qed.

  Lemma cancel_l n m u x : meq n n (mm n (tr u) u) idm -> meq n m (mm n (tr u) (mm n u x)) x.
  Proof.
    intros O. eapply meq_trans; [apply meq_sym; apply mm_assoc|]. eapply meq_trans; [apply mm_ext; [exact O|apply meq_refl]|]. apply mm_id_l.
  Qed.
  Lemma cancel_l' n m u x : meq n n (mm n u (tr u)) idm -> meq n m (mm n u (mm n (tr u) x)) x.
  Proof.
    intros O. eapply meq_trans; [apply meq_sym; apply mm_assoc|]. eapply meq_trans; [apply mm_ext; [exact O|apply meq_refl]|]. apply mm_id_l.
  Qed.
  Lemma cancel_r n m v x : meq m m (mm m (tr v) v) idm -> meq n m (mm m (mm m x (tr v)) v) x.
  Proof.
    intros O. eapply meq_trans; [apply mm_assoc|]. eapply meq_trans; [apply mm_ext; [apply meq_refl|exact O]|]. apply mm_id_r.
  Qed.
  Lemma cancel_r' n m v x : meq m m (mm m v (tr v)) idm -> meq n m (mm m (mm m x v) (tr v)) x.
  Proof.
    intros O. eapply meq_trans; [apply mm_assoc|]. eapply meq_trans; [apply mm_ext; [apply meq_refl|exact O]|]. apply mm_id_r.
  Qed.

  (** diag(w) *)
  Definition dg (w : nat -> F) : nat -> nat -> F := fun i j => if Nat.eqb i j then w i else f0.
  Lemma mm_dg_l n m w x : meq n m (mm n (dg w) x) (fun i j => fmul (w i) (x i j)).
  Proof.
    intros i j Li _. unfold mm, dg. rewrite (sum_ext n _ (fun p => if Nat.eqb p i then fmul (w i) (x p j) else f0)).
    - apply (sum_delta n i (fun p => fmul (w i) (x p j))). exact Li.
    - intros p _. rewrite Nat.eqb_sym. destruct (Nat.eqb_spec p i) as [->|]; ring.
  Qed.
  Lemma mm_dg_r n m w x : meq n m (mm m x (dg w)) (fun i j => fmul (w j) (x i j)).
  Proof.
    intros i j _ Lj. unfold mm, dg. rewrite (sum_ext m _ (fun p => if Nat.eqb p j then fmul (w j) (x i p) else f0)).
    - apply (sum_delta m j (fun p => fmul (w j) (x i p))). exact Lj.
    - intros p _. destruct (Nat.eqb_spec p j) as [->|]; ring.
  Qed.

  (** rotate, divide, rotate back *)
  Section Kron.
    Variables (n m : nat) (u v : nat -> nat -> F) (E : nat -> nat -> F) (g : nat -> nat -> F).
    Definition krot : nat -> nat -> F := mm n (tr u) (mm m g v).
    Definition kdiv : nat -> nat -> F := fun i j => fdiv (krot i j) (E i j).
    Definition kout : nat -> nat -> F := mm n u (mm m kdiv (tr v)).

    Lemma krot_back : orth n u -> orth m v -> meq n m (mm n u (mm m krot (tr v))) g.
    Proof.
      intros [_ Ou] [_ Ov]. unfold krot. eapply meq_trans; [apply mm_ext; [apply meq_refl|]|].
      - eapply meq_trans; [apply mm_assoc|]. apply mm_ext; [apply meq_refl|]. apply cancel_r'; exact Ov.
      - apply cancel_l'. exact Ou.
    Qed.
    (** the Kronecker system *)
    Lemma kron_solve (A B : nat -> nat -> F) (wa wb : nat -> F) (d : F) : orth n u -> orth m v ->
      meq n n A (mm n u (mm n (dg wa) (tr u))) -> meq m m B (mm m v (mm m (dg wb) (tr v))) ->
      (forall i j, i < n -> j < m -> E i j = fadd (fmul (wa i) (wb j)) d) -> (forall i j, i < n -> j < m -> E i j <> f0) ->
      meq n m (fun i j => fadd (mm n A (mm m kout B) i j) (fmul d (kout i j))) g.
    Proof.
      intros Ou Ov HA HB HE NE. eapply meq_trans; [|apply krot_back; assumption].
      assert (X : meq n m (mm n A (mm m kout B)) (mm n u (mm m (fun i j => fmul (fmul (wa i) (wb j)) (kdiv i j)) (tr v)))).
      { eapply meq_trans; [apply mm_ext; [exact HA|apply mm_ext; [apply meq_refl|exact HB]]|].
        (* kout B' *)
        assert (Y : meq n m (mm m kout (mm m v (mm m (dg wb) (tr v)))) (mm n u (mm m (fun i j => fmul (wb j) (kdiv i j)) (tr v)))).
        { eapply meq_trans; [apply meq_sym; apply mm_assoc|]. unfold kout.
          eapply meq_trans. { apply mm_ext; [|apply meq_refl]. eapply meq_trans; [apply mm_assoc|]. apply mm_ext; [apply meq_refl|]. apply (cancel_r n m v kdiv). apply Ov. }
          eapply meq_trans; [apply meq_sym; apply mm_assoc|].
          eapply meq_trans; [apply mm_ext; [apply mm_assoc|apply meq_refl]|].
          eapply meq_trans; [apply mm_assoc|]. apply mm_ext; [apply meq_refl|]. apply mm_ext; [|apply meq_refl]. apply mm_dg_r. }
        eapply meq_trans; [apply mm_ext; [apply meq_refl|exact Y]|].
        eapply meq_trans; [apply mm_assoc|]. apply mm_ext; [apply meq_refl|].
        eapply meq_trans; [apply mm_assoc|]. eapply meq_trans; [apply mm_ext; [apply meq_refl|apply cancel_l; apply Ou]|].
        eapply meq_trans; [apply mm_dg_l|]. intros i j Li Lj. unfold mm. rewrite <- sum_mul_l. apply sum_ext. intros q _. ring. }
      intros i j Li Lj. rewrite X by assumption. unfold kout. rewrite <- (mm_scale n n m d u _ i j Li Lj). rewrite <- (mm_add n n m u _ _ i j Li Lj).
      apply (mm_ext n n m u u); try assumption; [apply meq_refl|]. clear i j Li Lj. intros i j Li Lj. rewrite <- (mm_scale_l m n m d kdiv (tr v) i j Li Lj), <- (mm_add_l m n m _ _ (tr v) i j Li Lj).
      apply (mm_ext n m m _ krot (tr v) (tr v)); try assumption; [|apply meq_refl]. intros a b La Lb. unfold kdiv.
      pose proof (NE a b La Lb) as N0. rewrite (HE a b La Lb) in N0 |- *. field. exact N0.
    Qed.
    (** the quadratic form *)
    Lemma kron_quad (h : nat -> nat -> F) : sum n (fun i => sum m (fun j => fmul (h i j) (kout i j))) =
      sum n (fun a => sum m (fun b => fmul (mm n (tr u) (mm m h v) a b) (kdiv a b))).
    Proof.
      transitivity (sum n (fun i => sum m (fun j => sum n (fun a => sum m (fun b => fmul (fmul (h i j) (fmul (u i a) (v j b))) (kdiv a b)))))).
      - apply sum_ext. intros i _. apply sum_ext. intros j _. unfold kout, mm, tr. rewrite <- sum_mul_l. apply sum_ext. intros a _. rewrite <- sum_mul_l, <- sum_mul_l. apply sum_ext. intros; ring.
      - transitivity (sum n (fun a => sum n (fun i => sum m (fun j => sum m (fun b => fmul (fmul (h i j) (fmul (u i a) (v j b))) (kdiv a b)))))).
        { transitivity (sum n (fun i => sum n (fun a => sum m (fun j => sum m (fun b => fmul (fmul (h i j) (fmul (u i a) (v j b))) (kdiv a b)))))).
          - apply sum_ext. intros i _. apply sum_swap.
          - apply sum_swap. }
        apply sum_ext. intros a _. transitivity (sum n (fun i => sum m (fun b => sum m (fun j => fmul (fmul (h i j) (fmul (u i a) (v j b))) (kdiv a b))))).
        { apply sum_ext. intros i _. apply sum_swap. }
        rewrite sum_swap. apply sum_ext. intros b _. unfold mm, tr. rewrite <- sum_mul_r. apply sum_ext. intros i _. rewrite <- sum_mul_l, <- sum_mul_r. apply sum_ext. intros; ring.
    Qed.
    Lemma kron_pos : (forall i j, i < n -> j < m -> fle f0 (E i j) /\ E i j <> f0) -> orth n u -> orth m v ->
      fle f0 (sum n (fun i => sum m (fun j => fmul (g i j) (kout i j)))) /\
      (sum n (fun i => sum m (fun j => fmul (g i j) (kout i j))) = f0 -> meq n m g (fun _ _ => f0)).
    Proof.
      intros P Ou Ov. rewrite (kron_quad g). fold krot.
      assert (TT : forall a b, a < n -> b < m -> fle f0 (fmul (krot a b) (kdiv a b))).
      { intros a b La Lb. unfold kdiv. destruct (P a b La Lb) as [P1 P2]. replace (fmul (krot a b) (fdiv (krot a b) (E a b))) with (fdiv (fmul (krot a b) (krot a b)) (E a b)) by (field; exact P2).
        apply fdiv_nonneg; try assumption. apply fsq_nonneg. }
      split.
      - apply sum_nonneg. intros a La. apply sum_nonneg. intros b Lb. apply TT; assumption.
      - intros Z. assert (R0 : meq n m krot (fun _ _ => f0)).
        { intros a b La Lb. pose proof (sum_nonneg_0 n _ (fun a La => sum_nonneg m _ (fun b Lb => TT a b La Lb)) Z a La) as Z1. cbv beta in Z1.
          pose proof (sum_nonneg_0 m _ (fun b Lb => TT a b La Lb) Z1 b Lb) as Z2. cbv beta in Z2. destruct (P a b La Lb) as [_ P2]. unfold kdiv in Z2.
          apply fsq_0. replace (fmul (krot a b) (krot a b)) with (fmul (E a b) (fmul (krot a b) (fdiv (krot a b) (E a b)))) by (field; exact P2). rewrite Z2. ring. }
        intros i j Li Lj. rewrite <- (krot_back Ou Ov i j Li Lj). unfold mm at 1. apply sum_zero. intros p Lp. unfold mm. rewrite sum_zero; [ring|]. intros q Lq. rewrite R0 by assumption. ring.
    Qed.
  End Kron.

  (** eigenvalues of a positive semidefinite matrix are non-negative *)
  Lemma psd_eig n (A u : nat -> nat -> F) (w : nat -> F) : orth n u -> meq n n A (mm n u (mm n (dg w) (tr u))) ->
    (forall x : nat -> F, fle f0 (sum n (fun i => sum n (fun j => fmul (fmul (x i) (A i j)) (x j))))) -> forall k, k < n -> fle f0 (w k).
  Proof.
    intros [Ou _] HA P k Lk. specialize (P (fun i => u i k)).
    replace (w k) with (sum n (fun i => sum n (fun j => fmul (fmul (u i k) (A i j)) (u j k)))); [exact P|].
    transitivity (mm n (tr u) (mm n A u) k k).
    { unfold mm, tr. apply sum_ext. intros i _. rewrite <- sum_mul_l. apply sum_ext. intros; ring. }
    assert (Y : meq n n (mm n (tr u) (mm n A u)) (dg w)).
    { eapply meq_trans; [apply mm_ext; [apply meq_refl|]|].
      - eapply meq_trans; [apply mm_ext; [exact HA|apply meq_refl]|]. eapply meq_trans; [apply mm_assoc|]. apply mm_ext; [apply meq_refl|]. apply cancel_r. exact Ou.
      - apply cancel_l. exact Ou. }
    rewrite Y by assumption. unfold dg. rewrite Nat.eqb_refl. reflexivity.
  Qed.
  (** a row vector times an inverse *)
  Lemma inv_solve n k (g : nat -> nat -> F) (A B : nat -> nat -> F) : meq k k (mm k B A) idm -> meq n k (mm k (mm k g B) A) g.
  Proof. intros I. eapply meq_trans; [apply mm_assoc|]. eapply meq_trans; [apply mm_ext; [apply meq_refl|exact I]|]. apply mm_id_r. Qed.
End Alg.
