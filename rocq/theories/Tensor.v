(** Dense row-major tensors over an exact scalar field: the part of torch / einops used by /repo.
    This file models the tensor library, not a file of /repo. *)
From Verif Require Import Py Field.
Local Open Scope nat_scope.

Record tensor (F : Type) := T { shape : list nat; data : list F }.
Arguments T {F} shape data.
Arguments shape {F} t.
Arguments data {F} t.

(** Row-major position of a multi-index, and back. *)
Fixpoint ravel (sh idx : list nat) : nat :=
  match sh, idx with
  | _ :: sh', i :: idx' => i * prod sh' + ravel sh' idx'
  | _, _ => 0
  end.
Fixpoint unravel (sh : list nat) (k : nat) : list nat :=
  match sh with
  | [] => []
  | _ :: sh' => (k / prod sh') :: unravel sh' (k mod prod sh')
  end.
Definition valid (sh idx : list nat) : Prop := Forall2 lt idx sh.

Lemma prod_cons n sh : prod (n :: sh) = n * prod sh.
Proof. reflexivity. Qed.
Lemma prod_app a b : prod (a ++ b) = prod a * prod b.
Proof. induction a; cbn [app]; rewrite ?prod_cons; [cbn; lia|]. rewrite IHa. lia. Qed.

Lemma ravel_lt sh idx : valid sh idx -> ravel sh idx < prod sh.
Proof.
  revert idx. induction sh as [|n sh IH]; intros idx V; inversion V as [|i ? idx' ? L V']; subst; cbn [ravel].
  - cbn. lia.
  - specialize (IH _ V'). rewrite prod_cons. nia.
Qed.
Lemma unravel_ravel sh idx : valid sh idx -> unravel sh (ravel sh idx) = idx.
Proof.
  revert idx. induction sh as [|n sh IH]; intros idx V; inversion V as [|i ? idx' ? L V']; subst; cbn [ravel unravel];
    [reflexivity|].
  pose proof (ravel_lt _ _ V') as R. f_equal.
  - rewrite Nat.div_add_l by lia. rewrite Nat.div_small by assumption. lia.
  - rewrite Nat.add_comm, Nat.mod_add, Nat.mod_small by lia. apply IH. exact V'.
Qed.
Lemma unravel_valid sh k : k < prod sh -> valid sh (unravel sh k).
Proof.
  revert k. induction sh as [|n sh IH]; intros k L; cbn [unravel]; [constructor|].
  rewrite prod_cons in L. constructor.
  - apply Nat.div_lt_upper_bound; lia.
  - apply IH. apply Nat.mod_upper_bound. lia.
Qed.
Lemma ravel_unravel sh k : k < prod sh -> ravel sh (unravel sh k) = k.
Proof.
  revert k. induction sh as [|n sh IH]; intros k L; cbn [unravel ravel].
  - cbn in L. lia.
  - rewrite prod_cons in L. rewrite IH by (apply Nat.mod_upper_bound; lia).
    rewrite (Nat.mul_comm (k / prod sh)). symmetry. apply Nat.div_mod. lia.
Qed.

Section Tensors.
  Context {F : Type} `{OField F}.
  Add Field FfT : f_theory.
  Notation tensor := (tensor F).

  Definition twf (t : tensor) : Prop := length (data t) = prod (shape t).
  Definition tget (t : tensor) (idx : list nat) : F := nth (ravel (shape t) idx) (data t) f0.
  Definition tgen (sh : list nat) (f : list nat -> F) : tensor :=
    T sh (map (fun k => f (unravel sh k)) (seq 0 (prod sh))).
  Definition numel (t : tensor) : nat := prod (shape t).

  Lemma tgen_wf sh f : twf (tgen sh f).
  Proof. unfold twf, tgen. cbn. rewrite map_length, seq_length. reflexivity. Qed.
  Lemma nth_tgen sh f k : k < prod sh -> nth k (data (tgen sh f)) f0 = f (unravel sh k).
  Proof.
    intros L. unfold tgen. cbn [data]. rewrite (nth_indep _ f0 (f (unravel sh 0))) by (rewrite map_length, seq_length; exact L).
    rewrite (map_nth (fun k => f (unravel sh k)) (seq 0 (prod sh)) 0 k), seq_nth by exact L. reflexivity.
  Qed.
  Lemma tget_tgen sh f idx : valid sh idx -> tget (tgen sh f) idx = f idx.
  Proof.
    intros V. unfold tget. change (shape (tgen sh f)) with sh.
    rewrite nth_tgen by (apply ravel_lt; exact V). rewrite unravel_ravel by exact V. reflexivity.
  Qed.
  (** reading a generated tensor through another shape *)
  Lemma tget_regen sh f sh2 idx2 idx : valid sh idx -> ravel sh2 idx2 = ravel sh idx ->
    tget (T sh2 (data (tgen sh f))) idx2 = f idx.
  Proof.
    intros V E. unfold tget. cbn [shape]. cbn [data]. rewrite E.
    change (map (fun k => f (unravel sh k)) (seq 0 (prod sh))) with (data (tgen sh f)).
    rewrite nth_tgen by (apply ravel_lt; exact V). rewrite unravel_ravel by exact V. reflexivity.
  Qed.
  Lemma tget_reshape (t : tensor) sh2 idx2 idx : ravel sh2 idx2 = ravel (shape t) idx ->
    tget (T sh2 (data t)) idx2 = tget t idx.
  Proof. intros E. unfold tget. cbn [shape data]. rewrite E. reflexivity. Qed.
  Lemma list_ext (d1 d2 : list F) : length d1 = length d2 ->
    (forall k, k < length d1 -> nth k d1 f0 = nth k d2 f0) -> d1 = d2.
  Proof.
    revert d2. induction d1 as [|a d1 IH]; intros [|b d2] L E; cbn in L; try lia; [reflexivity|].
    f_equal; [apply (E 0); cbn; lia|]. apply IH; [lia|]. intros k Lk. apply (E (S k)). cbn. lia.
  Qed.
  Lemma tensor_ext (t u : tensor) : twf t -> twf u -> shape t = shape u ->
    (forall idx, valid (shape t) idx -> tget t idx = tget u idx) -> t = u.
  Proof.
    destruct t as [s1 d1], u as [s2 d2]. unfold twf, tget. cbn [shape data]. intros W1 W2 <- E. f_equal.
    apply list_ext; [lia|]. intros k L. rewrite W1 in L. specialize (E (unravel s1 k) (unravel_valid _ _ L)).
    rewrite ravel_unravel in E by exact L. exact E.
  Qed.
  Lemma tgen_ext sh f g : (forall idx, valid sh idx -> f idx = g idx) -> tgen sh f = tgen sh g.
  Proof.
    intros E. unfold tgen. f_equal. apply map_ext_in. intros k I. apply in_seq in I. apply E. apply unravel_valid. lia.
  Qed.
  Lemma tgen_tget (t : tensor) : twf t -> t = tgen (shape t) (tget t).
  Proof.
    intros W. apply tensor_ext; [exact W|apply tgen_wf|reflexivity|]. intros idx V. symmetry. apply tget_tgen. exact V.
  Qed.

  (** [t.reshape(sh)] with explicit sizes. *)
  Definition reshape (t : tensor) (sh : list nat) : res tensor :=
    if Nat.eqb (prod (shape t)) (prod sh) then Ok (T sh (data t)) else Err RuntimeError.
  (** [t.reshape(pre..., -1, post...)]: the missing size is inferred. *)
  Definition reshape_infer (t : tensor) (pre post : list nat) : res tensor :=
    let p := prod pre * prod post in
    if Nat.eqb p 0 then Err RuntimeError
    else if Nat.eqb (prod (shape t) mod p) 0
         then Ok (T (pre ++ prod (shape t) / p :: post) (data t))
         else Err RuntimeError.

  Lemma shape_eq_dec (a b : list nat) : {a = b} + {a <> b}.
  Proof. apply list_eq_dec. apply Nat.eq_dec. Defined.
  Definition same_shape (a b : list nat) : bool := if shape_eq_dec a b then true else false.
  Lemma same_shape_refl a : same_shape a a = true.
  Proof. unfold same_shape. destruct (shape_eq_dec a a); congruence. Qed.
  Lemma same_shape_true a b : same_shape a b = true -> a = b.
  Proof. unfold same_shape. destruct (shape_eq_dec a b); [auto|discriminate]. Qed.
  Lemma same_shape_false a b : same_shape a b = false -> a <> b.
  Proof. unfold same_shape. destruct (shape_eq_dec a b); [discriminate|auto]. Qed.

  (** elementwise operations on tensors of one shape *)
  Fixpoint zipw (f : F -> F -> F) (l1 l2 : list F) : list F :=
    match l1, l2 with a :: r1, b :: r2 => f a b :: zipw f r1 r2 | _, _ => [] end.
  Definition tmap (f : F -> F) (t : tensor) : tensor := T (shape t) (map f (data t)).
  Definition tzip (f : F -> F -> F) (a b : tensor) : res tensor :=
    if same_shape (shape a) (shape b) then Ok (T (shape a) (zipw f (data a) (data b))) else Err RuntimeError.
  Definition tadd (a b : tensor) : res tensor := tzip fadd a b.
  Definition tzeros (sh : list nat) : tensor := T sh (repeat f0 (prod sh)).

  Lemma zipw_length f l1 l2 : length l1 = length l2 -> length (zipw f l1 l2) = length l1.
  Proof. revert l2. induction l1; intros [|b l2] E; cbn in *; try lia. f_equal. apply IHl1. lia. Qed.
  Lemma nth_zipw f l1 l2 k : length l1 = length l2 -> k < length l1 -> nth k (zipw f l1 l2) f0 = f (nth k l1 f0) (nth k l2 f0).
  Proof.
    revert l2 k. induction l1 as [|a l1 IH]; intros [|b l2] [|k] E L; cbn in *; try lia; [reflexivity|]. apply IH; lia.
  Qed.
  Lemma tzeros_wf sh : twf (tzeros sh).
  Proof. unfold twf. cbn. apply repeat_length. Qed.
  Lemma tzip_ok f a b : shape a = shape b -> tzip f a b = Ok (T (shape a) (zipw f (data a) (data b))).
  Proof. intros E. unfold tzip. rewrite E, same_shape_refl. reflexivity. Qed.
  Lemma tzip_wf f a b c : twf a -> twf b -> tzip f a b = Ok c -> twf c.
  Proof.
    unfold tzip, twf. intros Wa Wb. destruct (same_shape _ _) eqn:S; [|discriminate]. intros [= <-]. cbn.
    apply same_shape_true in S. rewrite zipw_length; [exact Wa|]. rewrite Wa, Wb, S. reflexivity.
  Qed.
  Lemma tget_tzip f a b c idx : twf a -> twf b -> tzip f a b = Ok c -> valid (shape a) idx ->
    tget c idx = f (tget a idx) (tget b idx).
  Proof.
    unfold tzip, twf, tget. intros Wa Wb. destruct (same_shape _ _) eqn:S; [|discriminate]. intros [= <-] V. cbn.
    apply same_shape_true in S. rewrite nth_zipw; [rewrite S; reflexivity| |].
    - rewrite Wa, Wb, S. reflexivity.
    - rewrite Wa. apply ravel_lt. exact V.
  Qed.
  Lemma tget_tzeros sh idx : tget (tzeros sh) idx = f0.
  Proof. unfold tget, tzeros. cbn. apply nth_repeat. Qed.
  Lemma tmap_wf f t : twf t -> twf (tmap f t).
  Proof. unfold twf, tmap. cbn. rewrite map_length. auto. Qed.
  Lemma tget_tmap f t idx : twf t -> valid (shape t) idx -> tget (tmap f t) idx = f (tget t idx).
  Proof.
    intros W V. unfold tget, tmap. cbn. pose proof (ravel_lt _ _ V) as L. rewrite <- W in L.
    rewrite (nth_indep _ f0 (f f0)) by (rewrite map_length; exact L). apply map_nth.
  Qed.

  (** the [k]-th slice along the first axis *)
  Definition slice (t : tensor) (k : nat) : tensor :=
    let rest := tl (shape t) in
    T rest (firstn (prod rest) (skipn (k * prod rest) (data t))).
  Lemma nth_firstn_skipn (l : list F) n m k : k < n -> nth k (firstn n (skipn m l)) f0 = nth (m + k) l f0.
  Proof.
    intros L. revert l. induction m as [|m IH]; intros l.
    - cbn. revert n L l. induction k as [|k IHk]; intros [|n] L l; try lia; destruct l; cbn; auto; try lia.
      apply IHk. lia.
    - destruct l as [|a l]; cbn [skipn]; [rewrite firstn_nil; destruct k; reflexivity|]. rewrite IH. reflexivity.
  Qed.
  Lemma slice_wf n rest d k : length d = n * prod rest -> k < n -> twf (slice (T (n :: rest) d) k).
  Proof.
    intros W L. unfold twf, slice. cbn [shape data tl]. rewrite firstn_length, skipn_length, W. apply Nat.min_l.
    assert ((k + 1) * prod rest <= n * prod rest) by (apply Nat.mul_le_mono_r; lia). lia.
  Qed.
  Lemma tget_slice n rest d k idx : valid rest idx ->
    tget (slice (T (n :: rest) d) k) idx = tget (T (n :: rest) d) (k :: idx).
  Proof.
    intros V. unfold tget, slice. cbn [shape data tl ravel]. apply nth_firstn_skipn. apply ravel_lt. exact V.
  Qed.

  (** torch.cat along dim 0 *)
  Definition tcat0 (a b : tensor) : res tensor :=
    match shape a, shape b with
    | n :: ra, m :: rb => if same_shape ra rb then Ok (T (n + m :: ra) (data a ++ data b)) else Err RuntimeError
    | _, _ => Err RuntimeError
    end.

  (** matrices *)
  Definition mget (t : tensor) (i j : nat) : F := tget t [i; j].
  Definition mgen (n m : nat) (f : nat -> nat -> F) : tensor :=
    tgen [n; m] (fun idx => f (nth 0 idx 0) (nth 1 idx 0)).
  Lemma valid2 n m i j : i < n -> j < m -> valid [n; m] [i; j].
  Proof. repeat constructor; assumption. Qed.
  Lemma valid3 n m p i j k : i < n -> j < m -> k < p -> valid [n; m; p] [i; j; k].
  Proof. repeat constructor; assumption. Qed.
  Lemma mget_mgen n m f i j : i < n -> j < m -> mget (mgen n m f) i j = f i j.
  Proof. intros Li Lj. unfold mget, mgen. rewrite tget_tgen by (apply valid2; assumption). reflexivity. Qed.
  Lemma mat_ext n m (a b : tensor) : twf a -> twf b -> shape a = [n; m] -> shape b = [n; m] ->
    (forall i j, i < n -> j < m -> mget a i j = mget b i j) -> a = b.
  Proof.
    intros Wa Wb Sa Sb E. apply tensor_ext; [assumption..|congruence|]. intros idx V. rewrite Sa in V.
    inversion V as [|i ? ? ? Li V1]; subst. inversion V1 as [|j ? ? ? Lj V2]; subst. inversion V2; subst. apply E; assumption.
  Qed.
  Lemma valid2_inv n m idx : valid [n; m] idx -> exists i j, idx = [i; j] /\ i < n /\ j < m.
  Proof.
    intros V. inversion V as [|i ? ? ? Li V1]; subst. inversion V1 as [|j ? ? ? Lj V2]; subst. inversion V2; subst. eauto.
  Qed.
  Lemma valid3_inv n m p idx : valid [n; m; p] idx -> exists i j k, idx = [i; j; k] /\ i < n /\ j < m /\ k < p.
  Proof.
    intros V. inversion V as [|i ? ? ? Li V1]; subst. apply valid2_inv in V1. destruct V1 as (j & k & -> & Lj & Lk). eauto 8.
  Qed.
  (** sum of all entries / inner product *)
  Definition tsum (t : tensor) : F := lsum (data t).
  Lemma lsum_sum (l : list F) : lsum l = sum (length l) (fun k => nth k l f0).
  Proof.
    induction l as [|a l IH]; [reflexivity|]. cbn [length]. rewrite sum_S_l. unfold lsum in *. cbn. rewrite IH. reflexivity.
  Qed.
End Tensors.
