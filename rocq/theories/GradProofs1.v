(** Proofs for per-sample gradients. *)
From Coq Require Import ZArith.
From Verif Require Import Py Field Tensor ModelGrad SpecGrad.
Local Open Scope nat_scope.

Section Proofs.
  Context {F : Type} `{OField F}.
  Add Field FfG : f_theory.
  Notation tensor := (tensor F).

  Lemma split_last_app l k : split_last (l ++ [k]) = Some (l, k).
  Proof. unfold split_last. rewrite rev_unit, rev_involutive. reflexivity. Qed.

  Lemma bshape_refl sh : bshape sh sh = Ok sh.
  Proof. induction sh as [|n sh IH]; [reflexivity|]. cbn [bshape]. rewrite IH, Nat.eqb_refl. reflexivity. Qed.
  Lemma bcast_refl sh : bcast sh sh = Ok sh.
  Proof. unfold bcast, pad_left. rewrite Nat.sub_diag. apply bshape_refl. Qed.
  Lemma expand_lead_refl (t : tensor) l n : expand_lead t l l n = t.
  Proof. unfold expand_lead. rewrite same_shape_refl. reflexivity. Qed.

  (** uniqueness of a gradient *)
  Lemma dot_unique (a b : tensor) : length (data a) = length (data b) ->
    (forall W : tensor, length (data W) = length (data a) -> dot a W = dot b W) -> data a = data b.
  Proof.
    intros L E. apply list_ext; [exact L|]. intros k Lk.
    specialize (E (tgen [length (data a)] (fun i => if Nat.eqb (ix 0 i) k then f1 else f0))).
    assert (D : forall c : tensor, length (data c) = length (data a) ->
      dot c (tgen [length (data a)] (fun i => if Nat.eqb (ix 0 i) k then f1 else f0)) = nth k (data c) f0).
    { intros c Lc. unfold dot. rewrite Lc. rewrite <- (sum_delta (length (data a)) k (fun i => nth i (data c) f0) Lk).
      apply sum_ext. intros i Li. rewrite nth_tgen by (cbn; lia). unfold ix. cbn [unravel nth]. change (prod []) with 1.
      rewrite Nat.div_1_r. destruct (Nat.eqb i k); ring. }
    rewrite !D in E; [apply E|congruence|reflexivity]. unfold tgen. cbn [data]. rewrite map_length, seq_length. cbn. lia.
  Qed.

  Lemma nth_tgen2 P I f q i : q < P -> i < I -> nth (q * I + i) (data (tgen [P; I] f)) f0 = f [q; i].
  Proof.
    intros Lq Li. rewrite <- (tget_tgen [P; I] f [q; i]) by (apply valid2; assumption). unfold tget. f_equal. cbn. lia.
  Qed.
  Lemma nth_slice n rest (d : list F) k j : j < prod rest -> nth j (data (slice (T (n :: rest) d) k)) f0 = nth (k * prod rest + j) d f0.
  Proof. intros L. unfold slice. cbn [data shape tl]. apply nth_firstn_skipn. exact L. Qed.
  Lemma slice_length n rest (d : list F) k : length d = n * prod rest -> k < n -> length (data (slice (T (n :: rest) d) k)) = prod rest.
  Proof. intros L Lk. apply (slice_wf n rest d k L Lk). Qed.

  Lemma nth_slice_t n rest (t : tensor) k j : shape t = n :: rest -> j < prod rest -> nth j (data (slice t k)) f0 = nth (k * prod rest + j) (data t) f0.
  Proof. destruct t as [s d]. cbn [shape data]. intros ->. apply nth_slice. Qed.
  Lemma slice_length_t n rest (t : tensor) k : shape t = n :: rest -> twf t -> k < n -> length (data (slice t k)) = prod rest.
  Proof. destruct t as [s d]. unfold twf. cbn [shape data]. intros -> W. apply slice_length. exact W. Qed.

  Section Linear.
    Variables (n : nat) (mid : list nat) (I J : nat) (x e : tensor).
    Let lead := n :: mid.
    Let M := prod mid.
    Hypothesis (Sx : shape x = lead ++ [J]) (Se : shape e = lead ++ [I]).

    Definition G_lin : tensor := tgen [n; I; J] (fun i => sum M (fun p =>
      fmul (mget (T [n * M; I] (data e)) (ix 0 i * M + p) (ix 1 i)) (mget (T [n * M; J] (data x)) (ix 0 i * M + p) (ix 2 i)))).
    Lemma psg_linear_ok : psg_linear x e = Ok G_lin.
    Proof.
      unfold psg_linear, einsum_outer. rewrite Sx, Se, !split_last_app, bcast_refl. cbn [bind]. rewrite !expand_lead_refl.
      unfold reduce_mid. cbn [shape]. unfold lead at 1. cbn [app].
      replace (rev (mid ++ [I; J])) with (J :: I :: rev mid) by (rewrite rev_app_distr; reflexivity).
      assert (R : prod (rev mid) = M).
      { unfold M. clear. induction mid as [|a l IH]; [reflexivity|]. cbn [rev]. rewrite prod_app, IH, prod_cons.
        change (prod [a]) with (a * 1). rewrite Nat.mul_1_r. apply Nat.mul_comm. }
      rewrite R. f_equal. apply tgen_ext. intros idx V. apply valid3_inv in V. destruct V as (a & i & j & -> & La & Li & Lj).
      cbn [ix nth]. apply sum_ext. intros p Lp. cbn [data].
      assert (LP : prod lead = n * M) by reflexivity.
      rewrite (tget_regen [prod lead; I; J] _ [n; M; I; J] [a; p; i; j] [a * M + p; i; j]).
      - cbn [ix nth]. rewrite LP. reflexivity.
      - apply valid3; [rewrite LP; nia|assumption..].
      - cbn. lia.
    Qed.
    Hypothesis (We : twf e) (Wx : twf x).
    Lemma e_len : length (data e) = n * (M * I).
    Proof. rewrite We, Se. unfold lead. rewrite prod_app, prod_cons. fold M. change (prod [I]) with (I * 1). lia. Qed.

    (** inner product of the error of sample [a] with the outputs, as a double sum *)
    Lemma dot_linear (W : tensor) b a : a < n ->
      dot (slice e a) (slice (linear W b lead I J x) a) =
      sum M (fun p => sum I (fun i => fmul (mget (T [n * M; I] (data e)) (a * M + p) i)
        (fadd (sum J (fun j => fmul (mget W i j) (mget (T [n * M; J] (data x)) (a * M + p) j))) (b i)))).
    Proof.
      intros La. destruct e as [se de]. cbn [shape data] in *. subst se. unfold dot, lead in *. cbn [app].
      assert (PM : prod (mid ++ [I]) = M * I) by (rewrite prod_app; change (prod [I]) with (I * 1); unfold M; lia).
      assert (Ld : length de = n * (M * I)) by (unfold twf in We; cbn [data shape app] in We; rewrite We, prod_cons, PM; reflexivity).
      rewrite slice_length by (rewrite ?PM; assumption). rewrite PM, sum_mul.
      apply sum_ext. intros p Lp. apply sum_ext. intros i Li. unfold linear. cbn [app].
      assert (Lk : p * I + i < M * I) by nia.
      rewrite !nth_slice by (rewrite PM; exact Lk). rewrite PM.
      replace (a * (M * I) + (p * I + i)) with ((a * M + p) * I + i) by lia.
      unfold mgen. rewrite nth_tgen2; [|change (prod (n :: mid)) with (n * M); nia|exact Li].
      cbn [nth]. f_equal. unfold mget, tget. cbn [shape data ravel]. f_equal. cbn. lia.
    Qed.
    Lemma dot_G_lin (W : tensor) a : a < n -> shape W = [I; J] ->
      dot (slice G_lin a) W = sum I (fun i => sum J (fun j => fmul (sum M (fun p =>
        fmul (mget (T [n * M; I] (data e)) (a * M + p) i) (mget (T [n * M; J] (data x)) (a * M + p) j))) (mget W i j))).
    Proof.
      intros La SW. unfold dot, G_lin.
      assert (PM : prod [I; J] = I * J) by (cbn; lia).
      rewrite (slice_length_t n [I; J]) by (auto; apply tgen_wf).
      rewrite PM, sum_mul. apply sum_ext. intros i Li. apply sum_ext. intros j Lj.
      rewrite (nth_slice_t n [I; J]) by (auto; rewrite PM; nia). f_equal.
      - rewrite PM. rewrite nth_tgen by (rewrite prod_cons, PM; nia).
        replace (a * (I * J) + (i * J + j)) with (ravel [n; I; J] [a; i; j]) by (cbn; lia).
        rewrite unravel_ravel by (apply valid3; assumption). reflexivity.
      - unfold mget, tget. rewrite SW. f_equal. cbn. lia.
    Qed.
    Lemma psg_linear_grad (W W' : tensor) b a : a < n -> shape W = [I; J] -> shape W' = [I; J] ->
      fsub (dot (slice e a) (slice (linear W' b lead I J x) a)) (dot (slice e a) (slice (linear W b lead I J x) a)) =
      fsub (dot (slice G_lin a) W') (dot (slice G_lin a) W).
    Proof.
      intros La S1 S2. rewrite !dot_linear, !dot_G_lin by assumption.
      assert (E : forall V : tensor,
        sum I (fun i => sum J (fun j => fmul (sum M (fun p =>
          fmul (mget (T [n * M; I] (data e)) (a * M + p) i) (mget (T [n * M; J] (data x)) (a * M + p) j))) (mget V i j))) =
        fsub (sum M (fun p => sum I (fun i => fmul (mget (T [n * M; I] (data e)) (a * M + p) i)
          (fadd (sum J (fun j => fmul (mget V i j) (mget (T [n * M; J] (data x)) (a * M + p) j))) (b i)))))
             (sum M (fun p => sum I (fun i => fmul (mget (T [n * M; I] (data e)) (a * M + p) i) (b i))))).
      { intros V. rewrite <- sum_sub.
        transitivity (sum I (fun i => sum M (fun p => sum J (fun j =>
          fmul (fmul (mget (T [n * M; I] (data e)) (a * M + p) i) (mget (T [n * M; J] (data x)) (a * M + p) j)) (mget V i j))))).
        - apply sum_ext. intros i Li. rewrite sum_swap. apply sum_ext. intros j Lj. rewrite <- sum_mul_r. reflexivity.
        - rewrite sum_swap. apply sum_ext. intros p Lp. rewrite <- sum_sub. apply sum_ext. intros i Li.
          set (u := mget (T [n * M; I] (data e)) (a * M + p) i).
          transitivity (fmul u (sum J (fun j => fmul (mget V i j) (mget (T [n * M; J] (data x)) (a * M + p) j)))); [|ring].
          rewrite <- sum_mul_l. apply sum_ext. intros j Lj. ring. }
      rewrite !E. ring.
    Qed.
    Lemma G_lin_wf : twf G_lin.
    Proof. apply tgen_wf. Qed.
  End Linear.
End Proofs.
