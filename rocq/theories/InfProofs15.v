(** Rows of tensors: operations that treat every source sample on its own. *)
From Verif Require Import Py PyStr Field Tensor ModelGrad Monad ModelState ModelInfluence SpecGrad SpecState SpecInfluence GradProofs1 GradProofs2 StateProofs1 InfProofs1 InfProofs2 InfProofs10.
Local Open Scope string_scope.
Local Open Scope list_scope.
Local Open Scope nat_scope.

Section Proofs.
  Context {F : Type} `{OField F}.
  Add Field FfI15 : f_theory.
  Notation tensor := (tensor F).
  Notation dten := (@dten F).
  Notation tlog := (@tlog F).

  (** [n] samples *)
  Definition samples (n : nat) (t : tensor) : Prop := exists r, shape t = n :: r /\ twf t.

  Variables off k n : nat.
  Hypothesis Lk : off + k <= n.
  Notation R := (rows (F:=F) off k).

  Lemma rows_size (t : tensor) : shape (R t) = k :: tl (shape t).
  Proof. reflexivity. Qed.
  Lemma rows_get (t : tensor) r j idx : shape t = n :: r -> j < k -> valid r idx -> tget (R t) (j :: idx) = tget t (off + j :: idx).
  Proof.
    intros St Lj V. unfold tget. rewrite rows_size, St. cbn [tl ravel]. unfold rows. rewrite St. cbn [tl data]. pose proof (ravel_lt _ _ V) as L.
    rewrite nth_firstn_skipn; [f_equal; lia|]. assert (S j * prod r <= k * prod r) by (apply Nat.mul_le_mono_r; lia). lia.
  Qed.
  Lemma rows_tgen r (f : list nat -> F) : R (tgen (n :: r) f) = tgen (k :: r) (fun x => f (off + ix 0 x :: tl x)).
  Proof.
    assert (W : twf (R (tgen (n :: r) f))) by (apply (rows_wf off k _ n r); [reflexivity|apply tgen_wf|exact Lk]).
    apply tensor_ext; [exact W|apply tgen_wf|reflexivity|]. intros idx V. rewrite rows_size in V. cbn [shape tgen tl] in V. inversion V as [|j ? idx' ? Lj V']; subst.
    rewrite (rows_get (tgen (n :: r) f) r j idx' eq_refl Lj V'). rewrite tget_tgen by (constructor; [lia|exact V']). rewrite tget_tgen by (constructor; assumption). reflexivity.
  Qed.
  Lemma rows_mgen m (f : nat -> nat -> F) : R (mgen n m f) = mgen k m (fun i j => f (off + i) j).
  Proof. unfold mgen. rewrite rows_tgen. apply tgen_ext. intros idx V. apply valid2_inv in V. destruct V as (i & j & -> & _). reflexivity. Qed.
  Lemma samples_rows (t : tensor) : samples n t -> samples k (R t).
  Proof. intros (r & St & W). exists r. split; [rewrite rows_size, St; reflexivity|]. apply (rows_wf off k t n r St W Lk). Qed.

  Lemma at1_lt b b' B p : esize b b' = Ok B -> p < B -> at1 b' p < b'.
  Proof. unfold esize, at1. destruct (Nat.eqb_spec b b'), (Nat.eqb_spec b 1), (Nat.eqb_spec b' 1); intros [= <-] L; lia. Qed.
  Lemma at1_lt' b b' B p : esize b b' = Ok B -> p < B -> at1 b p < b.
  Proof. unfold esize, at1. destruct (Nat.eqb_spec b b'), (Nat.eqb_spec b 1), (Nat.eqb_spec b' 1); intros [= <-] L; lia. Qed.
  Lemma sandwich_rows (u g v r : tensor) : samples n g -> sandwich u g v = Ok r -> samples n r /\ sandwich u (R g) v = Ok (R r).
  Proof.
    intros (w & Sg & W) E. unfold sandwich in *. rewrite rows_size, Sg. rewrite Sg in E. cbn [tl] in *.
    destruct (shape u) as [|a [|b [|]]]; try discriminate E. destruct w as [|b' [|c [|]]]; try discriminate E. destruct (shape v) as [|c' [|d [|]]]; try discriminate E.
    destruct (esize b b') as [B|] eqn:EB; [|discriminate E]. destruct (esize c c') as [C|] eqn:EC; [|discriminate E]. cbn [bind] in *. injection E as <-.
    split; [eexists; split; [reflexivity|apply tgen_wf]|]. rewrite rows_tgen. f_equal. apply tgen_ext. intros idx V. apply valid3_inv in V. destruct V as (i & j & l & -> & Li & Lj & Ll). unfold ix. cbn [nth tl].
    apply sum_ext. intros p Lp. f_equal. apply sum_ext. intros q Lq. f_equal. apply (rows_get g [b'; c] i [at1 b' p; at1 c q] Sg Li). apply valid2; [apply (at1_lt b b' B p EB Lp)|apply (at1_lt' c c' C q EC Lq)].
  Qed.
  Lemma div_each_rows (g e r : tensor) : samples n g -> div_each g e = Ok r -> samples n r /\ div_each (R g) e = Ok (R r).
  Proof.
    intros (w & Sg & W) E. unfold div_each in *. rewrite rows_size, Sg. rewrite Sg in E. cbn [tl] in *.
    destruct w as [|a [|b [|]]]; try discriminate E. destruct (shape e) as [|a' [|b' [|]]]; try discriminate E.
    destruct ((a =? a') && (b =? b')) eqn:Q; [|discriminate E]. injection E as <-. split; [eexists; split; [reflexivity|apply tgen_wf]|]. rewrite rows_tgen. f_equal. apply tgen_ext. intros idx V. apply valid3_inv in V. destruct V as (i & j & l & -> & Li & Lj & Ll). unfold ix. cbn [nth tl].
    f_equal. apply (rows_get g [a; b] i [j; l] Sg Li). apply valid2; assumption.
  Qed.
  Lemma matmul_rows (a b r : tensor) : samples n a -> matmul a b = Ok r -> samples n r /\ matmul (R a) b = Ok (R r).
  Proof.
    intros (w & Sa & W) E. unfold matmul in *. rewrite rows_size, Sa. rewrite Sa in E. cbn [tl] in *. destruct w as [|p [|]]; try discriminate E. destruct (shape b) as [|p' [|l [|]]]; try discriminate E.
    destruct (p =? p'); [|discriminate E]. injection E as <-. split; [eexists; split; [reflexivity|apply tgen_wf]|]. rewrite rows_mgen. f_equal. apply mgen_ext. intros i j Li Lj. apply sum_ext. intros q Lq. f_equal. unfold mget. apply (rows_get a [p] i [q] Sa Li). repeat constructor. exact Lq.
  Qed.
  Lemma rows_reshaped (t : tensor) r r' : shape t = n :: r -> prod r = prod r' -> R (T (n :: r') (data t)) = T (k :: r') (data (R t)).
  Proof. intros St E. unfold rows. cbn [shape tl data]. rewrite St. cbn [tl]. rewrite E. reflexivity. Qed.
  Lemma prod_same r r' : n <> 0 -> n * prod r = n * prod r' -> prod r = prod r'.
  Proof. intros N E. apply Nat.mul_cancel_l in E; assumption. Qed.
  Hypothesis Nk : k <> 0.
  Let Nn : n <> 0. Proof. lia. Qed.
  Lemma reshape_rows (t r : tensor) rest : samples n t -> reshape t (n :: rest) = Ok r -> samples n r /\ reshape (R t) (k :: rest) = Ok (R r).
  Proof.
    intros (w & St & W) E. unfold reshape in *. rewrite rows_size. rewrite St in *. cbn [tl]. rewrite !prod_cons in *. destruct (Nat.eqb_spec (n * prod w) (n * prod rest)) as [Q|Q]; [|discriminate E]. injection E as <-.
    apply (prod_same _ _ Nn) in Q. rewrite Q, Nat.eqb_refl. split.
    - exists rest. split; [reflexivity|]. unfold twf in *. cbn [shape data]. rewrite St, !prod_cons in *. congruence.
    - f_equal. symmetry. apply (rows_reshaped t w rest St Q).
  Qed.
  Lemma infer_ok (t : tensor) m w : m <> 0 -> shape t = m :: w -> reshape_infer t [m] [] = Ok (T [m; prod w] (data t)).
  Proof.
    intros Nm St. unfold reshape_infer. rewrite St. replace (prod [m] * prod []) with m by (cbn; lia). destruct (Nat.eqb_spec m 0); [contradiction|]. rewrite prod_cons. rewrite (Nat.mul_comm m), Nat.mod_mul, Nat.div_mul by assumption. reflexivity.
  Qed.
  Lemma infer_rows (t r : tensor) : samples n t -> reshape_infer t [n] [] = Ok r -> samples n r /\ reshape_infer (R t) [k] [] = Ok (R r).
  Proof.
    intros (w & St & W) E. rewrite (infer_ok t n w Nn St) in E. injection E as <-. rewrite (infer_ok (R t) k w Nk) by (rewrite rows_size, St; reflexivity). split.
    - exists [prod w]. split; [reflexivity|]. unfold twf in *. cbn [shape data]. rewrite W, St, !prod_cons. cbn. lia.
    - f_equal. symmetry. apply (rows_reshaped t w [prod w] St). cbn. lia.
  Qed.
  Lemma zipw_app f (a b c d : list F) : length a = length c -> zipw f (a ++ b) (c ++ d) = zipw f a c ++ zipw f b d.
  Proof. revert c. induction a as [|x a IH]; intros [|y c] E; cbn in *; try lia; [reflexivity|]. f_equal. apply IH. lia. Qed.
  Lemma tadd_rows (a b c : tensor) : samples n a -> samples n b -> tadd a b = Ok c -> samples n c /\ tadd (R a) (R b) = Ok (R c).
  Proof.
    intros (w & Sa & Wa) (w' & Sb & Wb) E. pose proof (tzip_wf _ _ _ _ Wa Wb E) as Wc. unfold tadd in *. pose proof E as E0. unfold tzip in E. destruct (same_shape (shape a) (shape b)) eqn:Q; [|discriminate E]. apply same_shape_true in Q.
    assert (w' = w) as -> by congruence. assert (Sc : shape c = n :: w) by (injection E as <-; exact Sa). split; [exists w; auto|].
    assert (SR : shape (R a) = shape (R b)) by (rewrite !rows_size, Sa, Sb; reflexivity). destruct (tzip fadd (R a) (R b)) as [c'|e] eqn:E'; [|rewrite (tzip_ok fadd _ _ SR) in E'; discriminate E'].
    pose proof (rows_wf off k a n w Sa Wa Lk) as Wra. pose proof (rows_wf off k b n w Sb Wb Lk) as Wrb. pose proof (rows_wf off k c n w Sc Wc Lk) as Wrc. f_equal. apply tensor_ext; [exact (tzip_wf _ _ _ _ Wra Wrb E')|exact Wrc| |].
    - rewrite (tzip_ok fadd _ _ SR) in E'. injection E' as <-. cbn [shape]. rewrite !rows_size, Sa, Sc. reflexivity.
    - intros idx V. assert (V' : valid (k :: w) idx). { rewrite (tzip_ok fadd _ _ SR) in E'. injection E' as <-. cbn [shape] in V. rewrite Sa in V. exact V. }
      rewrite (tget_tzip fadd _ _ _ idx Wra Wrb E') by (rewrite rows_size, Sa; exact V'). inversion V' as [|j ? idx' ? Lj V2]; subst. rewrite (rows_get a w j idx' Sa Lj V2), (rows_get b w j idx' Sb Lj V2), (rows_get c w j idx' Sc Lj V2).
      symmetry. apply (tget_tzip fadd _ _ _ _ Wa Wb E0). rewrite Sa. constructor; [lia|exact V2].
  Qed.
  Lemma tcat1_rows (a b c : tensor) : samples n a -> samples n b -> tcat1 a b = Ok c -> samples n c /\ tcat1 (R a) (R b) = Ok (R c).
  Proof.
    intros (w & Sa & Wa) (w' & Sb & Wb) E. unfold tcat1 in *. rewrite !rows_size. rewrite Sa, Sb in *. cbn [tl]. destruct w as [|p [|]]; try discriminate E. destruct w' as [|l [|]]; try discriminate E. rewrite !Nat.eqb_refl in *. injection E as <-.
    split; [eexists; split; [reflexivity|apply tgen_wf]|]. rewrite rows_mgen. f_equal. apply mgen_ext. intros i j Li Lj. destruct (Nat.ltb_spec j p); unfold mget; [apply (rows_get a [p] i [j] Sa Li)|apply (rows_get b [l] i [j - p] Sb Li)]; repeat constructor; lia.
  Qed.
  Definition Rd (x : dten) : dten := (fst x, R (snd x)).
  Definition mat (n : nat) (t : tensor) : Prop := exists q, shape t = [n; q] /\ twf t.
  Lemma cross_rows (a b c : dten) : samples n (snd a) -> cross_dot_product a b = Ok c -> mat n (snd c) /\ cross_dot_product (Rd a) b = Ok (Rd c).
  Proof.
    intros (w & Sa & Wa) E. unfold cross_dot_product in *. unfold Rd. cbn [fst snd]. rewrite rows_size. rewrite Sa in *. cbn [tl] in *. destruct (same_shape w (tl (shape (snd b)))); [|discriminate E]. destruct (shape (snd b)) as [|m rb]; [discriminate E|]. destruct (dev_eqb (fst a) (fst b)); [|discriminate E]. injection E as <-.
    cbn [fst snd]. split; [eexists; split; [reflexivity|apply tgen_wf]|]. rewrite rows_mgen. f_equal. f_equal. apply mgen_ext. intros i j Li Lj. apply sum_ext. intros p Lp. f_equal.
    rewrite <- (rows_reshaped (snd a) w [prod w] Sa) by (cbn; lia). unfold mget. apply (rows_get (T [n; prod w] (data (snd a))) [prod w] i [p] eq_refl Li). repeat constructor. exact Lp.
  Qed.
  Lemma add_rows (a b c : dten) : mat n (snd a) -> mat n (snd b) -> iadd_ a b = Ok c -> mat n (snd c) /\ iadd_ (Rd a) (Rd b) = Ok (Rd c).
  Proof.
    intros (p & Sa & Wa) (q & Sb & Wb) E. rewrite (iadd_mat a b n p n q Sa Sb Wa Wb) in E.
    assert (Sa' : shape (snd (Rd a)) = [k; p]) by (cbn [Rd snd]; rewrite rows_size, Sa; reflexivity). assert (Sb' : shape (snd (Rd b)) = [k; q]) by (cbn [Rd snd]; rewrite rows_size, Sb; reflexivity).
    rewrite (iadd_mat (Rd a) (Rd b) k p k q Sa' Sb' (rows_wf off k (snd a) n [p] Sa Wa Lk) (rows_wf off k (snd b) n [q] Sb Wb Lk)). cbn [Rd fst snd]. rewrite !Nat.eqb_refl in *. cbn [orb] in *.
    destruct (dev_eqb (fst a) (fst b) && true && ((q =? p) || (q =? 1))) eqn:G; [|discriminate E]. injection E as <-. cbn [fst snd]. split; [exists p; split; [reflexivity|apply tgen_wf]|].
    unfold Rd. cbn [fst snd]. rewrite rows_mgen. f_equal. f_equal. apply mgen_ext. intros i j Li Lj. rewrite (at1_in k i) by exact Li. rewrite (at1_in n (off + i)) by lia. unfold mget. f_equal; [apply (rows_get (snd a) [p] i [j] Sa Li); repeat constructor; exact Lj|].
    apply (rows_get (snd b) [q] i [at1 q j] Sb Li). repeat constructor. apply andb_prop in G. destruct G as (_ & G). apply orb_prop in G. unfold at1. destruct (Nat.eqb_spec q 1) as [|N1]; [lia|]. destruct G as [G|G]; [apply Nat.eqb_eq in G; lia|discriminate G].
  Qed.
End Proofs.
