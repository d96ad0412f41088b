(** In-place addition with broadcasting. *)
From Coq Require Import ZArith Permutation.
From Verif Require Import GradProofs3 Py Field Tensor ModelGrad Monad ModelState ModelMmap ModelSaver ModelLogger SpecGrad SpecState SpecLogger.
Local Open Scope nat_scope.

Section P.
  Context {F : Type} `{OField F}.
  Add Field FfB : f_theory.
  Notation tensor := (tensor F).
  Notation dten := (@dten F).

  Lemma fits_refl a : fits a a.
  Proof. split; [lia|]. intros k. left. reflexivity. Qed.
  Lemma size_at_out k a : length a <= k -> size_at k a = 1.
  Proof. intros L. unfold size_at. apply nth_overflow. rewrite rev_length. exact L. Qed.
  Lemma size_at_ext a b : length a = length b -> (forall k, size_at k a = size_at k b) -> a = b.
  Proof.
    intros L E. apply (nth_ext a b 1 1 L). intros k Lk. rewrite (nth_size_at a k Lk), (nth_size_at b k) by lia. rewrite L. apply E.
  Qed.
  Lemma fits_antisym a b : fits a b -> fits b a -> a = b.
  Proof.
    intros [L1 F1] [L2 F2]. apply size_at_ext; [lia|]. intros k. destruct (F1 k) as [E|E]; [exact E|].
    destruct (F2 k) as [E'|E']; [congruence|]. congruence.
  Qed.
  Lemma bcast_fits a b : match bcast a b with Ok sh => sh = a <-> fits b a | Err e => e = RuntimeError /\ ~ fits b a end.
  Proof.
    pose proof (bcast_spec a b) as HB. destruct (bcast a b) as [l|e].
    - destruct HB as (_ & Ll & HB). split.
      + intros ->. split; [lia|]. intros k. destruct (HB k) as (_ & E & _). exact E.
      + intros [Lb Hf]. apply size_at_ext; [lia|]. intros k. destruct (HB k) as ([E1|E1] & E2 & [E3|E3]); try congruence.
        destruct (Hf k); congruence.
    - destruct HB as (-> & k & N1 & N2 & N3). split; [reflexivity|]. intros [_ Hf]. destruct (Hf k); congruence.
  Qed.
  Lemma entry_at_nth sh idx k : k < length sh -> nth k (rev (entry_at sh idx)) 0 = if size_at k sh =? 1 then 0 else nth k (rev idx) 0.
  Proof.
    intros L. unfold entry_at. rewrite rev_involutive.
    rewrite (nth_indep _ _ ((fun k => if size_at k sh =? 1 then 0 else nth k (rev idx) 0) 0)) by (rewrite map_length, seq_length; exact L).
    rewrite (map_nth (fun k => if size_at k sh =? 1 then 0 else nth k (rev idx) 0)), seq_nth by exact L. reflexivity.
  Qed.
  Lemma entry_at_length sh idx : length (entry_at sh idx) = length sh.
  Proof. unfold entry_at. rewrite rev_length, map_length, seq_length. reflexivity. Qed.
  Lemma rev_ext (a b : list nat) : length a = length b -> (forall k, k < length a -> nth k (rev a) 0 = nth k (rev b) 0) -> a = b.
  Proof.
    intros L E. rewrite <- (rev_involutive a), <- (rev_involutive b). f_equal. apply (nth_ext _ _ 0 0); rewrite ?rev_length; [exact L|exact E].
  Qed.
  Lemma valid_rev sh i k : valid sh i -> k < length sh -> nth k (rev i) 0 < size_at k sh.
  Proof.
    intros V L. apply valid_nth in V as (Li & V). rewrite rev_nth by lia. specialize (V (length sh - S k) ltac:(lia)).
    rewrite nth_size_at in V by lia. replace (length sh - S (length sh - S k)) with k in V by lia. rewrite Li. exact V.
  Qed.
  Lemma entry_at_id sh idx : valid sh idx -> entry_at sh idx = idx.
  Proof.
    intros V. pose proof (proj1 (proj1 (valid_nth _ _) V)) as Li. apply rev_ext; [rewrite entry_at_length; lia|].
    intros k Lk. rewrite entry_at_length in Lk. rewrite entry_at_nth by exact Lk.
    destruct (Nat.eqb_spec (size_at k sh) 1) as [E|E]; [|reflexivity]. pose proof (valid_rev _ _ _ V Lk). lia.
  Qed.
  Lemma bclip_entry sh (l i : list nat) : length i = length l -> length sh <= length l -> bclip sh (skipn (length l - length sh) i) = entry_at sh i.
  Proof.
    intros Li Ls. assert (Lk' : length (skipn (length l - length sh) i) = length sh) by (rewrite skipn_length; lia).
    apply rev_ext; [rewrite entry_at_length; apply bclip_length; exact Lk'|].
    rewrite bclip_length by exact Lk'. intros k Lk. rewrite entry_at_nth by exact Lk.
    rewrite rev_nth by (rewrite bclip_length by exact Lk'; exact Lk). rewrite bclip_length by exact Lk'.
    rewrite bclip_nth by (exact Lk' || lia). rewrite nth_size_at by lia. replace (length sh - S (length sh - S k)) with k by lia.
    destruct (size_at k sh =? 1); [reflexivity|]. rewrite rev_nth by lia.
    transitivity (nth (length i - S k) (firstn (length l - length sh) i ++ skipn (length l - length sh) i) 0); [|rewrite firstn_skipn; reflexivity].
    rewrite app_nth2; rewrite firstn_length; [f_equal; lia|lia].
  Qed.

  Lemma iadd_spec (a b : dten) : twf (snd a) -> twf (snd b) ->
    match iadd_ a b with
    | Ok c => fst a = fst b /\ fits (shape (snd b)) (shape (snd a)) /\ fst c = fst a /\ shape (snd c) = shape (snd a) /\ twf (snd c) /\
        forall idx, valid (shape (snd a)) idx -> tget (snd c) idx = fadd (tget (snd a) idx) (tget (snd b) (entry_at (shape (snd b)) idx))
    | Err e => e = RuntimeError /\ (fst a <> fst b \/ ~ fits (shape (snd b)) (shape (snd a)))
    end.
  Proof.
    intros Wa Wb. unfold iadd_. destruct (dev_eqb (fst a) (fst b)) eqn:Ed.
    2:{ split; [reflexivity|]. left. intros E. rewrite E in Ed. destruct (fst b); discriminate Ed. }
    assert (Ed' : fst a = fst b) by (destruct (fst a), (fst b); congruence || discriminate Ed). clear Ed.
    destruct (same_shape _ _) eqn:ES.
    - destruct (tadd (snd a) (snd b)) as [c|] eqn:Ea.
      2:{ unfold tadd, tzip in Ea. rewrite ES in Ea. discriminate Ea. }
      apply same_shape_true in ES. cbn [bind]. cbn [fst snd].
      assert (Es : shape c = shape (snd a)). { unfold tadd, tzip in Ea. destruct (same_shape _ _); [|discriminate Ea]. injection Ea as <-. reflexivity. }
      split; [exact Ed'|]. split; [rewrite ES; apply fits_refl|]. split; [reflexivity|]. split; [exact Es|]. split.
      + unfold tadd, tzip in Ea. destruct (same_shape _ _); [|discriminate Ea]. injection Ea as <-. unfold twf in *. cbn [data shape].
        rewrite <- Wa. assert (Hz : forall x y : list F, length x = length y -> length (zipw fadd x y) = length x).
        { induction x as [|p x IH]; intros [|q y] El; cbn in *; try lia. rewrite IH; lia. }
        apply Hz. rewrite Wa, Wb, ES. reflexivity.
      + intros idx V. rewrite entry_at_id by (rewrite <- ES; exact V). exact (tget_tzip fadd _ _ _ idx Wa Wb Ea V).
    - unfold add_wide. pose proof (bcast_fits (shape (snd a)) (shape (snd b))) as HB.
      destruct (bcast _ _) as [sh|e]; cbn [bind].
      + destruct (same_shape sh (shape (snd a))) eqn:E2; cbn [bind].
        * apply same_shape_true in E2. apply HB in E2. cbn [fst snd]. split; [exact Ed'|]. split; [exact E2|]. split; [reflexivity|]. split; [reflexivity|].
          split; [apply tgen_wf|]. intros idx V. rewrite tget_tgen by exact V. do 2 f_equal. apply bclip_entry; [|exact (proj1 E2)].
          exact (proj1 (proj1 (valid_nth _ _) V)).
        * split; [reflexivity|]. right. intros Hf. apply HB in Hf. subst sh. rewrite same_shape_refl in E2. discriminate E2.
      + destruct HB as (-> & NF). split; [reflexivity|]. right. exact NF.
  Qed.
  Lemma iadd_err (a b : dten) e : iadd_ a b = Err e -> e = RuntimeError.
  Proof.
    unfold iadd_. destruct (dev_eqb _ _); [|congruence]. destruct (same_shape _ _) eqn:ES.
    - unfold tadd, tzip. rewrite ES. discriminate.
    - unfold add_wide. pose proof (bcast_fits (shape (snd a)) (shape (snd b))) as HB. destruct (bcast _ _) as [sh|e']; cbn [bind].
      + destruct (same_shape sh (shape (snd a))); cbn [bind]; [discriminate|intros [= <-]; reflexivity].
      + destruct HB as (-> & _). congruence.
  Qed.

  (** sums *)
  Lemma onto_lsum_snoc (l : list F) a : lsum (l ++ [a]) = fadd (lsum l) a.
  Proof. induction l as [|b l IH]; [unfold lsum; cbn; ring|]. cbn [app]. unfold lsum in *. cbn [fold_right]. rewrite IH. ring. Qed.
  Lemma sum_onto_one (t : tensor) : twf t -> sum_onto [t] t.
  Proof.
    intros W. split; [exact W|]. split; [reflexivity|]. split; [constructor; [apply fits_refl|constructor]|].
    intros idx V. cbn [map]. rewrite entry_at_id by exact V. unfold lsum. cbn. ring.
  Qed.
  Lemma sum_onto_snoc ts d d' (t u : tensor) c : ts <> [] -> sum_onto ts t -> twf u -> iadd_ (d, t) (d', u) = Ok c -> sum_onto (ts ++ [u]) (snd c).
  Proof.
    intros N (HW & HH & HS & HT) HU E. pose proof (iadd_spec (d, t) (d', u) HW HU) as HI. rewrite E in HI. cbn [fst snd] in HI.
    destruct HI as (_ & Hf & _ & Es & Wc & HV). split; [exact Wc|]. split; [|split].
    - rewrite Es, HH. destruct ts as [|t0 ts]; [congruence|]. reflexivity.
    - rewrite Es. apply Forall_app. split; [exact HS|]. constructor; [exact Hf|constructor].
    - intros idx V. rewrite Es in V. rewrite map_app. cbn [map]. rewrite onto_lsum_snoc, <- (HT idx V). exact (HV idx V).
  Qed.
  Lemma onto_lsum_perm (l l' : list F) : Permutation l l' -> lsum l = lsum l'.
  Proof. intros HP. induction HP; unfold lsum in *; cbn [fold_right]; [reflexivity|rewrite IHHP; reflexivity|ring|congruence]. Qed.
  Lemma sum_onto_perm ts ts' (t t' : tensor) : ts <> [] -> Permutation ts ts' -> sum_onto ts t -> sum_onto ts' t' -> t = t'.
  Proof.
    intros N HP (HW & HH & HS & HT) (HW' & HH' & HS' & HT').
    destruct ts as [|u r]; [congruence|]. destruct ts' as [|u' r']; [apply Permutation_sym, Permutation_nil in HP; discriminate HP|]. cbn [hd] in HH, HH'.
    rewrite Forall_forall in HS, HS'.
    assert (Es : shape t = shape t').
    { apply fits_antisym.
      - rewrite HH. apply HS'. exact (Permutation_in _ HP (or_introl eq_refl)).
      - rewrite HH'. apply HS. exact (Permutation_in _ (Permutation_sym HP) (or_introl eq_refl)). }
    apply tensor_ext; try assumption. intros idx HV. rewrite HT by exact HV. rewrite HT' by (rewrite <- Es; exact HV).
    apply onto_lsum_perm. apply Permutation_map. exact HP.
  Qed.
  Lemma sum_onto_of ts (t : tensor) : (forall u, In u ts -> shape u = shape t) -> sum_onto ts t -> sum_of ts t.
  Proof.
    intros HE (HW & _ & _ & HT). split; [exact HW|]. split; [rewrite Forall_forall; exact HE|]. intros idx V. rewrite (HT idx V). f_equal.
    apply map_ext_in. intros u Hu. rewrite entry_at_id; [reflexivity|]. rewrite (HE u Hu). exact V.
  Qed.
End P.
