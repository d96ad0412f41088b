(** Scores of logs in which some modules have a single row. *)
From Verif Require Import Py PyStr Field Tensor ModelGrad Monad ModelState ModelInfluence SpecGrad SpecState SpecInfluence SpecSpread GradProofs1 GradProofs2 StateProofs1 InfProofs1 InfProofs2 InfProofs8.
Local Open Scope string_scope.
Local Open Scope list_scope.
Local Open Scope nat_scope.

Section Proofs.
  Context {F : Type} `{OField F}.
  Add Field FfSp1 : f_theory.
  Notation tensor := (tensor F).
  Notation lstate := (@lstate F).
  Notation dten := (@dten F).
  Notation tlog := (@tlog F).
  Variable eigh : tensor -> res (tensor * tensor).
  Variable inverse : tensor -> res tensor.
  Variable fsqrt : F -> F.
  Notation compute_influence := (compute_influence eigh inverse fsqrt).
  Notation compute_self_influence := (compute_self_influence eigh inverse).
  Notation prec_step := (prec_step eigh inverse).

  Definition growsb (a b : nat) : bool := (a =? b) || (a =? 1).
  Lemma growsb_ok a b : growsb a b = true <-> grows a b.
  Proof. unfold growsb, grows. rewrite orb_true_iff, !Nat.eqb_eq. tauto. Qed.
  Lemma at1_spot n i : at1 n i = spot n i.
  Proof. reflexivity. Qed.
  Lemma spot_lt a b i : grows a b -> i < b -> spot a i < a.
  Proof. unfold grows, spot. intros [->| ->] L; [destruct (Nat.eqb_spec b 1); lia|cbn; lia]. Qed.

  (** one more module *)
  Lemma lsum_snoc {A} (f : A -> F) l x : lsum (map f (l ++ [x])) = fadd (lsum (map f l)) (f x).
  Proof. rewrite map_app, lsum_app. cbn [map]. unfold lsum at 2. cbn [fold_right]. ring. Qed.

  Lemma total_next m (x a : dten) : add_module None m x [("total", Some a)] = let* o := iadd_ a x in Ok [("total", Some o)].
  Proof. unfold add_module, add_score, dgetM. cbn [dget]. rewrite eqb_refl. cbn [bind]. destruct (iadd_ a x); reflexivity. Qed.
  Lemma total_first m (x : dten) : add_module None m x (init_scores None) = Ok [("total", Some x)].
  Proof. reflexivity. Qed.
  Section Loop.
    Variable add1 : string -> res dten.      (* the contribution of a module *)
    Variable acc : list string -> dten.      (* what has been accumulated *)
    Variable fit : string -> bool.
    Hypothesis step : forall l m x, add1 m = Ok x -> l <> [] -> iadd_ (acc l) x = if fit m then Ok (acc (l ++ [m])) else Err RuntimeError.
    Lemma spread_loop ms : (forall m, In m ms -> exists x, add1 m = Ok x) -> forall l, l <> [] ->
      foldM (fun d m => let* x := add1 m in add_module None m x d) ms [("total", Some (acc l))] = if forallb fit ms then Ok [("total", Some (acc (l ++ ms)))] else Err RuntimeError.
    Proof.
      induction ms as [|m ms IH]; intros P l Nl; [rewrite app_nil_r; reflexivity|]. cbn [foldM forallb]. destruct (P m (or_introl eq_refl)) as (x & Ex). rewrite Ex. cbn [bind].
      cbn [bind]. rewrite total_next, (step l m x Ex Nl). destruct (fit m); [|reflexivity]. cbn [bind andb].
      rewrite (IH (fun y I => P y (or_intror I)) (l ++ [m])) by (destruct l; discriminate). rewrite <- app_assoc. reflexivity.
    Qed.
    Lemma spread_all m0 ms : (forall m, In m (m0 :: ms) -> exists x, add1 m = Ok x) -> add1 m0 = Ok (acc [m0]) ->
      foldM (fun d m => let* x := add1 m in add_module None m x d) (m0 :: ms) (init_scores None) = if forallb fit ms then Ok [("total", Some (acc (m0 :: ms)))] else Err RuntimeError.
    Proof.
      intros P E0. cbn [foldM]. rewrite E0. cbn [bind]. rewrite total_first. cbn [bind].
      apply (spread_loop ms (fun m I => P m (or_intror I)) [m0]). discriminate.
    Qed.
  End Loop.

  (** influence *)
  Section Pairs.
    Variables (dv : dev) (rn rk : string -> nat) (A B : tlog).
    Hypothesis PR : spread_pairs dv rn rk A B.
    Definition sacc n k (l : list string) : dten := (dv, mgen n k (spread_score rn rk A B l)).
    Definition one (m : string) : res dten := let* a := log_item (log_nd A) m "grad" in let* b := log_item (log_nd (moved dv B)) m "grad" in cross_dot_product a b.
    Lemma one_ok m : In m (dkeys A) -> one m = Ok (dv, mgen (rn m) (rk m) (fun i j => gdot A B i j m)).
    Proof.
      intros I. destruct (paired_cross dv (rn m) (rk m) A B m (PR m I)) as (a & b & Ea & Eb & Ec). unfold one. rewrite !log_item_look. unfold grad_of in Ea, Eb. rewrite Ea, Eb. cbn [bind]. rewrite Ec. unfold acc2, score_matrix. f_equal. f_equal. apply mgen_ext. intros i j _ _.
      unfold score, lsum. cbn [map fold_right]. ring.
    Qed.
    Lemma one_step n k l m x : In m (dkeys A) -> one m = Ok x -> iadd_ (sacc n k l) x = if growsb (rn m) n && growsb (rk m) k then Ok (sacc n k (l ++ [m])) else Err RuntimeError.
    Proof.
      intros I E. rewrite (one_ok m I) in E. injection E as <-. rewrite (iadd_mat (sacc n k l) _ n k (rn m) (rk m)); try reflexivity; try apply tgen_wf. unfold sacc at 1 2 3. cbn [fst snd]. rewrite dev_eqb_refl. cbn [andb]. unfold growsb.
      destruct (((rn m =? n) || (rn m =? 1)) && ((rk m =? k) || (rk m =? 1))) eqn:G; [|reflexivity]. apply andb_prop in G. destruct G as (G1 & G2). apply growsb_ok in G1, G2.
      unfold sacc. f_equal. f_equal. apply mgen_ext. intros i j Li Lj. rewrite !at1_spot. rewrite !mget_mgen by (assumption || apply spot_lt with (1 := G1) || apply spot_lt with (1 := G2); assumption). unfold spread_score. rewrite lsum_snoc. reflexivity.
    Qed.
    Lemma one_first m : In m (dkeys A) -> one m = Ok (sacc (rn m) (rk m) [m]).
    Proof.
      intros I. rewrite (one_ok m I). unfold sacc. f_equal. f_equal. apply mgen_ext. intros i j Li Lj. unfold spread_score, lsum. cbn [map fold_right]. replace (spot (rn m) i) with i by (unfold spot; destruct (Nat.eqb_spec (rn m) 1); lia). replace (spot (rk m) j) with j by (unfold spot; destruct (Nat.eqb_spec (rk m) 1); lia). ring.
    Qed.
    Lemma spread_scores m0 ms : dkeys A = m0 :: ms ->
      foldM (fun d m => let* a := log_item (log_nd A) m "grad" in let* b := log_item (log_nd (moved dv B)) m "grad" in let* x := cross_dot_product a b in add_module None m x d) (dkeys A) (init_scores None) =
      if forallb (fun m => growsb (rn m) (rn m0) && growsb (rk m) (rk m0)) ms then Ok [("total", Some (sacc (rn m0) (rk m0) (dkeys A)))] else Err RuntimeError.
    Proof.
      intros D. transitivity (foldM (fun d m => let* x := (if mem m (dkeys A) then one m else Err IndexError) in add_module None m x d) (dkeys A) (init_scores None)).
      { assert (X : forall l d, (forall m, In m l -> In m (dkeys A)) -> foldM (fun d m => let* a := log_item (log_nd A) m "grad" in let* b := log_item (log_nd (moved dv B)) m "grad" in let* x := cross_dot_product a b in add_module None m x d) l d = foldM (fun d m => let* x := (if mem m (dkeys A) then one m else Err IndexError) in add_module None m x d) l d).
        { induction l as [|m l IH]; intros d S; [reflexivity|]. cbn [foldM]. replace (mem m (dkeys A)) with true by (symmetry; apply mem_In; apply S; left; reflexivity). unfold one. destruct (log_item (log_nd A) m "grad"); cbn [bind]; [|reflexivity]. destruct (log_item (log_nd (moved dv B)) m "grad"); cbn [bind]; [|reflexivity]. destruct (cross_dot_product _ _) as [c|]; cbn [bind]; [|reflexivity]. destruct (add_module None m c d); cbn [bind]; [|reflexivity]. apply IH. intros x I. apply S. right. exact I. }
        apply X. auto. }
      refine (eq_trans (eq_trans _ (spread_all (fun m => if mem m (dkeys A) then one m else Err IndexError) (sacc (rn m0) (rk m0)) (fun m => growsb (rn m) (rn m0) && growsb (rk m) (rk m0)) _ m0 ms _ _)) _).
      - rewrite <- D. reflexivity.
      - intros l m x E _. destruct (mem m (dkeys A)) eqn:M; [|discriminate E]. apply mem_In in M. apply one_step; assumption.
      - intros m I. rewrite <- D in I. replace (mem m (dkeys A)) with true by (symmetry; apply mem_In; exact I). rewrite (one_ok m I). eauto.
      - assert (I : In m0 (dkeys A)) by (rewrite D; left; reflexivity). replace (mem m0 (dkeys A)) with true by (symmetry; apply mem_In; exact I). apply one_first. exact I.
      - rewrite <- D. reflexivity.
    Qed.
  End Pairs.

  Lemma influence_spread dv rn rk A B m0 ms sids tids h d (s : lstate) : dkeys A = m0 :: ms -> spread_pairs dv rn rk A B -> head_on dv A B ->
    compute_influence (sids, Nest (log_nd A)) (tids, Nest (log_nd B)) "dot" false h None d s =
    (s, if forallb (fun m => growsb (rn m) (rn m0) && growsb (rk m) (rk m0)) ms
        then if (rn m0 =? length sids) && (rk m0 =? length tids) then Ok (InfRes sids tids (Mat (mgen (rn m0) (rk m0) (spread_score rn rk A B (dkeys A))))) else Err AssertionError
        else Err RuntimeError).
  Proof.
    intros D PR Hd. unfold ModelInfluence.compute_influence. cbn [mem].
    change (String.eqb "dot" "cosine") with false. change (String.eqb "dot" "l2") with false. change (eqb "dot"%string "dot"%string) with true. cbv [sbind sret lift]. cbn [fst snd].
    assert (NB : log_keys B <> []) by (eapply pair_keys; apply (PR m0); rewrite D; left; reflexivity).
    rewrite (sync_ok dv A B Hd NB). rewrite log_nd_keys. rewrite (spread_scores dv rn rk A B PR m0 ms D). destruct (forallb _ ms); [|reflexivity].
    cbn [fst snd mapM]. unfold sacc at 1. cbn [snd]. cbn [mgen shape tgen]. destruct ((rn m0 =? length sids) && (rk m0 =? length tids)); [|reflexivity]. cbn [bind pick]. unfold dgetM. cbn [dget]. rewrite eqb_refl. reflexivity.
  Qed.
  Theorem spread_influence dv rn rk A B m0 ms sids tids h d (s : lstate) : dkeys A = m0 :: ms -> spread_pairs dv rn rk A B -> head_on dv A B ->
    Forall (fun m => grows (rn m) (length sids) /\ grows (rk m) (length tids)) ms -> rn m0 = length sids -> rk m0 = length tids ->
    compute_influence (sids, Nest (log_nd A)) (tids, Nest (log_nd B)) "dot" false h None d s =
    (s, Ok (InfRes sids tids (Mat (mgen (length sids) (length tids) (spread_score rn rk A B (dkeys A)))))).
  Proof.
    intros D PR Hd Fa En Ek. rewrite (influence_spread dv rn rk A B m0 ms sids tids h d s D PR Hd). rewrite En, Ek, !Nat.eqb_refl. replace (forallb _ ms) with true; [reflexivity|]. symmetry. apply forallb_forall. intros m I. rewrite Forall_forall in Fa. destruct (Fa m I) as (G1 & G2). apply growsb_ok in G1, G2. rewrite G1, G2. reflexivity.
  Qed.
  Theorem spread_influence_misfit dv rn rk A B m0 ms sids tids h d (s : lstate) : dkeys A = m0 :: ms -> spread_pairs dv rn rk A B -> head_on dv A B ->
    (exists m, In m ms /\ (~ grows (rn m) (rn m0) \/ ~ grows (rk m) (rk m0))) ->
    compute_influence (sids, Nest (log_nd A)) (tids, Nest (log_nd B)) "dot" false h None d s = (s, Err RuntimeError).
  Proof.
    intros D PR Hd (m & I & N). rewrite (influence_spread dv rn rk A B m0 ms sids tids h d s D PR Hd). replace (forallb _ ms) with false; [reflexivity|]. symmetry. apply not_true_is_false. intros X. rewrite forallb_forall in X. specialize (X m I). apply andb_prop in X. destruct X as (X1 & X2). apply growsb_ok in X1, X2. tauto.
  Qed.
  Theorem spread_influence_short dv rn rk A B m0 ms sids tids h d (s : lstate) : dkeys A = m0 :: ms -> spread_pairs dv rn rk A B -> head_on dv A B ->
    Forall (fun m => grows (rn m) (rn m0) /\ grows (rk m) (rk m0)) ms -> rn m0 <> length sids \/ rk m0 <> length tids ->
    compute_influence (sids, Nest (log_nd A)) (tids, Nest (log_nd B)) "dot" false h None d s = (s, Err AssertionError).
  Proof.
    intros D PR Hd Fa N. rewrite (influence_spread dv rn rk A B m0 ms sids tids h d s D PR Hd). replace (forallb _ ms) with true.
    - replace ((rn m0 =? length sids) && (rk m0 =? length tids)) with false; [reflexivity|]. symmetry. apply andb_false_iff. rewrite !Nat.eqb_neq. exact N.
    - symmetry. apply forallb_forall. intros m I. rewrite Forall_forall in Fa. destruct (Fa m I) as (G1 & G2). apply growsb_ok in G1, G2. rewrite G1, G2. reflexivity.
  Qed.

  (** preconditioned gradients of other sizes than those of the target *)
  Theorem influence_reshaped dv A B P pre m post p b prec h groups d (s s1 : lstate) sids tids n k : prec_step prec (sids, Nest (log_nd A)) d h s = (s1, Ok (sids, Nest (log_nd P))) ->
    dkeys P = pre ++ m :: post -> (forall x, In x pre -> paired_grads dv n k P B x) -> groups_ok groups -> head_on dv P B ->
    grad_of P m = Some p -> grad_of B m = Some b -> tl (shape (snd p)) <> tl (shape (snd b)) ->
    compute_influence (sids, Nest (log_nd A)) (tids, Nest (log_nd B)) "dot" prec h groups d s = (s1, Err AssertionError).
  Proof.
    intros E D PR GO Hd Gp Gb N. rewrite (influence_prec eigh inverse fsqrt A (Nest (log_nd B)) "dot" prec h groups d s s1 sids tids P eq_refl E).
    unfold ModelInfluence.compute_influence. cbn [mem]. change (String.eqb "dot" "cosine") with false. change (String.eqb "dot" "l2") with false. change (eqb "dot"%string "dot"%string) with true. cbv [sbind sret lift]. cbn [fst snd].
    assert (NB : log_keys B <> []).
    { intros K. unfold grad_of, look in Gb. destruct (dget m B) as [x|] eqn:Dm; [|discriminate]. apply dget_In in Dm. apply dget_In in Gb.
      assert (I : In (m, "grad"%string) (log_keys B)). { unfold log_keys. apply in_concat. eexists. split; [apply in_map; exact Dm|]. cbn [fst snd]. apply in_map_iff. eexists. split; [|exact Gb]. reflexivity. } rewrite K in I. contradiction. }
    rewrite (sync_ok dv P B Hd NB). rewrite log_nd_keys, D. rewrite foldM_app. rewrite (init_form (acc2 dv P B n k) groups GO).
    rewrite (add_modules_form (acc2 dv P B n k) (acc2_add dv P B n k) _ groups pre GO).
    - cbn [bind app foldM]. rewrite !log_item_look. unfold grad_of in Gp, Gb. rewrite Gp. pose proof (grad_moved dv B m) as GM. unfold grad_of in GM. rewrite GM, Gb. cbn [option_map bind]. unfold cross_dot_product. cbn [fst snd].
      destruct (same_shape (tl (shape (snd p))) (tl (shape (snd b)))) eqn:SS; [apply same_shape_true in SS; contradiction|reflexivity].
    - intros dd x Ix. destruct (paired_cross dv n k P B x (PR x Ix)) as (a & b' & Ea & Eb & Ec). rewrite !log_item_look. unfold grad_of in Ea, Eb. rewrite Ea, Eb. cbn [bind]. rewrite Ec. reflexivity.
  Qed.
End Proofs.
