(** Self-influence of gradients with dimensions of size one. *)
From Verif Require Import Py PyStr Field Tensor ModelGrad Monad ModelState ModelInfluence SpecGrad SpecState SpecInfluence SpecSpread GradProofs1 GradProofs2 StateProofs1 StateProofs3 InfProofs1 InfProofs2 InfProofs8 BcastProofs SpreadProofs1.
Local Open Scope string_scope.
Local Open Scope list_scope.
Local Open Scope nat_scope.

Section Proofs.
  Context {F : Type} `{OField F}.
  Add Field FfSp2 : f_theory.
  Notation tensor := (tensor F).
  Notation lstate := (@lstate F).
  Notation dten := (@dten F).
  Notation tlog := (@tlog F).
  Variable eigh : tensor -> res (tensor * tensor).
  Variable inverse : tensor -> res tensor.
  Notation compute_self_influence := (compute_self_influence eigh inverse).
  Notation prec_step := (prec_step eigh inverse).

  Lemma bshape1 a b : bshape [a] [b] = if a =? b then Ok [a] else if a =? 1 then Ok [b] else if b =? 1 then Ok [a] else Err RuntimeError.
  Proof. cbn [bshape bind]. destruct (a =? b), (a =? 1), (b =? 1); reflexivity. Qed.
  Lemma iadd_row (a b : dten) k l : shape (snd a) = [k] -> shape (snd b) = [l] -> twf (snd a) -> twf (snd b) ->
    iadd_ a b = if dev_eqb (fst a) (fst b) && growsb l k then Ok (fst a, tgen [k] (fun x => fadd (tget (snd a) [ix 0 x]) (tget (snd b) [spot l (ix 0 x)]))) else Err RuntimeError.
  Proof.
    intros Sa Sb Wa Wb. destruct (iadd_ a b) as [c|e] eqn:E.
    - destruct (iadd_vec a b k l c Sa Sb Wa Wb E) as (G & Wc & Sc & V). assert (G' : growsb l k = true) by (apply growsb_ok; exact G). rewrite G'.
      assert (Dv : dev_eqb (fst a) (fst b) = true /\ fst c = fst a).
      { unfold iadd_ in E. destruct (dev_eqb (fst a) (fst b)); [|discriminate E]. split; [reflexivity|]. destruct (same_shape _ _); [destruct (tadd _ _); [|discriminate E]|destruct (add_wide _ _); [|discriminate E]]; injection E as <-; reflexivity. }
      destruct Dv as (-> & Dc). cbn [andb]. f_equal. destruct c as (dc, c). cbn [fst snd] in *. subst dc. f_equal. apply tensor_ext; [exact Wc|apply tgen_wf|exact Sc|].
      intros idx Vi. rewrite Sc in Vi. rewrite tget_tgen by exact Vi. inversion Vi as [|x n0 r sh Lx Vr]. subst. inversion Vr. subst. cbn [ix nth]. unfold ix. cbn [nth]. exact (V x Lx).
    - destruct (dev_eqb (fst a) (fst b) && growsb l k) eqn:G; [exfalso|].
      + apply andb_prop in G. destruct G as (Gd & G). unfold iadd_ in E. rewrite Gd in E. rewrite Sa, Sb in E. destruct (same_shape [k] [l]) eqn:SS.
        * unfold tadd in E. rewrite tzip_ok in E by (apply same_shape_true in SS; congruence). discriminate E.
        * unfold add_wide in E. rewrite Sa, Sb in E. unfold bcast, pad_left in E. cbn [length Nat.sub repeat app] in E. rewrite bshape1 in E. unfold growsb in G. rewrite Nat.eqb_sym in G.
          destruct (Nat.eqb_spec k l) as [->|N]; [rewrite same_shape_refl in SS; discriminate SS|]. cbn [orb] in G. rewrite G in E. apply Nat.eqb_eq in G. subst l. destruct (Nat.eqb_spec k 1) as [->|N1]; [congruence|]. cbn [bind] in E. rewrite same_shape_refl in E. discriminate E.
      + f_equal. eapply iadd_err. exact E.
  Qed.
  Lemma spot_in n i : i < n -> spot n i = i.
  Proof. intros L. unfold spot. destruct (Nat.eqb_spec n 1); lia. Qed.
  Lemma bcast3 n i j i' j' : meets i i' -> meets j j' -> bcast [n; i; j] [n; i'; j'] = Ok [n; joint i i'; joint j j'].
  Proof.
    intros Mi Mj. unfold bcast, pad_left. cbn [length Nat.sub repeat app bshape]. rewrite !Nat.eqb_refl. unfold meets in Mi, Mj.
    assert (X : forall a b, a = b \/ a = 1 \/ b = 1 -> (if a =? b then a else if a =? 1 then b else a) = joint a b /\ ((a =? b) || (a =? 1) || (b =? 1) = true)).
    { intros a b C. unfold joint. destruct (Nat.eqb_spec a b), (Nat.eqb_spec a 1), (Nat.eqb_spec b 1); cbn [orb]; split; try reflexivity; lia. }
    destruct (X i i' Mi) as (X1 & X2), (X j j' Mj) as (X3 & X4). clear X.
    destruct (j =? j'), (j =? 1), (j' =? 1), (i =? i'), (i =? 1), (i' =? 1); cbn in X2, X4; try discriminate; cbn [bind]; rewrite <- ?X1, <- ?X3; reflexivity.
  Qed.

  Section Self.
    Variables (dv : dev) (rn : string -> nat) (L P : tlog).
    Hypothesis TW : forall m, In m (dkeys L) -> spread_twin dv (rn m) L P m.
    Definition vacc n (l : list string) : dten := (dv, tgen [n] (fun x => lsum (map (fun m => spread_dot L P (spot (rn m) (ix 0 x)) m) l))).
    Lemma self_one m : In m (dkeys L) -> self_module (log_nd L) (log_nd P) m = Ok (dv, tgen [rn m] (fun x => spread_dot L P (ix 0 x) m)).
    Proof.
      intros I. destruct (TW m I) as (a & p & i & j & i' & j' & Ea & Ep & Sa & Sp & Mi & Mj). unfold self_module, spread_dot. rewrite !factor_look. rewrite Ea, Ep. unfold grad_of in Ea, Ep. rewrite Ea, Ep. cbn [bind fst snd]. rewrite dev_eqb_refl. rewrite Sa, Sp, (bcast3 _ _ _ _ _ Mi Mj). cbn [bind]. f_equal. f_equal.
      apply tgen_ext. intros idx V. inversion V as [|x n0 r sh Lx Vr]. subst. unfold ix. cbn [nth].
      apply sum_ext. intros u Lu. apply sum_ext. intros v Lv. unfold pick_at. rewrite Sa, Sp. cbn [length Nat.sub skipn bclip].
      change (if rn m =? 1 then 0 else x) with (spot (rn m) x). rewrite (spot_in _ _ Lx). reflexivity.
    Qed.
    Lemma self_step n l m x : In m (dkeys L) -> self_module (log_nd L) (log_nd P) m = Ok x -> iadd_ (vacc n l) x = if growsb (rn m) n then Ok (vacc n (l ++ [m])) else Err RuntimeError.
    Proof.
      intros I E. rewrite (self_one m I) in E. injection E as <-. rewrite (iadd_row (vacc n l) _ n (rn m)); try reflexivity; try apply tgen_wf. unfold vacc at 1 2 3. cbn [fst snd]. rewrite dev_eqb_refl. cbn [andb].
      destruct (growsb (rn m) n) eqn:G; [|reflexivity]. apply growsb_ok in G. unfold vacc. f_equal. f_equal. apply tgen_ext. intros idx V. inversion V as [|y n0 r sh Lx Vr]. subst. unfold ix. cbn [nth].
      rewrite tget_tgen by (constructor; [exact Lx|constructor]). rewrite tget_tgen by (constructor; [apply spot_lt with (1 := G); exact Lx|constructor]). unfold ix. cbn [nth]. rewrite lsum_snoc. reflexivity.
    Qed.
    Lemma self_scores m0 ms : dkeys L = m0 :: ms ->
      foldM (fun d m => let* x := self_module (log_nd L) (log_nd P) m in add_module None m x d) (dkeys L) (init_scores None) =
      if forallb (fun m => growsb (rn m) (rn m0)) ms then Ok [("total", Some (vacc (rn m0) (dkeys L)))] else Err RuntimeError.
    Proof.
      intros D. transitivity (foldM (fun d m => let* x := (if mem m (dkeys L) then self_module (log_nd L) (log_nd P) m else Err IndexError) in add_module None m x d) (dkeys L) (init_scores None)).
      { assert (X : forall l d, (forall m, In m l -> In m (dkeys L)) -> foldM (fun d m => let* x := self_module (log_nd L) (log_nd P) m in add_module None m x d) l d = foldM (fun d m => let* x := (if mem m (dkeys L) then self_module (log_nd L) (log_nd P) m else Err IndexError) in add_module None m x d) l d).
        { induction l as [|m l IH]; intros d S; [reflexivity|]. cbn [foldM]. replace (mem m (dkeys L)) with true by (symmetry; apply mem_In; apply S; left; reflexivity). destruct (self_module _ _ m) as [c|]; cbn [bind]; [|reflexivity]. destruct (add_module None m c d); cbn [bind]; [|reflexivity]. apply IH. intros x I. apply S. right. exact I. }
        apply X. auto. }
      refine (eq_trans (eq_trans _ (spread_all (fun m => if mem m (dkeys L) then self_module (log_nd L) (log_nd P) m else Err IndexError) (vacc (rn m0)) (fun m => growsb (rn m) (rn m0)) _ m0 ms _ _)) _).
      - rewrite <- D. reflexivity.
      - intros l m x E _. destruct (mem m (dkeys L)) eqn:M; [|discriminate E]. apply mem_In in M. apply self_step; assumption.
      - intros m I. rewrite <- D in I. replace (mem m (dkeys L)) with true by (symmetry; apply mem_In; exact I). rewrite (self_one m I). eauto.
      - assert (I : In m0 (dkeys L)) by (rewrite D; left; reflexivity). replace (mem m0 (dkeys L)) with true by (symmetry; apply mem_In; exact I). rewrite (self_one m0 I). unfold vacc. f_equal. f_equal. apply tgen_ext. intros idx V. inversion V as [|x n0 r sh Lx Vr]. subst. unfold ix. cbn [nth map]. rewrite (spot_in _ _ Lx). unfold lsum. cbn [fold_right]. ring.
      - rewrite <- D. reflexivity.
    Qed.
  End Self.

  Lemma self_spread dv rn L P m0 ms ids prec h d (s s1 : lstate) : dkeys L = m0 :: ms -> prec_step prec (ids, Nest (log_nd L)) d h s = (s1, Ok (ids, Nest (log_nd P))) ->
    (forall m, In m (dkeys L) -> spread_twin dv (rn m) L P m) ->
    compute_self_influence (ids, Nest (log_nd L)) prec h None d s =
    (s1, if forallb (fun m => growsb (rn m) (rn m0)) ms
         then if rn m0 =? length ids then Ok (ids, Mat (tgen [rn m0] (fun x => lsum (map (fun m => spread_dot L P (spot (rn m) (ix 0 x)) m) (dkeys L))))) else Err AssertionError
         else Err RuntimeError).
  Proof.
    intros D Ep TW. unfold ModelInfluence.compute_self_influence. cbn [snd fst]. unfold InfProofs2.prec_step in Ep. cbv [sbind sret lift]. unfold sret in Ep. rewrite Ep. cbn [snd fst]. rewrite log_nd_keys. rewrite (self_scores dv rn L P TW m0 ms D).
    destruct (forallb _ ms); [|reflexivity]. cbn [fst snd mapM]. unfold vacc at 1. cbn [snd]. unfold size0. cbn [shape tgen bind]. destruct (rn m0 =? length ids); reflexivity.
  Qed.
  Theorem spread_self dv rn L P m0 ms ids prec h d (s s1 : lstate) : dkeys L = m0 :: ms -> prec_step prec (ids, Nest (log_nd L)) d h s = (s1, Ok (ids, Nest (log_nd P))) ->
    (forall m, In m (dkeys L) -> spread_twin dv (rn m) L P m) -> Forall (fun m => grows (rn m) (length ids)) ms -> rn m0 = length ids ->
    compute_self_influence (ids, Nest (log_nd L)) prec h None d s =
    (s1, Ok (ids, Mat (tgen [length ids] (fun x => lsum (map (fun m => spread_dot L P (spot (rn m) (ix 0 x)) m) (dkeys L)))))).
  Proof.
    intros D Ep TW Fa En. rewrite (self_spread dv rn L P m0 ms ids prec h d s s1 D Ep TW). rewrite En, Nat.eqb_refl. replace (forallb _ ms) with true; [reflexivity|]. symmetry. apply forallb_forall. intros m I. rewrite Forall_forall in Fa. apply growsb_ok. exact (Fa m I).
  Qed.
  Theorem spread_self_misfit dv rn L P m0 ms ids prec h d (s s1 : lstate) : dkeys L = m0 :: ms -> prec_step prec (ids, Nest (log_nd L)) d h s = (s1, Ok (ids, Nest (log_nd P))) ->
    (forall m, In m (dkeys L) -> spread_twin dv (rn m) L P m) -> (exists m, In m ms /\ ~ grows (rn m) (rn m0)) ->
    compute_self_influence (ids, Nest (log_nd L)) prec h None d s = (s1, Err RuntimeError).
  Proof.
    intros D Ep TW (m & I & N). rewrite (self_spread dv rn L P m0 ms ids prec h d s s1 D Ep TW). replace (forallb _ ms) with false; [reflexivity|]. symmetry. apply not_true_is_false. intros X. rewrite forallb_forall in X. apply N. apply growsb_ok. exact (X m I).
  Qed.
  Theorem spread_self_short dv rn L P m0 ms ids prec h d (s s1 : lstate) : dkeys L = m0 :: ms -> prec_step prec (ids, Nest (log_nd L)) d h s = (s1, Ok (ids, Nest (log_nd P))) ->
    (forall m, In m (dkeys L) -> spread_twin dv (rn m) L P m) -> Forall (fun m => grows (rn m) (rn m0)) ms -> rn m0 <> length ids ->
    compute_self_influence (ids, Nest (log_nd L)) prec h None d s = (s1, Err AssertionError).
  Proof.
    intros D Ep TW Fa En. rewrite (self_spread dv rn L P m0 ms ids prec h d s s1 D Ep TW). apply Nat.eqb_neq in En. rewrite En. replace (forallb _ ms) with true; [reflexivity|]. symmetry. apply forallb_forall. intros m I. rewrite Forall_forall in Fa. apply growsb_ok. exact (Fa m I).
  Qed.
End Proofs.
