(** Masks (C27); calls of watched modules that the hooks reject (C62). *)
From Coq Require Import ZArith Permutation.
From Verif Require Import Py Field Tensor ModelGrad Monad ModelState ModelMmap ModelSaver ModelLogger SpecGrad SpecState SpecLogger LogProofs1 LogProofs2 LogProofs3 LogProofs4.
Local Open Scope nat_scope.

Lemma bshape_same sh : bshape sh sh = Ok sh.
Proof. induction sh as [|n sh IH]; [reflexivity|]. cbn [bshape]. rewrite IH, Nat.eqb_refl. reflexivity. Qed.
Lemma bshape_last sh d : bshape (sh ++ [d]) (sh ++ [1]) = Ok (sh ++ [d]).
Proof.
  induction sh as [|n sh IH]; cbn [app bshape bind].
  - destruct (d =? 1) eqn:E; [reflexivity|]. reflexivity.
  - rewrite IH. cbn [bind]. rewrite Nat.eqb_refl. reflexivity.
Qed.
Lemma bclip_valid sh i : valid sh i -> bclip sh i = i.
Proof.
  intros HV. induction HV as [|j n i sh Hlt HV IH]; [reflexivity|]. cbn [bclip]. rewrite IH.
  destruct (Nat.eqb_spec n 1) as [->|]; [|reflexivity]. f_equal. lia.
Qed.
Lemma bclip_last sh i j : valid sh i -> bclip (sh ++ [1]) (i ++ [j]) = i ++ [0].
Proof.
  intros HV. induction HV as [|k n i sh Hlt HV IH]; [reflexivity|]. cbn [bclip app]. rewrite IH.
  destruct (Nat.eqb_spec n 1) as [->|]; [|reflexivity]. f_equal. lia.
Qed.
Lemma ravel_last1 sh i : valid sh i -> ravel (sh ++ [1]) (i ++ [0]) = ravel sh i.
Proof.
  intros HV. induction HV as [|k n i sh Hlt HV IH]; [reflexivity|]. cbn [app ravel]. rewrite IH, prod_app, prod_cons.
  replace (prod []) with 1 by reflexivity. rewrite !Nat.mul_1_r. reflexivity.
Qed.
Lemma valid_snoc sh d i : valid (sh ++ [d]) i -> exists i' j, i = i' ++ [j] /\ valid sh i' /\ j < d.
Proof.
  revert i. induction sh as [|n sh IH]; intros i HV.
  - inversion HV as [|j ? i' ? Hlt HV' E1 E2]; subst. inversion HV'; subst. exists [], j. repeat split; [constructor|exact Hlt].
  - inversion HV as [|j ? i' ? Hlt HV' E1 E2]; subst. destruct (IH _ HV') as (i2 & k & -> & HV2 & Hk).
    exists (j :: i2), k. repeat split; [constructor; assumption|exact Hk].
Qed.

Section P.
  Context {F : Type} `{OField F}.
  Add Field FfLP5 : f_theory.
  Notation tensor := (tensor F).
  Notation dten := (@dten F).
  Notation uten := (@uten F).
  Notation lx := (@lx F).
  Notation ev := (@ev F).
  Notation op := (@op F).
  Variable kind : mid -> mkind.
  Variable wsize : mid -> nat.
  Variable eigh : tensor -> res (tensor * tensor).
  Variable enc : dten -> array.
  Notation run_plugin := (run_plugin eigh).
  Notation run_ev := (run_ev kind eigh).
  Notation run_evs := (run_evs kind eigh).
  Notation reachable := (reachable kind wsize eigh enc).

  Lemma size_m1_last (t : tensor) sh n : shape t = sh ++ [n] -> size_m1 t = Ok n.
  Proof. unfold size_m1. intros ->. rewrite rev_app_distr. reflexivity. Qed.
  Lemma size_m2_last (t : tensor) sh n d : shape t = sh ++ [n; d] -> size_m2 t = Ok n.
  Proof. unfold size_m2. intros ->. rewrite rev_app_distr. reflexivity. Qed.

  (** positions mask *)
  Lemma mask_positions (mask act : dten) sh p d : shape (snd mask) = sh ++ [p] -> shape (snd act) = sh ++ [p; d] -> fst mask = fst act ->
    apply_mask mask act = Ok (Some (fst act, tgen (sh ++ [p; d]) (fun i => fmul (tget (snd act) i) (tget (snd mask) (removelast i))))).
  Proof.
    intros Em Ea Ed. unfold apply_mask. rewrite Em, Ea, !app_length. cbn [length].
    replace (length sh + 1 =? length sh + 2) with false by (symmetry; apply Nat.eqb_neq; lia). cbn [negb].
    replace (S (length sh + 1) =? length sh + 2) with true by (symmetry; apply Nat.eqb_eq; lia).
    rewrite (size_m1_last _ _ _ Em), (size_m2_last _ _ _ _ Ea). cbn [bind]. rewrite Nat.eqb_refl.
    unfold bmul, unsqueeze_last. cbn [fst snd shape data]. rewrite Em, Ea, Ed.
    replace (dev_eqb (fst act) (fst act)) with true by (destruct (fst act); reflexivity).
    replace (sh ++ [p; d]) with ((sh ++ [p]) ++ [d]) by (rewrite <- app_assoc; reflexivity).
    rewrite bshape_last. cbn [bind]. do 3 f_equal. apply tgen_ext. intros i HV. rewrite (bclip_valid _ i HV).
    apply valid_snoc in HV as (i' & j & -> & HV & Hj). rewrite (bclip_last _ i' j HV), removelast_last. f_equal.
    unfold tget. cbn [shape data]. rewrite (ravel_last1 _ _ HV), Em. reflexivity.
  Qed.
  Lemma mask_ignored (mask act : dten) sh p sh' p' d : shape (snd mask) = sh ++ [p] -> shape (snd act) = sh' ++ [p'; d] ->
    length sh = length sh' -> p <> p' -> apply_mask mask act = Ok None.
  Proof.
    intros Em Ea El N. unfold apply_mask. rewrite Em, Ea, !app_length. cbn [length].
    replace (length sh + 1 =? length sh' + 2) with false by (symmetry; apply Nat.eqb_neq; lia). cbn [negb].
    replace (S (length sh + 1) =? length sh' + 2) with true by (symmetry; apply Nat.eqb_eq; lia).
    rewrite (size_m1_last _ _ _ Em), (size_m2_last _ _ _ _ Ea). cbn [bind].
    rewrite (proj2 (Nat.eqb_neq p p') N). reflexivity.
  Qed.
  Lemma mask_features (mask act : dten) : shape (snd mask) = shape (snd act) -> shape (snd act) <> [] -> fst mask = fst act ->
    apply_mask mask act = Ok (Some (fst act, tgen (shape (snd act)) (fun i => fmul (tget (snd act) i) (tget (snd mask) i)))).
  Proof.
    intros Em N Ed. unfold apply_mask. rewrite Em, Nat.eqb_refl. cbn [negb]. destruct (exists_last N) as (sh & n & En).
    rewrite (size_m1_last (snd mask) sh n) by congruence. rewrite (size_m1_last (snd act) sh n En). cbn [bind]. rewrite Nat.eqb_refl.
    unfold bmul. rewrite Em, Ed. replace (dev_eqb (fst act) (fst act)) with true by (destruct (fst act); reflexivity).
    rewrite bshape_same. cbn [bind]. do 3 f_equal. apply tgen_ext. intros i HV. rewrite (bclip_valid _ i HV). reflexivity.
  Qed.
  Lemma mask_features_ignored (mask act : dten) sh n sh' n' : shape (snd mask) = sh ++ [n] -> shape (snd act) = sh' ++ [n'] ->
    length sh = length sh' -> n <> n' -> apply_mask mask act = Ok None.
  Proof.
    intros Em Ea El N. unfold apply_mask. rewrite Em, Ea, !app_length, El, Nat.eqb_refl. cbn [negb].
    rewrite (size_m1_last _ _ _ Em), (size_m1_last _ _ _ Ea). cbn [bind]. rewrite (proj2 (Nat.eqb_neq n n') N). reflexivity.
  Qed.
  Lemma mask_rank (mask act : dten) : length (shape (snd mask)) <> length (shape (snd act)) ->
    S (length (shape (snd mask))) <> length (shape (snd act)) -> apply_mask mask act = Err AssertionError.
  Proof.
    intros N1 N2. unfold apply_mask. rewrite (proj2 (Nat.eqb_neq _ _) N1). cbn [negb]. rewrite (proj2 (Nat.eqb_neq _ _) N2). reflexivity.
  Qed.
  Lemma mask_device (mask act : dten) sh p d : shape (snd mask) = sh ++ [p] -> shape (snd act) = sh ++ [p; d] -> fst mask <> fst act ->
    apply_mask mask act = Err RuntimeError.
  Proof.
    intros Em Ea Ed. unfold apply_mask. rewrite Em, Ea, !app_length. cbn [length].
    replace (length sh + 1 =? length sh + 2) with false by (symmetry; apply Nat.eqb_neq; lia). cbn [negb].
    replace (S (length sh + 1) =? length sh + 2) with true by (symmetry; apply Nat.eqb_eq; lia).
    rewrite (size_m1_last _ _ _ Em), (size_m2_last _ _ _ _ Ea). cbn [bind]. rewrite Nat.eqb_refl.
    unfold bmul. cbn [fst unsqueeze_last]. replace (dev_eqb (fst act) (fst mask)) with false; [reflexivity|].
    destruct (fst act), (fst mask); cbn; congruence.
  Qed.
  (** a 0/1 mask zeroes the padded positions and keeps the others *)
  Lemma mask_zeroes (mask act r : tensor) sh p d i j :
    shape mask = sh ++ [p] -> r = tgen (sh ++ [p; d]) (fun i => fmul (tget act i) (tget mask (removelast i))) ->
    valid (sh ++ [p]) i -> j < d ->
    (tget mask i = f0 -> tget r (i ++ [j]) = f0) /\ (tget mask i = f1 -> tget r (i ++ [j]) = tget act (i ++ [j])).
  Proof.
    intros Em -> HV Hj. assert (HV' : valid (sh ++ [p; d]) (i ++ [j])).
    { replace (sh ++ [p; d]) with ((sh ++ [p]) ++ [d]) by (rewrite <- app_assoc; reflexivity).
      apply Forall2_app; [exact HV|]. constructor; [exact Hj|constructor]. }
    rewrite tget_tgen by exact HV'. rewrite removelast_last. split; intros ->.
    - ring.
    - ring.
  Qed.
  (** what reaches a forward log *)
  Lemma forward_logged gm m n t (x : lx) : o_forward (x_opt x) = [PLog] -> dget n (x_log x) = None ->
    match x_mask x with
    | None => exists x', forward_hook kind eigh gm m n [t] x = (x', Ok tt) /\ logged x' n "forward" = Some (snd (u_d (uget (x_heap x) t)))
    | Some mk => match apply_mask mk (u_d (uget (x_heap x) t)) with
                 | Err e => forward_hook kind eigh gm m n [t] x = (x, Err e)
                 | Ok None => exists x', forward_hook kind eigh gm m n [t] x = (x', Ok tt) /\ logged x' n "forward" = Some (snd (u_d (uget (x_heap x) t)))
                 | Ok (Some d) => exists x', forward_hook kind eigh gm m n [t] x = (x', Ok tt) /\ logged x' n "forward" = Some (snd d)
                 end
    end.
  Proof.
    intros Eo Eg.
    assert (Put : forall r, exists x', seach (fun p => run_plugin p (Some (kind m)) n "forward" (Some r)) [PLog] x = (x', Ok tt) /\
      logged x' n "forward" = Some (snd (u_d (deref (x_heap x) r)))).
    { intros r. cbn [seach]. unfold sbind. cbn [ModelLogger.run_plugin]. unfold log_put. rewrite Eg. cbn [dget]. eexists. split; [reflexivity|].
      unfold logged. cbn [x_log x_heap with_log with_batch]. rewrite dget_dset_eq. cbn [dset dget]. rewrite eqb_refl. reflexivity. }
    unfold forward_hook. rewrite Eo. destruct (x_mask x) as [mk|].
    - destruct (apply_mask mk _) as [[d|]|e].
      + exact (Put (Own (UT d _ _))).
      + exact (Put (Ref t)).
      + reflexivity.
    - exact (Put (Ref t)).
  Qed.

  (** ---- C62 ---- *)
  Lemma call_inputs c m ins out gm (x : lx) : pre_of m (x_reg x) <> [] -> length ins <> 1 ->
    snd (run_ev (MCall c m ins out gm) x) = Err AssertionError.
  Proof.
    intros HP HL. cbn [run_ev ModelLogger.run_ev]. erewrite sbind_run by reflexivity. rewrite (sbind_run sget _ _ _ _ eq_refl).
    cbn [x_reg with_calls]. destruct (pre_of m (x_reg x)) as [|n ns]; [congruence|]. cbn [seach].
    unfold forward_hook. destruct ins as [|i [|i' r]]; cbn in HL; try lia; reflexivity.
  Qed.
  Lemma fwd_kept (x x' : lx) m : grows x x' -> fwd_of m (x_reg x) <> [] -> fwd_of m (x_reg x') <> [].
  Proof.
    intros (s & l & h & hs & ->) HN. cbn. unfold fwd_of in *. rewrite map_app, concat_app. intros E. apply app_eq_nil in E as [E _]. contradiction.
  Qed.
  Lemma call_bad_output c m i out gm (x : lx) : fwd_of m (x_reg x) <> [] ->
    (forall t u, out = OutTensor t u -> u_req u = false) -> (forall e, out <> OutRaise e) ->
    match run_ev (MCall c m [i] out gm) x with
    | (_, Ok _) => False
    | (x', Err e) => (o_forward (x_opt x) = [] -> x_mask x = None -> e = match out with OutTensor _ _ => RuntimeError | _ => AttributeError end)
    end.
  Proof.
    intros HF HO HR. cbn [run_ev ModelLogger.run_ev]. erewrite sbind_run by reflexivity. rewrite (sbind_run sget _ _ _ _ eq_refl).
    set (x0 := with_calls x _). 
    assert (Post : forall y, grows x0 y -> match (match out with
        | OutTensor t u => (fun x : lx => (with_heap x (dset t u (x_heap x)), Ok tt)) ;;
            let! x := sget in seach (fun n => grad_hook m n [i] out) (fwd_of m (x_reg x))
        | OutOther => let! x := sget in seach (fun n => grad_hook m n [i] out) (fwd_of m (x_reg x))
        | OutRaise e => sfail e end) y with
        | (_, Ok _) => False | (_, Err e) => e = match out with OutTensor _ _ => RuntimeError | _ => AttributeError end end).
    { intros y HG. destruct out as [t u| |e].
      - erewrite sbind_run by reflexivity. rewrite (sbind_run sget _ _ _ _ eq_refl).
        assert (HN : fwd_of m (x_reg (with_heap y (dset t u (x_heap y)))) <> []) by (exact (fwd_kept _ _ m HG HF)).
        destruct (fwd_of m (x_reg (with_heap y _))) as [|n ns]; [congruence|]. pose proof (HO t u eq_refl) as HU.
        cbn [seach grad_hook]. unfold sbind, register_tensor_hook. rewrite HU. reflexivity.
      - rewrite (sbind_run sget _ _ _ _ eq_refl).
        assert (HN : fwd_of m (x_reg y) <> []) by (exact (fwd_kept _ _ m HG HF)).
        destruct (fwd_of m (x_reg y)) as [|n ns]; [congruence|]. reflexivity.
      - exfalso. exact (HR e eq_refl). }
    unfold sbind at 1. destruct (seach (fun n => forward_hook kind eigh gm m n [i]) (pre_of m (x_reg x0)) x0) as [y r] eqn:E1.
    assert (HG : grows x0 y).
    { revert E1. apply (seach_rel grows grows_refl grows_trans). intros n a b o _ E. apply slh_grows. exact (forward_hook_slh _ _ _ _ _ _ _ _ _ E). }
    destruct r as [[]|e].
    - specialize (Post y HG). destruct out as [t u| |e]; [| |exfalso; exact (HR e eq_refl)]; 
        match goal with |- match ?t with _ => _ end => destruct t as [z [u'|e']] end; auto.
    - intros Ef Em. exfalso.
      assert (Hid : forall ns y, x_opt y = x_opt x -> x_mask y = None -> seach (fun n => forward_hook kind eigh gm m n [i]) ns y = (y, Ok tt)).
      { induction ns as [|n ns IH]; intros z Hz1 Hz2; [reflexivity|]. cbn [seach]. erewrite sbind_run; [apply IH; assumption|].
        unfold forward_hook. rewrite Hz2, Hz1, Ef. reflexivity. }
      rewrite (Hid _ x0 eq_refl Em) in E1. discriminate E1.
  Qed.
End P.
