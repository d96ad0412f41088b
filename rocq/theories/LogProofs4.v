(** Batch isolation; masks; errors raised by the hooks. *)
From Coq Require Import ZArith Permutation.
From Verif Require Import BcastProofs GradProofs3 Py Field Tensor ModelGrad Monad ModelState ModelMmap ModelSaver ModelLogger SpecGrad SpecState SpecLogger LogProofs1 LogProofs2 LogProofs3.
Local Open Scope nat_scope.

Section P.
  Context {F : Type} `{OField F}.
  Notation tensor := (tensor F).
  Notation dten := (@dten F).
  Notation uten := (@uten F).
  Notation lx := (@lx F).
  Notation ev := (@ev F).
  Notation op := (@op F).
  Variable kind : mid -> mkind.
  Variable wsize : mid -> nat.
  Variable eigh : tensor -> res (tensor * tensor).
  Variable enc : dten -> array.
  Notation run_plugin := (run_plugin eigh).
  Notation update := (update eigh enc).
  Notation run_ev := (run_ev kind eigh).
  Notation run_evs := (run_evs kind eigh).
  Notation run_op := (run_op kind wsize eigh enc).
  Notation run_ops := (run_ops kind wsize eigh enc).
  Notation reachable := (reachable kind wsize eigh enc).

  (** two objects that agree on everything a batch's log depends on *)
  Definition alike (cs : list nat) (x y : lx) : Prop :=
    x_mask x = x_mask y /\ x_log x = x_log y /\ x_opt x = x_opt y /\ x_heap x = x_heap y /\ x_reg x = x_reg y /\
    (forall c, In c cs -> dget c (x_calls x) = dget c (x_calls y)).
  Lemma alike_state cs x y x' y' : alike cs x y -> only_state x x' -> only_state y y' -> alike cs x' y'.
  Proof. intros HA -> ->. exact HA. Qed.
  Lemma alike_put cs m t r x y x' y' : alike cs x y -> log_put m t r x = (x', Ok tt) -> log_put m t r y = (y', Ok tt) -> alike cs x' y'.
  Proof.
    intros (Em & El & Eo & Eh & Er & Ec) E1 E2. unfold log_put in *. cbv zeta in *. rewrite <- El, <- Eh in E2.
    destruct (dget t _) as [old|].
    - destruct (iadd_ _ _) as [new|e]; [|discriminate E1].
      destruct old as [u|i]; injection E1 as <-; injection E2 as <-; repeat split; cbn; first [assumption|congruence].
    - injection E1 as <-. injection E2 as <-. repeat split; cbn; first [assumption|congruence].
  Qed.
  Lemma alike_plugin cs p mo m t d x y x' y' : alike cs x y ->
    run_plugin p mo m t d x = (x', Ok tt) -> run_plugin p mo m t d y = (y', Ok tt) -> alike cs x' y'.
  Proof.
    intros HA E1 E2. destruct (plugin_eqb_spec p PLog) as [->|N].
    - destruct d as [r|]; [|discriminate E1]. exact (alike_put _ _ _ _ _ _ _ _ HA E1 E2).
    - exact (alike_state _ _ _ _ _ HA (run_plugin_state _ _ _ _ _ _ _ _ _ N E1) (run_plugin_state _ _ _ _ _ _ _ _ _ N E2)).
  Qed.
  Lemma alike_plugins cs (ps : list plugin) mo m t d x y x' y' : alike cs x y ->
    seach (fun p => run_plugin p mo m t d) ps x = (x', Ok tt) -> seach (fun p => run_plugin p mo m t d) ps y = (y', Ok tt) -> alike cs x' y'.
  Proof. apply (seach_rel2 (alike cs)). intros p u v u' v' _. apply alike_plugin. Qed.
  Lemma alike_forward cs gm m n ins x y x' y' : alike cs x y ->
    forward_hook kind eigh gm m n ins x = (x', Ok tt) -> forward_hook kind eigh gm m n ins y = (y', Ok tt) -> alike cs x' y'.
  Proof.
    intros HA E1 E2. assert (HA' := HA). destruct HA' as (Em & El & Eo & Eh & Er & Ec).
    unfold forward_hook in *. destruct ins as [|t [|t' r]]; try discriminate E1.
    rewrite <- Em, <- Eh, <- Eo in E2. apply sbind_ok in E1 as (x1 & a & A1 & E1). apply sbind_ok in E2 as (y1 & b & A2 & E2).
    cbv [lift] in A1, A2. injection A1 as <- A1. injection A2 as <- A2. rewrite A1 in A2. injection A2 as <-.
    exact (alike_plugins _ _ _ _ _ _ _ _ _ _ HA E1 E2).
  Qed.
  Lemma alike_backward cs m n gs x y x' y' : alike cs x y ->
    backward_hook kind eigh m n gs x = (x', Ok tt) -> backward_hook kind eigh m n gs y = (y', Ok tt) -> alike cs x' y'.
  Proof.
    intros HA E1 E2. assert (HA' := HA). destruct HA' as (Em & El & Eo & Eh & Er & Ec).
    unfold backward_hook in *. destruct gs as [|t [|t' r]]; try discriminate E1. rewrite <- Eo in E2.
    exact (alike_plugins _ _ _ _ _ _ _ _ _ _ HA E1 E2).
  Qed.
  Lemma alike_gradt cs m n i g x y x' y' : alike cs x y ->
    grad_tensor_hook kind eigh m n i g x = (x', Ok tt) -> grad_tensor_hook kind eigh m n i g y = (y', Ok tt) -> alike cs x' y'.
  Proof.
    intros HA E1 E2. assert (HA' := HA). destruct HA' as (Em & El & Eo & Eh & Er & Ec).
    unfold grad_tensor_hook in *. rewrite <- Eh, <- Eo in E2. destruct (o_grad (x_opt x)) as [|p r].
    - injection E1 as <-. injection E2 as <-. exact HA.
    - destruct (plugin_eqb p PLog); [|discriminate E1]. cbv zeta in *.
      apply sbind_ok in E1 as (x1 & a & A1 & E1). apply sbind_ok in E2 as (y1 & b & A2 & E2).
      cbv [lift] in A1, A2. injection A1 as <- A1. injection A2 as <- A2. rewrite A1 in A2. injection A2 as <-.
      exact (alike_plugins _ _ _ _ _ _ _ _ _ _ HA E1 E2).
  Qed.
  Lemma alike_actt cs n g x y x' y' : alike cs x y ->
    tensor_backward_hook eigh n g x = (x', Ok tt) -> tensor_backward_hook eigh n g y = (y', Ok tt) -> alike cs x' y'.
  Proof.
    intros HA E1 E2. assert (HA' := HA). destruct HA' as (Em & El & Eo & Eh & Er & Ec).
    unfold tensor_backward_hook in *. rewrite <- Eo in E2. exact (alike_plugins _ _ _ _ _ _ _ _ _ _ HA E1 E2).
  Qed.
  Lemma alike_gradhook cs m n ins out x y x' y' : alike cs x y ->
    grad_hook m n ins out x = (x', Ok tt) -> grad_hook m n ins out y = (y', Ok tt) -> alike cs x' y'.
  Proof.
    intros HA E1 E2. unfold grad_hook in *. destruct ins as [|i [|i' r]]; try discriminate E1. destruct out as [o u| |e]; try discriminate E1.
    unfold register_tensor_hook in *. destruct (u_req u); [|discriminate E1]. injection E1 as <-. injection E2 as <-.
    destruct HA as (Em & El & Eo & Eh & Er & Ec). repeat split; cbn; first [assumption|congruence].
  Qed.
  Definition calls_after (cs : list nat) (e : ev) : list nat := match e with MCall c _ _ _ _ => c :: cs | _ => cs end.
  Lemma alike_ev cs e x y x' y' : alike cs x y -> (forall c gs, e = MBack c gs -> In c cs) ->
    run_ev e x = (x', Ok tt) -> run_ev e y = (y', Ok tt) -> alike (calls_after cs e) x' y'.
  Proof.
    intros HA HB E1 E2. destruct e as [t u|c m ins out gm|t g|c gs|e]; cbn [run_ev ModelLogger.run_ev calls_after] in *.
    - injection E1 as <-. injection E2 as <-. destruct HA as (Em & El & Eo & Eh & Er & Ec). repeat split; cbn; first [assumption|congruence].
    - erewrite sbind_run in E1 by reflexivity. erewrite sbind_run in E2 by reflexivity.
      set (x0 := with_calls x _) in *. set (y0 := with_calls y _) in *.
      assert (HA0 : alike (c :: cs) x0 y0).
      { destruct HA as (Em & El & Eo & Eh & Er & Ec). repeat split; cbn; try assumption. intros k Hk. rewrite !dget_dset.
        destruct (eqb k c) eqn:Ek; [rewrite Er; reflexivity|]. destruct Hk as [<-|Hk]; [rewrite eqb_refl in Ek; discriminate|auto]. }
      rewrite (sbind_run sget _ x0 x0 x0 eq_refl) in E1. rewrite (sbind_run sget _ y0 y0 y0 eq_refl) in E2.
      assert (Er0 : x_reg x0 = x_reg y0) by (apply HA0). rewrite <- Er0 in E2.
      apply sbind_ok in E1 as (x1 & [] & F1 & E1). apply sbind_ok in E2 as (y1 & [] & F2 & E2).
      assert (HA1 : alike (c :: cs) x1 y1).
      { revert HA0 F1 F2. apply (seach_rel2 (alike (c :: cs))). intros n u v u' v' _. apply alike_forward. }
      destruct out as [t u| |e]; [| |discriminate E1].
      + erewrite sbind_run in E1 by reflexivity. erewrite sbind_run in E2 by reflexivity.
        set (x2 := with_heap x1 _) in *. set (y2 := with_heap y1 _) in *.
        assert (HA2 : alike (c :: cs) x2 y2).
        { destruct HA1 as (Em & El & Eo & Eh & Er & Ec). repeat split; cbn; first [assumption|congruence]. }
        rewrite (sbind_run sget _ x2 x2 x2 eq_refl) in E1. rewrite (sbind_run sget _ y2 y2 y2 eq_refl) in E2.
        assert (Er2 : x_reg x2 = x_reg y2) by (apply HA2). rewrite <- Er2 in E2.
        revert HA2 E1 E2. apply (seach_rel2 (alike (c :: cs))). intros n a b a' b' _. apply alike_gradhook.
      + rewrite (sbind_run sget _ x1 x1 x1 eq_refl) in E1. rewrite (sbind_run sget _ y1 y1 y1 eq_refl) in E2.
        assert (Er2 : x_reg x1 = x_reg y1) by (apply HA1). rewrite <- Er2 in E2.
        revert HA1 E1 E2. apply (seach_rel2 (alike (c :: cs))). intros n a b a' b' _. apply alike_gradhook.
    - rewrite (sbind_run sget _ x x x eq_refl) in E1. rewrite (sbind_run sget _ y y y eq_refl) in E2.
      assert (Er2 : x_reg x = x_reg y) by (apply HA). rewrite <- Er2 in E2.
      revert HA E1 E2. apply (seach_rel2 (alike cs)). intros h a b a' b' _ HA E1 E2.
      destruct h; try (injection E1 as <-; injection E2 as <-; exact HA).
      + exact (alike_gradt _ _ _ _ _ _ _ _ _ HA E1 E2).
      + exact (alike_actt _ _ _ _ _ _ _ HA E1 E2).
    - rewrite (sbind_run sget _ x x x eq_refl) in E1. rewrite (sbind_run sget _ y y y eq_refl) in E2.
      assert (Ec : dget c (x_calls x) = dget c (x_calls y)).
      { destruct HA as (_ & _ & _ & _ & _ & Ec). exact (Ec c (HB c gs eq_refl)). }
      rewrite <- Ec in E2. revert HA E1 E2. apply (seach_rel2 (alike cs)). intros h a b a' b' _ HA E1 E2.
      destruct h; try (injection E1 as <-; injection E2 as <-; exact HA). exact (alike_backward _ _ _ _ _ _ _ _ HA E1 E2).
    - discriminate E1.
  Qed.
  Lemma alike_evs es cs x y x' y' : alike cs x y -> own_backward cs es ->
    run_evs es x = (x', Ok tt) -> run_evs es y = (y', Ok tt) -> exists cs', alike cs' x' y'.
  Proof.
    revert cs x y. induction es as [|e es IH]; intros cs x y HA HO E1 E2.
    - injection E1 as <-. injection E2 as <-. eauto.
    - cbn [run_evs ModelLogger.run_evs seach] in E1, E2. fold run_evs in E1, E2.
      apply sbind_ok in E1 as (x1 & [] & F1 & E1). apply sbind_ok in E2 as (y1 & [] & F2 & E2).
      assert (HB : forall c gs, e = MBack c gs -> In c cs) by (intros c gs ->; exact (proj1 HO)).
      apply (IH _ _ _ (alike_ev cs e x y x1 y1 HA HB F1 F2)); auto. destruct e; cbn in *; tauto.
  Qed.
  Lemma isolation ids mask es (x y x1 y1 : lx) : reachable x -> reachable y ->
    x_mods x = x_mods y -> x_names x = x_names y -> x_opt x = x_opt y -> x_heap x = x_heap y -> own_backward [] es ->
    (lx_start ids mask ;; run_evs es) x = (x1, Ok tt) -> (lx_start ids mask ;; run_evs es) y = (y1, Ok tt) ->
    x_ids x1 = x_ids y1 /\ log_nd (fun d => d) (x_heap x1) (x_log x1) = log_nd (fun d => d) (x_heap y1) (x_log y1).
  Proof.
    intros HX HY Em En Eo Eh HO E1 E2.
    rewrite (sbind_run _ _ _ _ _ (lx_start_run ids mask x (reachable_inv _ _ _ _ _ HX))) in E1.
    rewrite (sbind_run _ _ _ _ _ (lx_start_run ids mask y (reachable_inv _ _ _ _ _ HY))) in E2.
    assert (HA : alike [] (entered (with_batch (detach x) (Some ids) mask [])) (entered (with_batch (detach y) (Some ids) mask []))).
    { unfold entered, installed. repeat split; cbn; try assumption; [rewrite Em, En; reflexivity|intros c []]. }
    destruct (alike_evs es [] _ _ x1 y1 HA HO E1 E2) as (cs' & _ & El & _ & Eh' & _).
    split.
    - apply run_evs_grows in E1 as (c & s & l & h & hs & ->). apply run_evs_grows in E2 as (c2 & s2 & l2 & h2 & hs2 & ->). reflexivity.
    - rewrite El, Eh'. reflexivity.
  Qed.

  (** ---- errors raised by hooks (C29, C62) ---- *)
  Lemma grad_needs_log m n i g (x : lx) : o_grad (x_opt x) <> [] -> hd PMean (o_grad (x_opt x)) <> PLog ->
    grad_tensor_hook kind eigh m n i g x = (x, Err AssertionError).
  Proof.
    unfold grad_tensor_hook. destruct (o_grad (x_opt x)) as [|p r]; [congruence|]. cbn [hd]. intros _ N.
    destruct (plugin_eqb_spec p PLog); [contradiction|reflexivity].
  Qed.
  Lemma grad_no_plugins m n i g (x : lx) : o_grad (x_opt x) = [] -> grad_tensor_hook kind eigh m n i g x = (x, Ok tt).
  Proof. unfold grad_tensor_hook. intros ->. reflexivity. Qed.
  Definition na {A} (r : res A) : Prop := r <> Err AssertionError.
  Lemma na_bind {A B} (r : res A) (f : A -> res B) : na r -> (forall a, na (f a)) -> na (bind r f).
  Proof. unfold na. destruct r as [a|e]; cbn; [auto|]. intros N _ [= ->]. auto. Qed.
  Lemma psg_na a b k : na (compute_per_sample_gradient (F := F) a b k).
  Proof.
    assert (R : forall (t : tensor) l1 l2, na (reshape_infer t l1 l2)).
    { intros t l1 l2. unfold reshape_infer, na. destruct (_ =? 0); [discriminate|]. destruct (_ =? 0); discriminate. }
    destruct k; cbn [compute_per_sample_gradient]; try (unfold na; discriminate).
    - unfold psg_linear. apply na_bind; [unfold einsum_outer|intros t; unfold reduce_mid].
      + destruct (split_last (shape b)) as [[lb ni]|]; [|unfold na; discriminate]. destruct (split_last (shape a)) as [[lf nj]|]; [|unfold na; discriminate].
        apply na_bind; [|intros l; unfold na; discriminate]. pose proof (bcast_spec lb lf) as HB. destruct (bcast lb lf); [unfold na; discriminate|].
        destruct HB as (-> & _). unfold na. discriminate.
      + unfold na; repeat match goal with |- (match ?t with _ => _ end) <> _ => destruct t end; discriminate.
    - unfold psg_conv2d. destruct (shape a) as [|bsz r]; [unfold na; discriminate|]. apply na_bind.
      { assert (U : forall y B C Hh Ww, na (unfold_rows (F := F) y c B C Hh Ww)).
        { intros. unfold unfold_rows. apply na_bind; [unfold out_size, na; destruct (_ || _)%bool; discriminate|]. intros OH.
          apply na_bind; [unfold out_size, na; destruct (_ || _)%bool; discriminate|]. intros OW. unfold na; discriminate. }
        unfold f_unfold. repeat match goal with |- na (match ?t with _ => _ end) => destruct t; try (unfold na; discriminate) end.
        all: apply na_bind; [apply U|intros u; unfold na; discriminate]. }
      intros u. apply na_bind; [apply R|]. intros u'. apply na_bind; [apply R|]. intros b'.
      apply na_bind; [|intros gr; apply R]. unfold einsum_ijk_ilk.
      repeat match goal with |- na (match ?t with _ => _ end) => destruct t; try (unfold na; discriminate) end.
  Qed.
  Lemma log_put_na m t r (x : lx) : na (snd (log_put m t r x)).
  Proof.
    unfold log_put. cbv zeta. destruct (dget t _) as [old|]; [|unfold na; discriminate].
    destruct (iadd_ _ _) as [new|e] eqn:E.
    - destruct old; unfold na; discriminate.
    - cbn [snd]. intros [= ->]. apply iadd_err in E. discriminate E.
  Qed.
  Lemma grad_log_na m n i g (x : lx) : hd PMean (o_grad (x_opt x)) = PLog -> na (snd (grad_tensor_hook kind eigh m n i g x)).
  Proof.
    unfold grad_tensor_hook. destruct (o_grad (x_opt x)) as [|p r]; [unfold na; discriminate|]. cbn [hd]. intros ->. cbn [plugin_eqb firstn].
    cbv zeta. unfold sbind, lift. destruct (dev_eqb _ _); [|unfold na; discriminate].
    pose proof (psg_na (snd (u_d (uget (x_heap x) i))) (snd (u_d (uget (x_heap x) g))) (kind m)) as HP.
    destruct (compute_per_sample_gradient _ _ _) as [t|e]; [|cbn [snd]; unfold na in *; congruence].
    cbn [seach]. unfold sbind. cbn [ModelLogger.run_plugin].
    match goal with |- context [log_put ?a ?b ?c ?d] => pose proof (log_put_na a b c d) as HL; destruct (log_put a b c d) as [x' [[]|e]] end.
    - unfold na; discriminate.
    - exact HL.
  Qed.
  Definition is_grad_hook (h : hook) : Prop := match h with HGradT _ _ _ _ => True | _ => False end.
  Lemma requested_log l ps : requested l ps -> (hd PMean ps = PLog <-> exists a, In a l /\ known a = Some PLog).
  Proof.
    intros [HS HI]. rewrite <- HI. destruct ps as [|p ps]; cbn [hd In].
    - split; [discriminate|contradiction].
    - apply Sorted.StronglySorted_inv in HS as [_ HF]. rewrite Forall_forall in HF. split; [intros ->; auto|].
      intros [->|HP]; [reflexivity|]. specialize (HF _ HP). cbn in HF. lia.
  Qed.
  Lemma gradient_without_log kw t g (x x1 : lx) :
    lx_setup kw x = (x1, Ok tt) -> kw_get "grad" kw <> [] -> (forall a, In a (kw_get "grad" kw) -> known a <> Some PLog) ->
    on_tensor t (x_reg x) <> [] -> Forall is_grad_hook (on_tensor t (x_reg x)) ->
    run_ev (MGrad t g) x1 = (x1, Err AssertionError).
  Proof.
    intros E HK HN HT HG. unfold lx_setup in E. destruct (opt_setup kw) as [[o kw'] r] eqn:Eo. injection E as <- ->.
    assert (Rg : requested (kw_get "grad" kw) (o_grad o)) by exact (setup_requested _ _ _ Eo).
    cbn [run_ev ModelLogger.run_ev]. rewrite (sbind_run sget _ _ _ _ eq_refl). change (x_reg (with_opt x o)) with (x_reg x).
    destruct (on_tensor t (x_reg x)) as [|h hs]; [congruence|]. inversion HG as [|h' hs' Hh _]; subst. destruct h; try contradiction.
    cbn [seach]. apply sbind_err. apply grad_needs_log; cbn [x_opt with_opt].
    - intros E0. destruct Rg as [_ HI]. rewrite E0 in HI. destruct (kw_get "grad" kw) as [|a l] eqn:El; [congruence|].
      assert (HA : known a <> None) by (apply (setup_known _ _ _ Eo (kw_get "grad" kw)); [cbn; auto|rewrite El; left; reflexivity]).
      destruct (known a) as [p|] eqn:Ek; [|congruence]. apply (HI p). exists a. split; [left; reflexivity|exact Ek].
    - intros E0. apply (requested_log _ _ Rg) in E0 as (a & Ha & Ek). exact (HN a Ha Ek).
  Qed.
  Lemma seach_na {A} (f : A -> SM lx unit) l (x : lx) (Q : lx -> Prop) :
    Q x -> (forall a y, In a l -> Q y -> na (snd (f a y)) /\ Q (fst (f a y))) -> na (snd (seach f l x)).
  Proof.
    revert x. induction l as [|a l IH]; intros x HQ Hf; [unfold na; discriminate|]. cbn [seach]. unfold sbind.
    destruct (Hf a x (or_introl eq_refl) HQ) as [H1 H2]. destruct (f a x) as [y [[]|e]]; cbn [fst snd] in *; [|exact H1].
    apply IH; [exact H2|]. intros b z Hb. apply Hf. right. exact Hb.
  Qed.
  Lemma gradient_with_log kw t g (x x1 : lx) :
    lx_setup kw x = (x1, Ok tt) -> (exists a, In a (kw_get "grad" kw) /\ known a = Some PLog) ->
    Forall is_grad_hook (on_tensor t (x_reg x)) -> snd (run_ev (MGrad t g) x1) <> Err AssertionError.
  Proof.
    intros E HN HG. unfold lx_setup in E. destruct (opt_setup kw) as [[o kw'] r] eqn:Eo. injection E as <- ->.
    assert (Rg : requested (kw_get "grad" kw) (o_grad o)) by exact (setup_requested _ _ _ Eo).
    cbn [run_ev ModelLogger.run_ev]. rewrite (sbind_run sget _ _ _ _ eq_refl). change (x_reg (with_opt x o)) with (x_reg x).
    rewrite Forall_forall in HG. apply (seach_na _ _ _ (fun y => x_opt y = o)); [reflexivity|].
    intros h y Hh Ey. specialize (HG h Hh). destruct h; try contradiction. split.
    - apply grad_log_na. rewrite Ey. apply (requested_log _ _ Rg). exact HN.
    - destruct (grad_tensor_hook kind eigh m name inp g y) as [y' o'] eqn:Eh. apply grad_tensor_hook_slh in Eh as (s & l & hp & ->). exact Ey.
  Qed.

End P.
