(** Statistics over the gradients of an epoch. *)
From Coq Require Import ZArith Permutation Lia.
From Verif Require Import Py PyStr Field Tensor ModelGrad Monad ModelState ModelMmap ModelSaver ModelLogger ModelUtils ModelTrainer SpecGrad SpecState SpecLogger SpecInfluence SpecWhole StateProofs1 StateProofs3 StateProofs4 GradProofs1 LogProofs1 LogProofs3 LogProofs5 LogProofs6 LogProofs8 LogProofs9 ViewProofs.
Local Open Scope nat_scope.

Section P.
  Context {F : Type} `{OField F}.
  Notation tensor := (tensor F).
  Notation dten := (@dten F).
  Notation lx := (@lx F).
  Notation lstate := (@lstate F).
  Notation tlog := (@tlog F).
  Variable kind : mid -> mkind.
  Variable wsize : mid -> nat.
  Variable eigh : tensor -> res (tensor * tensor).
  Variable enc : dten -> array.
  Notation run_evs := (run_evs kind eigh).
  Notation reachable := (reachable kind wsize eigh enc).
  Notation logged_epoch := (logged_epoch kind eigh enc).

  (** the calls at the end of a batch *)
  Definition gcalls (b : @binfo F) (off : bool) (ps : list plugin) (ms : list string) : list (@call F) :=
    concat (map (fun st => map (fun m => Call st b None m "grad" None off) ms) (concat (map stat_of ps))).
  Lemma plugin_calls p st ms : stat_of p = [st] -> forall x x' : lx,
    seach (fun m => run_plugin eigh p None m "grad" None) ms x = (x', Ok tt) ->
    only_state x x' /\ run_calls (map (fun m => Call st (binfo_of x) None m "grad" None (x_offload x)) ms) (x_state x) = (x_state x', Ok tt).
  Proof.
    intros Hst. induction ms as [|m ms IH]; intros x x' E; cbn [seach] in E.
    - apply (f_equal fst) in E. cbn [fst sret] in E. subst x'. split; [apply only_state_refl|reflexivity].
    - apply sbind_ok in E as (y & [] & E1 & E2). pose proof (run_plugin_none eigh _ _ _ _ _ _ _ E1) as HO.
      destruct (IH y x' E2) as [HO2 HC]. split; [exact (only_state_trans _ _ _ HO HO2)|].
      assert (Hb : binfo_of y = binfo_of x /\ x_offload y = x_offload x) by (rewrite HO; split; reflexivity). destruct Hb as [Hb Hf]. rewrite Hb, Hf in HC.
      unfold run_calls in *. cbn [map seach]. rewrite (sbind_run _ _ _ (x_state y) tt); [exact HC|].
      destruct p; cbn in Hst; try discriminate Hst; injection Hst as <-; cbn [run_plugin data_of] in E1; unfold on_state in E1; unfold do_call; cbn [k_stat k_b k_mod k_m k_t k_data k_off].
      + destruct (mean_update _ _ _ _ _ _ _) as [s' q]. apply (f_equal (fun p => (x_state (fst p), snd p))) in E1. exact E1.
      + destruct (covariance_update _ _ _ _ _ _ _) as [s' q]. apply (f_equal (fun p => (x_state (fst p), snd p))) in E1. exact E1.
  Qed.
  Lemma stats_calls ps : (forall p, In p ps -> p = PMean \/ p = PCovariance) -> forall x x' : lx, LogProofs1.grad_stats eigh ps x = (x', Ok tt) ->
    only_state x x' /\ run_calls (gcalls (binfo_of x) (x_offload x) ps (dkeys (x_log x))) (x_state x) = (x_state x', Ok tt).
  Proof.
    induction ps as [|p ps IH]; intros Hp x x' E; unfold LogProofs1.grad_stats in *; cbn [seach] in E.
    - apply (f_equal fst) in E. cbn [fst sret] in E. subst x'. split; [apply only_state_refl|reflexivity].
    - apply sbind_ok in E as (y & [] & E1 & E2). rewrite (sbind_run sget _ _ _ _ eq_refl) in E1.
      assert (Hst : exists st, stat_of p = [st]) by (destruct (Hp p (or_introl eq_refl)) as [-> | ->]; eexists; reflexivity). destruct Hst as (st & Hst).
      destruct (plugin_calls p st _ Hst x y E1) as [HO HC]. destruct (IH (fun q Hq => Hp q (or_intror Hq)) y x' E2) as [HO2 HC2]. split; [exact (only_state_trans _ _ _ HO HO2)|].
      assert (Hb : binfo_of y = binfo_of x /\ x_offload y = x_offload x /\ x_log y = x_log x) by (rewrite HO; repeat split; reflexivity). destruct Hb as (Hb & Hf & Hl). rewrite Hb, Hf, Hl in HC2.
      unfold gcalls in *. cbn [map concat]. rewrite Hst. cbn [app map concat]. exact (run_calls_ok _ _ _ _ _ HC HC2).
  Qed.
  Lemma update_calls sv (x x' : lx) : (forall p, In p (skipn 1 (o_grad (x_opt x))) -> p = PMean \/ p = PCovariance) -> update eigh enc sv x = (x', Ok tt) ->
    run_calls (gcalls (binfo_of x) (x_offload x) (skipn 1 (o_grad (x_opt x))) (dkeys (x_log x))) (x_state x) = (x_state x', Ok tt) /\
    x_log x' = x_log x.
  Proof.
    intros Hp E. rewrite update_eq in E. apply sbind_ok in E as (y & [] & E1 & E2). destruct (stats_calls _ Hp x y E1) as [HO HC].
    assert (Hx : x_state x' = x_state y /\ x_log x' = x_log y).
    { destruct sv; [|apply (f_equal fst) in E2; cbn [fst sret] in E2; subst x'; split; reflexivity].
      unfold lx_save_log in E2. destruct (x_ids y); [|discriminate E2]. destruct (save_log _ _ _ _) as [[d' s'] o]. apply (f_equal fst) in E2. cbn [fst] in E2. subst x'. split; reflexivity. }
    destruct Hx as [Hx Hl]. rewrite Hx. split; [exact HC|]. rewrite Hl, HO. reflexivity.
  Qed.
  Lemma log_nd_vt (h : list (tid * @uten F)) (l : @blog F) : leaf_map VT (ModelLogger.log_nd (fun d => d) h l) = ModelLogger.log_nd VT h l.
  Proof.
    unfold ModelLogger.log_nd. cbn [leaf_map]. f_equal. induction l as [|[m e] l IH]; [reflexivity|]. cbn [map fst snd]. f_equal; [|exact IH]. f_equal. cbn [leaf_map]. f_equal.
    induction e as [|[t r] e IHe]; [reflexivity|]. cbn [map fst snd leaf_map]. f_equal. exact IHe.
  Qed.
  Lemma log_nd_keys (h : list (tid * @uten F)) (l : @blog F) L : ModelLogger.log_nd VT h l = log_nd L -> dkeys l = dkeys L.
  Proof.
    unfold ModelLogger.log_nd, log_nd. intros E. injection E as E. apply (f_equal (map fst)) in E. rewrite !map_map in E. exact E.
  Qed.
  Lemma batch_all b (x x1 x2 x3 : lx) sv ids l L : reachable x -> begins (bt_ids b) (bt_mask b) x x1 -> all_moments (x_opt x) ->
    run_evs (bt_evs b) x1 = (x2, Ok tt) -> own_backward [] (bt_evs b) -> update eigh enc sv x2 = (x3, Ok tt) ->
    read_got x3 (GView (x_ids x3)) = (ids, l) -> leaf_map VT l = log_nd L ->
    run_calls (stat_calls kind (x_mods x) (x_names x) (x_opt x) (bt_mask b) (x_offload x) (x_heap x) [] (bt_evs b) ++
               gcalls (BInfo (option_map snd (bt_mask b)) (log_nd L)) (x_offload x) (skipn 1 (o_grad (x_opt x))) (dkeys L)) (x_state x) = (x_state x3, Ok tt) /\
    x_heap x3 = heap_after (x_heap x) (bt_evs b) /\ x_opt x3 = x_opt x /\ x_mods x3 = x_mods x /\ x_names x3 = x_names x /\ x_offload x3 = x_offload x /\ NoDup (dkeys L).
  Proof.
    intros HR HB (HM & _ & HP) E HW EU EG EL. destruct (batch_statistics _ _ _ _ _ _ _ _ _ _ HR HB HM E HW) as [HC HH].
    destruct (stats_opts _ _ _ _ _ _ _ _ _ _ HR HB E) as (Q1 & Q2 & Q3 & Q4). rewrite <- Q1 in HP. destruct (update_calls sv x2 x3 HP EU) as (HC2 & Hl).
    assert (Hm : x_mask x2 = bt_mask b).
    { destruct (begins_fresh _ _ _ _ _ _ _ _ HR HB) as (_ & _ & Em & _). apply run_evs_grows in E as (c & s & l0 & h & hs & ->). exact Em. }
    apply update_stores in EU as (s & sv' & d & vs & EQ). assert (Hh : x_heap x3 = x_heap x2) by (rewrite EQ; reflexivity).
    injection EG as _ EG. subst l. rewrite log_nd_vt in EL. rewrite Hl, Hh in EL.
    assert (Hb : binfo_of x2 = BInfo (option_map snd (bt_mask b)) (log_nd L)).
    { unfold binfo_of. rewrite EL, Hm. destruct (bt_mask b); reflexivity. }
    rewrite Hb, (log_nd_keys _ _ _ EL), Q1, Q4 in HC2. split; [exact (run_calls_ok _ _ _ _ _ HC HC2)|]. assert (HN : NoDup (dkeys L)).
    { rewrite <- (log_nd_keys _ _ _ EL). apply evs_wf in E. apply E. destruct (begins_fresh _ _ _ _ _ _ _ _ HR HB) as (El & _). rewrite El. split; [constructor|discriminate]. }
    rewrite EQ. cbn. auto 10.
  Qed.
  (** the calls of an epoch *)
  Fixpoint lcalls (mods : list mid) (names : dict mid string) (o : opts) (off : bool) (h : list (tid * @uten F)) (bs : list (@batch F)) (Ls : list tlog) : list (@call F) :=
    match bs, Ls with
    | b :: r, L :: q => (stat_calls kind mods names o (bt_mask b) off h [] (bt_evs b) ++ gcalls (BInfo (option_map snd (bt_mask b)) (log_nd L)) off (skipn 1 (o_grad o)) (dkeys L)) ++
                        lcalls mods names o off (heap_after h (bt_evs b)) r q
    | _, _ => []
    end.
  Lemma logged_run bs Ls (x x' : lx) : logged_epoch bs Ls x x' -> reachable x -> all_moments (x_opt x) -> Forall (fun b => own_backward [] (bt_evs b)) bs ->
    run_calls (lcalls (x_mods x) (x_names x) (x_opt x) (x_offload x) (x_heap x) bs Ls) (x_state x) = (x_state x', Ok tt) /\ reachable x' /\ length Ls = length bs /\ Forall (fun L => NoDup (dkeys L)) Ls.
  Proof.
    intros HE. induction HE as [x|b bs L Ls x x1 x2 ids l EB EG EL HE IH]; intros HR HM HW; [split; [reflexivity|split; [exact HR|split; [reflexivity|constructor]]]|].
    apply Forall_cons_iff in HW as [HW0 HW].
    assert (K : run_calls (stat_calls kind (x_mods x) (x_names x) (x_opt x) (bt_mask b) (x_offload x) (x_heap x) [] (bt_evs b) ++
               gcalls (BInfo (option_map snd (bt_mask b)) (log_nd L)) (x_offload x) (skipn 1 (o_grad (x_opt x))) (dkeys L)) (x_state x) = (x_state x1, Ok tt) /\
      (x_heap x1 = heap_after (x_heap x) (bt_evs b) /\ x_opt x1 = x_opt x /\ x_mods x1 = x_mods x /\ x_names x1 = x_names x /\ x_offload x1 = x_offload x /\ NoDup (dkeys L)) /\ reachable x1).
    { inversion EB as [|b0 bs0 save x0 y1 y2 E EB2|b0 bs0 save x0 y1 y2 E EB2]; subst; inversion EB2; subst.
      - apply sbind_ok in E as (y & [] & E1 & E). apply sbind_ok in E as (z & [] & E2 & E3). pose proof E3 as E4. rewrite end_saves in E3.
        destruct (batch_all b x y z x1 _ ids l L HR (or_introl E1) HM E2 HW0 E3 EG EL) as (C1 & C2). split; [exact C1|split; [exact C2|]].
        assert (HRy : reachable y) by exact (reachable_op _ _ _ _ (XStart (bt_ids b) (bt_mask b)) x y _ HR E1).
        assert (HRz : reachable z) by exact (reachable_evs _ _ _ _ _ _ _ _ HRy E2).
        exact (reachable_op _ _ _ _ (XEnd save) z x1 _ HRz E4).
      - unfold with_block in E. apply sbind_ok in E as (y0 & [] & E0 & E). apply sbind_ok in E as (y & [] & E1 & E).
        assert (HB : begins (bt_ids b) (bt_mask b) x y) by (right; exists save; rewrite (sbind_run _ _ _ _ _ E0); exact E1).
        assert (HRy0 : reachable y0) by exact (reachable_op _ _ _ _ (XCall (bt_ids b) (bt_mask b) save) x y0 _ HR E0).
        assert (HRy : reachable y) by exact (reachable_op _ _ _ _ XEnter y0 y _ HRy0 E1).
        destruct (run_evs (bt_evs b) y) as [z [[]|er]] eqn:E2; [|destruct (lx_exit eigh enc z) as [w [u|e']]; discriminate E].
        pose proof E as E3. rewrite exit_saves in E3.
        destruct (batch_all b x y z x1 _ ids l L HR HB HM E2 HW0 E3 EG EL) as (C1 & C2). split; [exact C1|split; [exact C2|]].
        assert (HRz : reachable z) by exact (reachable_evs _ _ _ _ _ _ _ _ HRy E2). exact (reachable_op _ _ _ _ XExit z x1 _ HRz E). }
    destruct K as (C1 & (Hh & Q1 & Q2 & Q3 & Q4 & HN) & HR1). rewrite Q1, Q2, Q3, Q4, Hh in IH. destruct (IH HR1 HM HW) as (C2 & HR2 & HL & HF).
    split; [|split; [exact HR2|split; [cbn; congruence|constructor; assumption]]]. cbn [lcalls]. exact (run_calls_ok _ _ _ _ _ C1 C2).
  Qed.
End P.
