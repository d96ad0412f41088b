(** Tensors handed to watch_activation. *)
From Coq Require Import ZArith Permutation.
From Verif Require Import Py Field Tensor ModelGrad Monad ModelState ModelMmap ModelSaver ModelLogger SpecGrad SpecState SpecLogger SpecAct LogProofs1 LogProofs2 LogProofs3 LogProofs4 LogProofs5 LogProofs6 LogProofs8 LogProofs10 StateProofs1.
Local Open Scope string_scope.
Local Open Scope list_scope.
Local Open Scope nat_scope.

Section P.
  Context {F : Type} `{OField F}.
  Notation tensor := (tensor F).
  Notation dten := (@dten F).
  Notation lx := (@lx F).
  Variable kind : mid -> mkind.
  Variable wsize : mid -> nat.
  Variable eigh : tensor -> res (tensor * tensor).
  Variable enc : dten -> array.
  Notation run_ev := (run_ev kind eigh).
  Notation run_evs := (run_evs kind eigh).
  Notation run_plugin := (run_plugin eigh).
  Notation reachable := (reachable kind wsize eigh enc).
  Notation watch_activation := (watch_activation eigh).

  Definition ref_at (x : lx) (n t : string) : option lref := match dget n (x_log x) with Some l => dget t l | None => None end.
  Lemma logged_ref x n t : logged x n t = option_map (fun r => snd (u_d (deref (x_heap x) r))) (ref_at x n t).
  Proof. unfold logged, ref_at. destruct (dget n (x_log x)) as [l|]; [destruct (dget t l)|]; reflexivity. Qed.
  Lemma logged_none x n t : logged x n t = None -> ref_at x n t = None.
  Proof. rewrite logged_ref. destruct (ref_at x n t); [discriminate|reflexivity]. Qed.
  Lemma state_ref (x y : lx) n t : only_state x y -> ref_at y n t = ref_at x n t.
  Proof. intros ->. reflexivity. Qed.
  Lemma put_new m t r (x : lx) : ref_at x m t = None -> exists l, log_put m t r x = (with_log x l, Ok tt) /\ forall n t', ref_at (with_log x l) n t' = if String.eqb n m && String.eqb t' t then Some r else ref_at x n t'.
  Proof.
    unfold ref_at, log_put. intros N. exists (dset m (dset t r (match dget m (x_log x) with Some l => l | None => [] end)) (x_log x)). split.
    - destruct (dget m (x_log x)) as [l|]; [rewrite N|]; reflexivity.
    - intros n t'. cbn [with_log with_batch x_log]. destruct (String.eqb n m) eqn:En.
      + apply String.eqb_eq in En. subst n. rewrite dget_dset_eq. destruct (String.eqb t' t) eqn:Et; cbn [andb].
        * apply String.eqb_eq in Et. subst t'. apply dget_dset_eq.
        * apply String.eqb_neq in Et. rewrite dget_dset_neq by congruence. destruct (dget m (x_log x)); reflexivity.
      + apply String.eqb_neq in En. cbn [andb]. rewrite dget_dset_neq by congruence. reflexivity.
  Qed.
  (** entries of other keys keep their tensor object *)
  Lemma put_other m t r (x x' : lx) o n t' : log_put m t r x = (x', o) -> n <> m \/ t' <> t -> ref_at x' n t' = ref_at x n t'.
  Proof.
    unfold log_put, ref_at. intros E N. destruct (dget t _) as [old|].
    - destruct (iadd_ _ _) as [new|e].
      + destruct old as [u|i]; injection E as <- _; [|reflexivity]. cbn [with_log with_batch x_log].
        destruct (string_dec n m) as [->|Nm]; [|rewrite dget_dset_neq by congruence; reflexivity]. rewrite dget_dset_eq. rewrite dget_dset_neq by (intros ->; destruct N; congruence). destruct (dget m (x_log x)); reflexivity.
      + injection E as <- _. reflexivity.
    - injection E as <- _. cbn [with_log with_batch x_log].
      destruct (string_dec n m) as [->|Nm]; [|rewrite dget_dset_neq by congruence; reflexivity]. rewrite dget_dset_eq. rewrite dget_dset_neq by (intros ->; destruct N; congruence). destruct (dget m (x_log x)); reflexivity.
  Qed.
  (** one run of a phase that logs first *)
  Lemma phase_new ps mo m t r (x x' : lx) : logs_first ps -> ref_at x m t = None -> seach (fun p => run_plugin p mo m t (Some r)) ps x = (x', Ok tt) ->
    x_heap x' = x_heap x /\ x_reg x' = x_reg x /\ x_opt x' = x_opt x /\ forall n t', ref_at x' n t' = if String.eqb n m && String.eqb t' t then Some r else ref_at x n t'.
  Proof.
    intros (q & -> & NQ) N E. cbn [seach] in E. apply sbind_ok in E as (y & [] & E1 & E2). cbn in E1. destruct (put_new m t r x N) as (l & EL & EF). rewrite EL in E1. injection E1 as <-.
    apply (plugins_state eigh q mo m t (Some r) _ x' (Ok tt) NQ) in E2. split; [rewrite E2; reflexivity|]. split; [rewrite E2; reflexivity|]. split; [rewrite E2; reflexivity|]. intros n t'. rewrite (state_ref _ _ _ _ E2). apply EF.
  Qed.
  Lemma register_ok u h (x : lx) : u_req u = true -> register_tensor_hook u h x = (with_hooks x (x_fh x) (x_bh x) (x_gh x) (x_th x ++ [h]) (x_reg x ++ [h]), Ok tt).
  Proof. unfold register_tensor_hook. intros ->. reflexivity. Qed.
  Lemma act_cons n t ts (x : lx) : watch_activation ((n, t) :: ts) x = ((tensor_forward_hook eigh t n ;; let! y := sget in register_tensor_hook (uget (x_heap y) t) (HActT t n)) ;; watch_activation ts) x.
  Proof. reflexivity. Qed.
  Lemma eqb_false (a b : string) : a <> b -> String.eqb a b = false.
  Proof. apply String.eqb_neq. Qed.
  Lemma act_run ts : forall x x' : lx, logs_first (o_forward (x_opt x)) -> new_names x ts -> watch_activation ts x = (x', Ok tt) ->
    x_heap x' = x_heap x /\ x_reg x' = x_reg x ++ map (fun p => HActT (snd p) (fst p)) ts /\ x_opt x' = x_opt x /\ trackable x ts /\
    (forall n t, In (n, t) ts -> ref_at x' n "forward" = Some (Ref t)) /\ (forall n t', t' <> "forward" \/ ~ In n (map fst ts) -> ref_at x' n t' = ref_at x n t').
  Proof.
    induction ts as [|[n t] ts IH]; intros x x' LF (ND & NN) E.
    - injection E as <-. cbn [map]. rewrite app_nil_r. split; [reflexivity|]. split; [reflexivity|]. split; [reflexivity|]. split; [intros ? ? []|]. split; [intros ? ? []|reflexivity].
    - rewrite act_cons in E. apply sbind_ok in E as (z & [] & E1 & E2). apply sbind_ok in E1 as (y & [] & E0 & E1). cbv [sget] in E1. rewrite (sbind_run (fun s => (s, Ok s)) _ y y y eq_refl) in E1.
      unfold tensor_forward_hook in E0. inversion ND as [|? ? N1 N2]; subst. destruct (phase_new _ _ _ _ _ _ _ LF (logged_none _ _ _ (NN n (or_introl eq_refl))) E0) as (H1 & H2 & H3 & H4).
      unfold register_tensor_hook in E1. destruct (u_req (uget (x_heap y) t)) eqn:RQ; [|discriminate E1]. apply (f_equal fst) in E1. cbn [fst] in E1. subst z.
      match type of E2 with watch_activation _ ?w = _ => set (z := w) in * end.
      assert (Rz : forall a b, ref_at z a b = ref_at y a b) by reflexivity.
      destruct (IH z x') as (I1 & I2 & I3 & I4 & I5 & I6); [change (logs_first (o_forward (x_opt y))); rewrite H3; exact LF| |exact E2|].
      { split; [exact N2|]. intros n' In'. rewrite logged_ref, Rz, H4. rewrite (eqb_false n' n) by (intros ->; contradiction). cbn [andb]. rewrite (logged_none _ _ _ (NN n' (or_intror In'))). reflexivity. }
      change (x_heap z) with (x_heap y) in I1. change (x_opt z) with (x_opt y) in I3. change (x_reg z) with (x_reg y ++ [HActT t n]) in I2.
      split; [rewrite I1; exact H1|]. split; [rewrite I2, H2; cbn [map fst snd]; rewrite <- app_assoc; reflexivity|]. split; [rewrite I3; exact H3|]. split; [|split].
      + intros a b [[= <- <-]|Ia]; [rewrite <- H1; exact RQ|]. specialize (I4 a b Ia). change (x_heap z) with (x_heap y) in I4. rewrite <- H1. exact I4.
      + intros a b [[= <- <-]|Ia]; [|apply I5; exact Ia]. rewrite (I6 n "forward" (or_intror N1)), Rz, H4, !String.eqb_refl. reflexivity.
      + intros a b Nab. rewrite I6 by (destruct Nab as [Nab|Nab]; [left; exact Nab|right; intros X; apply Nab; right; exact X]). rewrite Rz, H4. destruct Nab as [Nab|Nab]; [rewrite (eqb_false b) by exact Nab; rewrite andb_false_r; reflexivity|].
        rewrite (eqb_false a) by (intros ->; apply Nab; left; reflexivity). reflexivity.
  Qed.
  Theorem act_forward ts (x x' : lx) : logs_first (o_forward (x_opt x)) -> new_names x ts -> watch_activation ts x = (x', Ok tt) ->
    trackable x ts /\ x_heap x' = x_heap x /\
    (forall n t, In (n, t) ts -> logged x' n "forward" = Some (snd (mem_get (x_heap x) t)) /\ forall u, logged (fst (run_ev (MTensor t u) x')) n "forward" = Some (snd (u_d u))) /\
    (forall n t', t' <> "forward" \/ ~ In n (map fst ts) -> logged x' n t' = logged x n t').
  Proof.
    intros LF NN E. destruct (act_run ts x x' LF NN E) as (I1 & I2 & I3 & I4 & I5 & I6). split; [exact I4|]. split; [exact I1|]. split.
    - intros n t It. split; [rewrite logged_ref, (I5 n t It); cbn [option_map deref]; rewrite I1; reflexivity|]. intros u. cbn [ModelLogger.run_ev fst]. rewrite logged_ref.
      change (ref_at (with_heap x' (dset t u (x_heap x'))) n "forward") with (ref_at x' n "forward"). rewrite (I5 n t It). cbn [option_map deref with_heap x_heap]. unfold uget. rewrite dget_dset_eq. reflexivity.
    - intros n t' N. rewrite !logged_ref, I6 by exact N. rewrite I1. reflexivity.
  Qed.
  (** with logging only, it succeeds exactly when every tensor requires gradients *)
  Lemma act_step n t ts (x : lx) : o_forward (x_opt x) = [PLog] -> logged x n "forward" = None -> u_req (uget (x_heap x) t) = true ->
    exists z, watch_activation ((n, t) :: ts) x = watch_activation ts z /\ o_forward (x_opt z) = [PLog] /\ x_heap z = x_heap x /\ forall a b, ref_at z a b = if String.eqb a n && String.eqb b "forward" then Some (Ref t) else ref_at x a b.
  Proof.
    intros LF NN RQ. destruct (put_new n "forward" (Ref t) x (logged_none _ _ _ NN)) as (l & EL & EF).
    assert (E0 : tensor_forward_hook eigh t n x = (with_log x l, Ok tt)). { unfold tensor_forward_hook. rewrite LF. cbn [seach]. rewrite (sbind_run _ _ _ _ _ EL). reflexivity. }
    set (z := with_hooks (with_log x l) (x_fh x) (x_bh x) (x_gh x) (x_th x ++ [HActT t n]) (x_reg x ++ [HActT t n])).
    exists z. split; [|split; [exact LF|split; [reflexivity|exact EF]]].
    rewrite act_cons. assert (E1 : (tensor_forward_hook eigh t n ;; let! y := sget in register_tensor_hook (uget (x_heap y) t) (HActT t n)) x = (z, Ok tt)).
    { rewrite (sbind_run _ _ _ _ _ E0). unfold sget. rewrite (sbind_run (fun s => (s, Ok s)) _ (with_log x l) _ _ eq_refl). apply register_ok. exact RQ. }
    rewrite (sbind_run _ _ _ _ _ E1). reflexivity.
  Qed.
  Lemma act_prefix l1 : forall l2 (x : lx), o_forward (x_opt x) = [PLog] -> NoDup (map fst l1) -> (forall n, In n (map fst l1) -> logged x n "forward" = None) -> trackable x l1 ->
    exists z, watch_activation (l1 ++ l2) x = watch_activation l2 z /\ o_forward (x_opt z) = [PLog] /\ x_heap z = x_heap x /\
      (forall n t, In (n, t) l1 -> ref_at z n "forward" = Some (Ref t)) /\ (forall n t', t' <> "forward" \/ ~ In n (map fst l1) -> ref_at z n t' = ref_at x n t').
  Proof.
    induction l1 as [|[n t] l1 IH]; intros l2 x LF ND NN TR.
    - exists x. repeat split; try assumption. intros ? ? [].
    - destruct (act_step n t (l1 ++ l2) x LF (NN n (or_introl eq_refl)) (TR n t (or_introl eq_refl))) as (z & E & Lz & Hz & Rz). inversion ND as [|? ? N1 N2]; subst.
      destruct (IH l2 z Lz N2) as (w & Ew & Lw & Hw & R1 & R2).
      { intros a Ia. rewrite logged_ref, Rz, (eqb_false a n) by (intros ->; contradiction). cbn [andb]. rewrite (logged_none _ _ _ (NN a (or_intror Ia))). reflexivity. }
      { intros a b Ia. rewrite Hz. apply (TR a b). right. exact Ia. }
      exists w. split; [cbn [app]; rewrite E; exact Ew|]. split; [exact Lw|]. split; [rewrite Hw; exact Hz|]. split.
      + intros a b [[= <- <-]|Ia]; [|apply R1; exact Ia]. rewrite (R2 n "forward" (or_intror N1)), Rz, !String.eqb_refl. reflexivity.
      + intros a b Nab. rewrite R2 by (destruct Nab as [Nab|Nab]; [left; exact Nab|right; intros X; apply Nab; right; exact X]). rewrite Rz. destruct Nab as [Nab|Nab]; [rewrite (eqb_false b) by exact Nab; rewrite andb_false_r; reflexivity|].
        rewrite (eqb_false a) by (intros ->; apply Nab; left; reflexivity). reflexivity.
  Qed.
  Theorem act_total ts (x : lx) : o_forward (x_opt x) = [PLog] -> new_names x ts -> trackable x ts -> exists x', watch_activation ts x = (x', Ok tt).
  Proof. intros LF (ND & NN) TR. destruct (act_prefix ts [] x LF ND NN TR) as (z & E & _). rewrite app_nil_r in E. exists z. exact E. Qed.
  (** the first tensor that does not require gradients: it is logged, and stays so, before the exception *)
  Theorem act_untracked l1 n t l2 (x : lx) : o_forward (x_opt x) = [PLog] -> new_names x (l1 ++ (n, t) :: l2) -> trackable x l1 -> u_req (uget (x_heap x) t) = false ->
    exists x', watch_activation (l1 ++ (n, t) :: l2) x = (x', Err RuntimeError) /\ x_heap x' = x_heap x /\
      (forall a b, In (a, b) (l1 ++ [(n, t)]) -> logged x' a "forward" = Some (snd (mem_get (x_heap x) b))) /\ (forall a, In a (map fst l2) -> logged x' a "forward" = None).
  Proof.
    intros LF (ND & NN) TR NR. rewrite map_app in ND, NN. cbn [map fst] in ND, NN. assert (ND1 : NoDup (map fst l1)). { clear - ND. induction (map fst l1) as [|a l IH]; [constructor|]. inversion ND; subst. constructor; [intros X; apply H1; apply in_or_app; left; exact X|apply IH; assumption]. }
    destruct (act_prefix l1 ((n, t) :: l2) x LF ND1 (fun a Ia => NN a (in_or_app _ _ _ (or_introl Ia))) TR) as (z & E & Lz & Hz & R1 & R2).
    assert (Nn : ~ In n (map fst l1)). { apply NoDup_remove_2 in ND. intros X. apply ND. apply in_or_app. left. exact X. }
    assert (Zn : ref_at z n "forward" = None). { rewrite R2 by (right; exact Nn). apply logged_none. apply NN. apply in_or_app. right. left. reflexivity. }
    destruct (put_new n "forward" (Ref t) z Zn) as (l & EL & EF).
    assert (E0 : tensor_forward_hook eigh t n z = (with_log z l, Ok tt)). { unfold tensor_forward_hook. rewrite Lz. cbn [seach]. rewrite (sbind_run _ _ _ _ _ EL). reflexivity. }
    exists (with_log z l). split; [|split; [exact Hz|split]].
    - rewrite E, act_cons. unfold sbind at 1. rewrite (sbind_run _ _ _ _ _ E0). unfold sget. rewrite (sbind_run (fun s => (s, Ok s)) _ (with_log z l) _ _ eq_refl).
      unfold register_tensor_hook. change (x_heap (with_log z l)) with (x_heap z). rewrite Hz, NR. reflexivity.
    - intros a b Iab. rewrite logged_ref, EF. change (x_heap (with_log z l)) with (x_heap z). rewrite Hz. apply in_app_or in Iab. destruct Iab as [Iab|[[= <- <-]|[]]].
      + rewrite (eqb_false a n) by (intros ->; apply Nn; apply (in_map fst) in Iab; exact Iab). cbn [andb]. rewrite (R1 a b Iab). reflexivity.
      + rewrite !String.eqb_refl. reflexivity.
    - intros a Ia. rewrite logged_ref, EF. apply NoDup_remove in ND. destruct ND as (ND & NI).
      rewrite (eqb_false a n) by (intros ->; apply NI; apply in_or_app; right; exact Ia). cbn [andb].
      assert (A1 : ~ In a (map fst l1)). { clear - ND Ia. induction (map fst l1) as [|b l IH]; [intros []|]. cbn [app] in ND. inversion ND; subst. intros [->|X]; [apply H1; apply in_or_app; right; exact Ia|apply IH; assumption]. }
      rewrite R2 by (right; exact A1). rewrite (logged_none x a "forward"); [reflexivity|]. apply NN. apply in_or_app. right. right. exact Ia.
  Qed.

  (** ---- statistics ---- *)
  Lemma plain_calls n lt t ps : forall x x' : lx, (forall p, In p ps -> p = PMean \/ p = PCovariance) -> seach (fun p => run_plugin p None n lt (Some (Ref t))) ps x = (x', Ok tt) ->
        only_state x x' /\ run_calls (map (fun st => Call st (BInfo (option_map snd (x_mask x)) (Node [])) None n lt (Some (mem_get (x_heap x) t)) (x_offload x)) (concat (map stat_of ps))) (x_state x) = (x_state x', Ok tt).
  Proof.
    induction ps as [|p ps IH]; intros x x' Hps E; cbn [seach] in E.
        - injection E as <-. split; [apply only_state_refl|reflexivity].
        - apply sbind_ok in E as (y & [] & E1 & E2).
          assert (HO : only_state x y).
          { apply (run_plugin_state eigh p None n lt (Some (Ref t)) x y (Ok tt)); [|exact E1]. destruct (Hps p (or_introl eq_refl)); subst; discriminate. }
          destruct (IH y x' ltac:(intros q Hq; apply Hps; right; exact Hq) E2) as [HO2 HC]. split; [exact (only_state_trans _ _ _ HO HO2)|].
          assert (Hy : x_mask y = x_mask x /\ x_offload y = x_offload x /\ x_heap y = x_heap x) by (rewrite HO; auto). destruct Hy as (Hy1 & Hy2 & Hy3). rewrite Hy1, Hy2, Hy3 in HC.
          assert (E1' : exists st, stat_of p = [st] /\ do_call (Call st (BInfo (option_map snd (x_mask x)) (Node [])) None n lt (Some (mem_get (x_heap x) t)) (x_offload x)) (x_state x) = (x_state y, Ok tt)).
          { destruct (Hps p (or_introl eq_refl)) as [-> | ->]; cbn [ModelLogger.run_plugin] in E1; unfold on_state in E1; cbn [data_of] in E1.
            - exists SMean. split; [reflexivity|]. unfold do_call. cbn [k_stat k_b k_mod k_m k_t k_data k_off].
              replace (mean_update (BInfo (option_map snd (x_mask x)) (Node [])) None n lt (Some (mem_get (x_heap x) t)) (x_offload x) (x_state x))
                with (mean_update (binfo_of x) None n lt (Some (u_d (deref (x_heap x) (Ref t)))) (x_offload x) (x_state x)).
              + destruct (mean_update _ _ _ _ _ _ _) as [s' q]. apply (f_equal (fun p => (x_state (fst p), snd p))) in E1. exact E1.
              + unfold mean_update, accumulate, binfo_of, count_of, mem_get. cbn [b_mask get_data deref]. destruct (x_mask x); reflexivity.
            - exists SCov. split; [reflexivity|]. unfold do_call. cbn [k_stat k_b k_mod k_m k_t k_data k_off].
              replace (covariance_update (BInfo (option_map snd (x_mask x)) (Node [])) None n lt (Some (mem_get (x_heap x) t)) (x_offload x) (x_state x))
                with (covariance_update (binfo_of x) None n lt (Some (u_d (deref (x_heap x) (Ref t)))) (x_offload x) (x_state x)).
              + destruct (covariance_update _ _ _ _ _ _ _) as [s' q]. apply (f_equal (fun p => (x_state (fst p), snd p))) in E1. exact E1.
              + unfold covariance_update, accumulate, binfo_of, count_of, mem_get. cbn [b_mask get_data deref]. destruct (x_mask x); reflexivity. }
          destruct E1' as (st & Est & E1'). cbn [map concat]. rewrite Est. cbn [app map].
          apply (run_calls_ok [_] _ _ (x_state y)); [|exact HC]. unfold run_calls. cbn [seach]. rewrite (sbind_run _ _ _ _ _ E1'). reflexivity.
  Qed.
  Lemma act_stats ts : forall x x' : lx, moments_only (x_opt x) -> watch_activation ts x = (x', Ok tt) -> run_calls (act_calls x ts) (x_state x) = (x_state x', Ok tt) /\ x_log x' = x_log x.
  Proof.
    induction ts as [|[n t] ts IH]; intros x x' M E.
    - injection E as <-. split; reflexivity.
    - rewrite act_cons in E. apply sbind_ok in E as (z & [] & E1 & E2). apply sbind_ok in E1 as (y & [] & E0 & E1). cbv [sget] in E1. rewrite (sbind_run (fun s => (s, Ok s)) _ y y y eq_refl) in E1.
      unfold tensor_forward_hook in E0.
      destruct (plain_calls _ _ _ _ _ _ (fun p Hp => M p (or_introl Hp)) E0) as (HO & HC).
      unfold register_tensor_hook in E1. destruct (u_req (uget (x_heap y) t)); [|discriminate E1]. apply (f_equal fst) in E1. cbn [fst] in E1. subst z.
      match type of E2 with watch_activation _ ?w = _ => set (z := w) in * end.
      assert (Ez : x_opt z = x_opt x /\ x_mask z = x_mask x /\ x_heap z = x_heap x /\ x_offload z = x_offload x /\ x_log z = x_log x).
      { change (x_opt y = x_opt x /\ x_mask y = x_mask x /\ x_heap y = x_heap x /\ x_offload y = x_offload x /\ x_log y = x_log x). rewrite HO. auto. }
      destruct Ez as (Z1 & Z2 & Z3 & Z4 & Z5). destruct (IH z x') as (IC & IL); [rewrite Z1; exact M|exact E2|]. split; [|rewrite IL; exact Z5].
      unfold act_calls in *. rewrite Z1, Z2, Z3, Z4 in IC. cbn [map concat fst snd]. apply (run_calls_ok _ _ _ (x_state y)); [exact HC|]. exact IC.
  Qed.

  (** ---- gradients ---- *)
  Definition is_act (h : hook) : bool := match h with HActT _ _ => true | _ => false end.
  Definition acts (x : lx) : list hook := filter is_act (x_reg x).
  Definition same_acts (x y : lx) : Prop := acts y = acts x.
  Lemma sa_refl x : same_acts x x.
  Proof. reflexivity. Qed.
  Lemma sa_trans x y z : same_acts x y -> same_acts y z -> same_acts x z.
  Proof. unfold same_acts. congruence. Qed.
  Lemma sa_slh x y : slh x y -> same_acts x y.
  Proof. intros (s & l & h & ->). reflexivity. Qed.
  Lemma sa_grad m n ins out x x' o : grad_hook m n ins out x = (x', o) -> same_acts x x'.
  Proof.
    unfold grad_hook. destruct ins as [|i [|i' r]]; try (intros [= <- _]; reflexivity). destruct out as [t u| |e]; try (intros [= <- _]; reflexivity).
    unfold register_tensor_hook. destruct (u_req u); intros [= <- _]; [|reflexivity]. unfold same_acts, acts. cbn [with_hooks x_reg]. rewrite filter_app. cbn [filter is_act]. apply app_nil_r.
  Qed.
  Lemma sa_ev e x x' o : run_ev e x = (x', o) -> same_acts x x'.
  Proof.
    destruct e as [t u|c m ins out gm|t g|c gs|e]; cbn [ModelLogger.run_ev].
    - intros [= <- _]. reflexivity.
    - apply (sbind_rel same_acts sa_trans).
      + intros y o' [= <- _]. reflexivity.
      + intros [] y y' o'. apply (sbind_rel same_acts sa_trans).
        * intros z o1 [= <- _]. reflexivity.
        * intros z0 z z' o1. apply (sbind_rel same_acts sa_trans).
          -- intros w o2. apply (seach_rel same_acts sa_refl sa_trans). intros n v v' o3 _ E. apply sa_slh. exact (forward_hook_slh _ _ _ _ _ _ _ _ _ E).
          -- intros [] w w' o2. destruct out as [t u| |e].
             ++ apply (sbind_rel same_acts sa_trans).
                ** intros v o3 [= <- _]. reflexivity.
                ** intros [] v v' o3. apply (sbind_rel same_acts sa_trans).
                   { intros v1 o4 [= <- _]. reflexivity. }
                   { intros v0 v1 v2 o4. apply (seach_rel same_acts sa_refl sa_trans). intros n y1 y2 o5 _. apply sa_grad. }
             ++ apply (sbind_rel same_acts sa_trans).
                { intros v1 o4 [= <- _]. reflexivity. }
                { intros v0 v1 v2 o4. apply (seach_rel same_acts sa_refl sa_trans). intros n y1 y2 o5 _. apply sa_grad. }
             ++ intros [= <- _]. reflexivity.
    - apply (sbind_rel same_acts sa_trans).
      + intros y o' [= <- _]. reflexivity.
      + intros z y y' o'. apply (seach_rel same_acts sa_refl sa_trans). intros h v v' o3 _ E. apply sa_slh. revert E.
        destruct h; try (intros [= <- _]; apply slh_refl).
        * apply grad_tensor_hook_slh.
        * apply plugins_slh.
    - apply (sbind_rel same_acts sa_trans).
      + intros y o' [= <- _]. reflexivity.
      + intros z y y' o'. apply (seach_rel same_acts sa_refl sa_trans). intros h v v' o3 _ E. apply sa_slh. revert E.
        destruct h; try (intros [= <- _]; apply slh_refl). apply backward_hook_slh.
    - intros [= <- _]. reflexivity.
  Qed.
  Lemma sa_evs es x x' o : run_evs es x = (x', o) -> same_acts x x'.
  Proof. apply (seach_rel same_acts sa_refl sa_trans). intros e y y' o' _. apply sa_ev. Qed.
  Lemma acts_installed (x : lx) : filter is_act (installed x) = [].
  Proof. unfold installed. induction (x_mods x) as [|m l IH]; [reflexivity|]. cbn [map concat hook_triple fst snd app filter is_act]. exact IH. Qed.

  (** the hooks of one tensor when its gradient arrives *)
  Notation deliver g := (fun h => match h with HGradT _ m n i => grad_tensor_hook kind eigh m n i g | HActT _ n => tensor_backward_hook eigh n g | _ => sret tt end).
  Lemma grad_keeps m n i g (x x' : lx) o a : grad_tensor_hook kind eigh m n i g x = (x', o) -> ref_at x' a "backward" = ref_at x a "backward".
  Proof.
    unfold grad_tensor_hook. destruct (o_grad (x_opt x)) as [|p r]; [intros [= <- _]; reflexivity|]. destruct (plugin_eqb p PLog) eqn:Ep; [|intros [= <- _]; reflexivity]. destruct p; try discriminate Ep.
    apply (sbind_rel (fun x x' => ref_at x' a "backward" = ref_at x a "backward") (fun x y z E1 E2 => eq_trans E2 E1)).
    - intros y o' [= <- _]. reflexivity.
    - intros psg y y' o' E. change (firstn 1 (PLog :: r)) with [PLog] in E. cbn [seach] in E. unfold sbind in E. cbn [ModelLogger.run_plugin] in E.
      match type of E with context [log_put ?a1 ?a2 ?a3 y] => destruct (log_put a1 a2 a3 y) as [w q] eqn:EL end.
      assert (W : w = y') by (destruct q as [[]|e]; apply (f_equal fst) in E; exact E). subst w. refine (put_other _ _ _ _ _ _ a "backward" EL (or_intror _)). discriminate.
  Qed.
  Lemma opt_slh (x y : lx) : slh x y -> x_opt y = x_opt x.
  Proof. intros (s & l & h & ->). reflexivity. Qed.
  Lemma deliver_acts t g (hs : list hook) : forall (x x' : lx) ns, logs_first (o_backward (x_opt x)) -> filter is_act hs = map (fun n => HActT t n) ns -> (forall h, In h hs -> match h with HActT _ _ | HGradT _ _ _ _ => True | _ => False end) ->
    NoDup ns -> (forall n, In n ns -> ref_at x n "backward" = None) -> seach (deliver g) hs x = (x', Ok tt) ->
    (forall n, In n ns -> ref_at x' n "backward" = Some (Ref g)) /\ (forall n, ~ In n ns -> ref_at x' n "backward" = ref_at x n "backward") /\ ((forall h, In h hs -> is_act h = true) -> x_heap x' = x_heap x).
  Proof.
    induction hs as [|h hs IH]; intros x x' ns LF FL KD ND NN E.
    - injection E as <-. destruct ns; [|discriminate FL]. repeat split. intros ? [].
    - cbn [seach] in E. apply sbind_ok in E as (y & [] & E1 & E2). pose proof (KD h (or_introl eq_refl)) as Kh. destruct h as [m n|m n|m n|out m n i|t' n]; try contradiction.
      + cbn [filter is_act] in FL. assert (LFy : logs_first (o_backward (x_opt y))) by (rewrite (opt_slh x y (grad_tensor_hook_slh _ _ _ _ _ _ _ _ _ E1)); exact LF).
        destruct (IH y x' ns LFy FL (fun h Ih => KD h (or_intror Ih)) ND ltac:(intros a Ia; rewrite (grad_keeps _ _ _ _ _ _ _ a E1); apply NN; exact Ia) E2) as (I1 & I2 & I3).
        split; [exact I1|]. split; [intros a Na; rewrite (I2 a Na); exact (grad_keeps _ _ _ _ _ _ _ a E1)|]. intros A. specialize (A _ (or_introl eq_refl)). discriminate A.
      + cbn [filter is_act] in FL. destruct ns as [|n' ns]; [discriminate FL|]. cbn [map] in FL. injection FL as -> -> FL. inversion ND as [|? ? N1 N2]; subst.
        unfold tensor_backward_hook in E1. destruct (phase_new _ _ _ _ _ _ _ LF (NN n' (or_introl eq_refl)) E1) as (H1 & H2 & H3 & H4).
        destruct (IH y x' ns) as (I1 & I2 & I3); [rewrite H3; exact LF|exact FL|intros h Ih; apply KD; right; exact Ih|exact N2| |exact E2|].
        { intros a Ia. rewrite H4, (eqb_false a n') by (intros ->; contradiction). apply NN. right. exact Ia. }
        split; [|split].
        * intros a [<-|Ia]; [|apply I1; exact Ia]. rewrite (I2 n' N1), H4, !String.eqb_refl. reflexivity.
        * intros a Na. rewrite I2 by (intros X; apply Na; right; exact X). rewrite H4, (eqb_false a n') by (intros ->; apply Na; left; reflexivity). reflexivity.
        * intros A. rewrite I3 by (intros h Ih; apply A; right; exact Ih). exact H1.
  Qed.
  Lemma sa_act ts : forall x x' : lx, watch_activation ts x = (x', Ok tt) -> acts x' = acts x ++ map (fun p => HActT (snd p) (fst p)) ts /\ x_opt x' = x_opt x.
  Proof.
    induction ts as [|[n t] ts IH]; intros x x' E.
    - injection E as <-. cbn [map]. rewrite app_nil_r. split; reflexivity.
    - rewrite act_cons in E. apply sbind_ok in E as (z & [] & E1 & E2). apply sbind_ok in E1 as (y & [] & E0 & E1). cbv [sget] in E1. rewrite (sbind_run (fun s => (s, Ok s)) _ y y y eq_refl) in E1.
      unfold tensor_forward_hook in E0. apply plugins_slh in E0. destruct E0 as (s0 & l0 & h0 & ->). unfold register_tensor_hook in E1. destruct (u_req _); [|discriminate E1]. apply (f_equal fst) in E1. cbn [fst] in E1. subst z.
      apply IH in E2. destruct E2 as (A & B). split; [|exact B]. rewrite A. unfold acts. cbn [with_hooks x_reg map fst snd]. rewrite filter_app. cbn [filter is_act]. rewrite <- app_assoc. reflexivity.
  Qed.
  Lemma act_names t (l : list hook) : forall ts, filter is_act l = map (fun p => HActT (snd p) (fst p)) ts -> filter is_act (on_tensor t l) = map (fun n => HActT t n) (names_of_tensor t ts).
  Proof.
    unfold on_tensor, names_of_tensor. induction l as [|h l IH]; intros ts E; [destruct ts; [reflexivity|discriminate E]|]. destruct h as [m n|m n|m n|out m n i|o n]; cbn [filter is_act] in *.
    - apply IH. exact E.
    - apply IH. exact E.
    - apply IH. exact E.
    - destruct (t =? out); cbn [filter is_act]; apply IH; exact E.
    - destruct ts as [|[a b] ts]; [discriminate E|]. cbn [map fst snd] in E. injection E as -> -> E. cbn [filter fst snd]. destruct (t =? b) eqn:Q; cbn [filter is_act map fst].
      + apply Nat.eqb_eq in Q. subst b. rewrite (IH ts E). reflexivity.
      + apply IH. exact E.
  Qed.
  Lemma deliver_stats t g (hs : list hook) : forall (x x' : lx) ns, moments_only (x_opt x) -> o_grad (x_opt x) = [] -> filter is_act hs = map (fun n => HActT t n) ns -> (forall h, In h hs -> match h with HActT _ _ | HGradT _ _ _ _ => True | _ => False end) ->
    seach (deliver g) hs x = (x', Ok tt) -> only_state x x' /\ run_calls (act_grad_calls x g ns) (x_state x) = (x_state x', Ok tt).
  Proof.
    induction hs as [|h hs IH]; intros x x' ns M G FL KD E.
    - injection E as <-. destruct ns; [|discriminate FL]. split; [apply only_state_refl|reflexivity].
    - cbn [seach] in E. apply sbind_ok in E as (y & [] & E1 & E2). pose proof (KD h (or_introl eq_refl)) as Kh. destruct h as [m n|m n|m n|out m n i|t' n]; try contradiction.
      + cbn [filter is_act] in FL. unfold grad_tensor_hook in E1. rewrite G in E1. injection E1 as <-. apply (IH x x' ns M G FL); [intros h Ih; apply KD; right; exact Ih|exact E2].
      + cbn [filter is_act] in FL. destruct ns as [|n' ns]; [discriminate FL|]. cbn [map] in FL. injection FL as -> -> FL.
        unfold tensor_backward_hook in E1. destruct (plain_calls _ _ _ _ _ _ (fun p Hp => M p (or_intror Hp)) E1) as (HO & HC).
        assert (Ez : x_opt y = x_opt x /\ x_mask y = x_mask x /\ x_heap y = x_heap x /\ x_offload y = x_offload x) by (rewrite HO; auto). destruct Ez as (Z1 & Z2 & Z3 & Z4).
        destruct (IH y x' ns) as (I1 & I2); [rewrite Z1; exact M|rewrite Z1; exact G|exact FL|intros h Ih; apply KD; right; exact Ih|exact E2|].
        split; [exact (only_state_trans _ _ _ HO I1)|]. unfold act_grad_calls in *. rewrite Z1, Z2, Z3, Z4 in I2. cbn [map concat]. apply (run_calls_ok _ _ _ (x_state y)); [exact HC|exact I2].
  Qed.
  Theorem act_backward_stats ids mask es1 ts es2 t g (x x1 x2 x3 x4 x5 : lx) : reachable x -> moments_only (x_opt x) -> o_grad (x_opt x) = [] -> begins ids mask x x1 ->
    run_evs es1 x1 = (x2, Ok tt) -> watch_activation ts x2 = (x3, Ok tt) -> run_evs es2 x3 = (x4, Ok tt) -> run_ev (MGrad t g) x4 = (x5, Ok tt) ->
    run_calls (act_grad_calls x4 g (names_of_tensor t ts)) (x_state x4) = (x_state x5, Ok tt).
  Proof.
    intros HR M G HB E1 E2 E3 E4. destruct (begins_fresh _ _ _ _ _ _ _ _ HR HB) as (_ & _ & _ & Er & _ & _ & Eo & _).
    assert (O2 : x_opt x2 = x_opt x) by (apply run_evs_grows in E1 as (c & s & l & h & hs & ->); exact Eo).
    destruct (sa_act ts x2 x3 E2) as (I2 & I3).
    assert (O4 : x_opt x4 = x_opt x) by (apply run_evs_grows in E3 as (c & s & l & h & hs & ->); change (x_opt x3 = x_opt x); rewrite I3; exact O2).
    assert (A4 : filter is_act (x_reg x4) = map (fun p => HActT (snd p) (fst p)) ts).
    { change (acts x4 = map (fun p => HActT (snd p) (fst p)) ts). rewrite (sa_evs _ _ _ _ E3), I2, (sa_evs _ _ _ _ E1). unfold acts. rewrite Er, acts_installed. reflexivity. }
    cbn [ModelLogger.run_ev] in E4. rewrite (sbind_run sget _ _ _ _ eq_refl) in E4.
    apply (deliver_stats t g (on_tensor t (x_reg x4)) x4 x5); [rewrite O4; exact M|rewrite O4; exact G|apply act_names; exact A4| |exact E4].
    intros h Ih. unfold on_tensor in Ih. apply filter_In in Ih. destruct Ih as (_ & Ih). destruct h; try discriminate Ih; exact Logic.I.
  Qed.
  Theorem act_backward ids mask es1 ts es2 t g (x x1 x2 x3 x4 x5 : lx) : reachable x -> logs_first (o_forward (x_opt x)) -> logs_first (o_backward (x_opt x)) -> begins ids mask x x1 ->
    run_evs es1 x1 = (x2, Ok tt) -> new_names x2 ts -> watch_activation ts x2 = (x3, Ok tt) -> run_evs es2 x3 = (x4, Ok tt) -> (forall n, In (n, t) ts -> logged x4 n "backward" = None) ->
    run_ev (MGrad t g) x4 = (x5, Ok tt) ->
    (forall n, In (n, t) ts -> logged x5 n "backward" = Some (snd (mem_get (x_heap x5) g)) /\ forall u, logged (fst (run_ev (MTensor g u) x5)) n "backward" = Some (snd (u_d u))) /\
    (forall n, ~ In (n, t) ts -> logged x4 n "backward" = None -> logged x5 n "backward" = None).
  Proof.
    intros HR LF LB HB E1 NN E2 E3 NB E4. destruct (begins_fresh _ _ _ _ _ _ _ _ HR HB) as (_ & _ & _ & Er & _ & _ & Eo & _).
    assert (O2 : x_opt x2 = x_opt x) by (apply run_evs_grows in E1 as (c & s & l & h & hs & ->); exact Eo).
    destruct (act_run ts x2 x3 ltac:(rewrite O2; exact LF) NN E2) as (I1 & I2 & I3 & I4 & I5 & I6).
    assert (O4 : x_opt x4 = x_opt x) by (apply run_evs_grows in E3 as (c & s & l & h & hs & ->); change (x_opt x3 = x_opt x); rewrite I3; exact O2).
    assert (A4 : filter is_act (x_reg x4) = map (fun p => HActT (snd p) (fst p)) ts).
    { change (acts x4 = map (fun p => HActT (snd p) (fst p)) ts). rewrite (sa_evs _ _ _ _ E3). unfold acts. rewrite I2, filter_app. rewrite (sa_evs _ _ _ _ E1 : filter is_act (x_reg x2) = filter is_act (x_reg x1)). rewrite Er, acts_installed. cbn [app].
      clear. induction ts as [|[n t] ts IH]; [reflexivity|]. cbn [map filter is_act fst snd]. rewrite IH. reflexivity. }
    cbn [ModelLogger.run_ev] in E4. rewrite (sbind_run sget _ _ _ _ eq_refl) in E4.
    set (ns := map fst (filter (fun p => t =? snd p) ts)).
    assert (In_ns : forall n, In n ns <-> In (n, t) ts).
    { intros n. unfold ns. rewrite in_map_iff. split; [intros ([a b] & <- & Ib); apply filter_In in Ib; destruct Ib as (Ib & Eb); apply Nat.eqb_eq in Eb; cbn [snd] in Eb; subst b; exact Ib|]. intros It. exists (n, t). split; [reflexivity|]. apply filter_In. split; [exact It|apply Nat.eqb_refl]. }
    assert (FL : filter is_act (on_tensor t (x_reg x4)) = map (fun n => HActT t n) ns).
    { unfold on_tensor. assert (G : forall l ts, filter is_act l = map (fun p => HActT (snd p) (fst p)) ts -> filter is_act (filter (fun h => match h with HGradT o _ _ _ => t =? o | HActT o _ => t =? o | _ => false end) l) = map (fun n => HActT t n) (map fst (filter (fun p => t =? snd p) ts))).
      { clear. induction l as [|h l IH]; intros ts E; [destruct ts; [reflexivity|discriminate E]|]. destruct h as [m n|m n|m n|out m n i|o n]; cbn [filter is_act] in *.
        - apply IH. exact E.
        - apply IH. exact E.
        - apply IH. exact E.
        - destruct (t =? out); cbn [filter is_act]; apply IH; exact E.
        - destruct ts as [|[a b] ts]; [discriminate E|]. cbn [map fst snd] in E. injection E as -> -> E. cbn [filter fst snd]. destruct (t =? b) eqn:Q; cbn [filter is_act map fst].
          + apply Nat.eqb_eq in Q. subst b. rewrite (IH ts E). reflexivity.
          + apply IH. exact E. }
      apply G. exact A4. }
    destruct (deliver_acts t g (on_tensor t (x_reg x4)) x4 x5 ns) as (D1 & D2 & _).
    - rewrite O4. exact LB.
    - exact FL.
    - intros h Ih. unfold on_tensor in Ih. apply filter_In in Ih. destruct Ih as (_ & Ih). destruct h; try discriminate Ih; exact Logic.I.
    - unfold ns. destruct NN as (ND & _). clear - ND. induction ts as [|[a b] ts IH]; [constructor|]. cbn [map fst] in ND. inversion ND; subst. cbn [filter snd]. destruct (t =? b); [|apply IH; assumption]. cbn [map fst]. constructor; [|apply IH; assumption].
      intros X. apply H1. apply in_map_iff in X. destruct X as (p & Ep & Ip). apply filter_In in Ip. apply in_map_iff. exists p. tauto.
    - intros n I. apply logged_none. apply NB. apply In_ns. exact I.
    - exact E4.
    - split.
      + intros n It. apply In_ns in It. split; [rewrite logged_ref, (D1 n It); reflexivity|]. intros u. cbn [ModelLogger.run_ev fst]. rewrite logged_ref.
        change (ref_at (with_heap x5 (dset g u (x_heap x5))) n "backward") with (ref_at x5 n "backward"). rewrite (D1 n It). cbn [option_map deref with_heap x_heap]. unfold uget. rewrite dget_dset_eq. reflexivity.
      + intros n Nt L4. rewrite logged_ref, D2 by (rewrite In_ns; exact Nt). rewrite (logged_none _ _ _ L4). reflexivity.
  Qed.
  (** what is handed over before the batch begins is not logged *)
  Theorem act_too_early ts ids mask (x x1 x2 : lx) o : reachable x -> watch_activation ts x = (x1, o) -> begins ids mask x1 x2 ->
    (forall n t, logged x2 n t = None) /\ forall t g, run_ev (MGrad t g) x2 = (x2, Ok tt).
  Proof.
    intros HR E HB. assert (HR1 : reachable x1). { destruct HR as (w & th & off & os & ->). exists w, th, off, (os ++ [XWatchAct ts]). unfold run_ops. rewrite fold_left_app. cbn [fold_left run_op]. unfold run_ops in E. rewrite E. reflexivity. }
    destruct (begins_fresh _ _ _ _ _ _ _ _ HR1 HB) as (El & _ & _ & Er & _). split.
    - intros n t. unfold logged. rewrite El. reflexivity.
    - intros t g. cbn [ModelLogger.run_ev]. rewrite (sbind_run sget _ _ _ _ eq_refl). rewrite Er.
      assert (N : on_tensor t (installed x1) = []). { unfold on_tensor, installed. induction (x_mods x1) as [|m l IH]; [reflexivity|]. cbn [map concat hook_triple fst snd app filter]. exact IH. }
      rewrite N. reflexivity.
  Qed.
End P.
