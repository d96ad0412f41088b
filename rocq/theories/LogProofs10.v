(** Logger properties in the form stated in PropLogger.v. *)
From Coq Require Import ZArith Permutation.
From Verif Require Import BcastProofs Py Field Tensor ModelGrad Monad ModelState ModelMmap ModelSaver ModelLogger SpecGrad SpecState SpecLogger LogProofs1 LogProofs2 LogProofs3 LogProofs4 LogProofs5 LogProofs6 LogProofs8.
Local Open Scope nat_scope.

Section P.
  Context {F : Type} `{OField F}.
  Add Field lp10field : f_theory.
  Notation tensor := (tensor F).
  Notation dten := (@dten F).
  Notation uten := (@uten F).
  Notation lx := (@lx F).
  Notation ev := (@ev F).
  Notation lstate := (@lstate F).
  Variable kind : mid -> mkind.
  Variable wsize : mid -> nat.
  Variable eigh : tensor -> res (tensor * tensor).
  Variable enc : dten -> array.
  Notation run_ev := (run_ev kind eigh).
  Notation run_evs := (run_evs kind eigh).
  Notation reachable := (reachable kind wsize eigh enc).

  (** ---- the registry during a batch ---- *)
  Lemma slh_reg (x x' : lx) : slh x x' -> x_reg x' = x_reg x.
  Proof. intros (s & l & h & ->). reflexivity. Qed.
  Lemma slh_opt (x x' : lx) : slh x x' -> x_opt x' = x_opt x.
  Proof. intros (s & l & h & ->). reflexivity. Qed.
  Lemma reg_after mods names es : forall outs (x x' : lx),
    x_reg x = concat (map (fun m => hook_triple (m, name_of names m)) mods) ++ grad_hooks mods names outs -> run_evs es x = (x', Ok tt) ->
    x_reg x' = concat (map (fun m => hook_triple (m, name_of names m)) mods) ++ grad_hooks mods names (outs ++ outputs es).
  Proof.
    induction es as [|e es IH]; intros outs x x' Er E.
    - injection E as <-. unfold outputs. cbn [map concat]. rewrite app_nil_r. exact Er.
    - unfold ModelLogger.run_evs in E. cbn [seach] in E. apply sbind_ok in E as (y & [] & E1 & E2).
      change (run_evs es y = (x', Ok tt)) in E2. unfold outputs. cbn [map concat]. rewrite app_assoc. refine (IH _ y x' _ E2). clear IH E2.
      destruct e as [t u|c m ins out gm|t g|c gs|e]; cbn [ModelLogger.run_ev] in E1; rewrite ?app_nil_r.
      + injection E1 as <-. exact Er.
      + erewrite sbind_run in E1 by reflexivity. rewrite (sbind_run sget _ _ _ _ eq_refl) in E1.
        apply sbind_ok in E1 as (z & [] & E1 & E3).
        assert (Ez : x_reg z = x_reg x).
        { apply (seach_rel slh (slh_refl) (slh_trans)) in E1; [|intros n v v' o' _; apply forward_hook_slh]. apply slh_reg in E1. exact E1. }
        destruct out as [t u| |e].
        * erewrite sbind_run in E3 by reflexivity. rewrite (sbind_run sget _ _ _ _ eq_refl) in E3. cbn [x_reg with_heap] in E3.
          rewrite Ez, Er, fwd_inst in E3. rewrite grad_hooks_app, app_assoc, <- Er, <- Ez.
          destruct ins as [|i [|i' r]].
          -- destruct (times m mods) as [|k]; [|discriminate E3]. injection E3 as <-. unfold grad_hooks. cbn [map concat]. rewrite app_nil_r. reflexivity.
          -- assert (HQ : forall k (w : lx), seach (fun n => grad_hook m n [i] (OutTensor t u)) (repeat (name_of names m) k) w = (y, Ok tt) ->
                 x_reg y = x_reg w ++ repeat (HGradT t m (name_of names m) i) k).
             { clear. induction k as [|k IHk]; intros w Ew; cbn [repeat seach] in Ew.
               - injection Ew as <-. cbn [repeat]. rewrite app_nil_r. reflexivity.
               - apply sbind_ok in Ew as (v & [] & Ew1 & Ew2). unfold grad_hook, register_tensor_hook in Ew1. destruct (u_req u); [|discriminate Ew1].
                 injection Ew1 as <-. apply IHk in Ew2 as ->. cbn. rewrite <- app_assoc. reflexivity. }
             apply HQ in E3. rewrite E3. cbn [x_reg with_heap]. unfold grad_hooks. cbn [map concat fst snd]. rewrite app_nil_r. reflexivity.
          -- destruct (times m mods) as [|k]; [|discriminate E3]. injection E3 as <-. unfold grad_hooks. cbn [map concat]. rewrite app_nil_r. reflexivity.
        * rewrite (sbind_run sget _ _ _ _ eq_refl) in E3. rewrite Ez, Er, fwd_inst in E3.
          assert (Ey : y = z). { destruct (times m mods) as [|k]; [injection E3 as <-; reflexivity|destruct ins as [|i [|i' r]]; discriminate E3]. }
          subst y. rewrite Ez, Er. destruct ins as [|i [|]]; rewrite app_nil_r; reflexivity.
        * discriminate E3.
      + rewrite (sbind_run sget _ _ _ _ eq_refl) in E1. rewrite <- Er. apply slh_reg.
        revert E1. apply (seach_rel slh (slh_refl) (slh_trans)). intros h v v' o' _. destruct h; try (intros [= <- _]; apply slh_refl).
        * apply grad_tensor_hook_slh.
        * apply plugins_slh.
      + rewrite (sbind_run sget _ _ _ _ eq_refl) in E1. rewrite <- Er. apply slh_reg.
        revert E1. apply (seach_rel slh (slh_refl) (slh_trans)). intros h v v' o' _. destruct h; try (intros [= <- _]; apply slh_refl). apply backward_hook_slh.
      + discriminate E1.
  Qed.
  Lemma batch_reg ids mask es (x x1 x2 : lx) : reachable x -> begins ids mask x x1 -> run_evs es x1 = (x2, Ok tt) ->
    x_reg x2 = installed x ++ grad_hooks (x_mods x) (x_names x) (outputs es) /\ x_opt x2 = x_opt x.
  Proof.
    intros HR HB E. destruct (begins_fresh _ _ _ _ _ _ _ _ HR HB) as (_ & _ & _ & Er & _ & _ & Eo & _).
    split.
    - apply (reg_after (x_mods x) (x_names x) es []) in E; [exact E|]. unfold grad_hooks. cbn [map concat]. rewrite app_nil_r. exact Er.
    - apply run_evs_grows in E as (c & s & l & h & hs & ->). exact Eo.
  Qed.
  Lemma times_pos m ms : In m ms -> times m ms <> 0.
  Proof.
    intros HI. unfold times. assert (HF : In m (filter (Nat.eqb m) ms)) by (apply filter_In; split; [exact HI|apply Nat.eqb_refl]).
    destruct (filter (Nat.eqb m) ms); [destruct HF|discriminate].
  Qed.

  (** ---- C29 ---- *)
  Lemma batch_without_log kw ids mask es t m i g (x0 x x1 x2 : lx) : reachable x -> lx_setup kw x0 = (x, Ok tt) -> begins ids mask x x1 ->
    kw_get "grad" kw <> [] -> (forall a, In a (kw_get "grad" kw) -> known a <> Some PLog) ->
    run_evs es x1 = (x2, Ok tt) -> In (t, (m, i)) (outputs es) -> In m (x_mods x) -> run_ev (MGrad t g) x2 = (x2, Err AssertionError).
  Proof.
    intros HR HS HB HN HL E HO HM. destruct (batch_reg _ _ _ _ _ _ HR HB E) as [Er Eo].
    assert (HR0 : x_opt x = x_opt x) by reflexivity. unfold lx_setup in HS. destruct (opt_setup kw) as [[o kw'] r] eqn:Ek. injection HS as <- ->.
    assert (HQ : requested (kw_get "grad" kw) (o_grad o)) by exact (setup_requested _ _ _ Ek).
    assert (Eo2 : o_grad (x_opt x2) = o_grad o) by (rewrite Eo; reflexivity).
    assert (H1 : o_grad o <> []).
    { intros E0. destruct HQ as [_ HQ]. rewrite E0 in HQ. destruct (kw_get "grad" kw) as [|a l] eqn:Ea; [congruence|].
      assert (HK := setup_known _ _ _ Ek (kw_get "grad" kw) ltac:(unfold phases_of; cbn; auto)). destruct (known a) as [p|] eqn:Kp.
      - apply (HQ p). exists a. split; [left; reflexivity|exact Kp].
      - apply (HK a); [rewrite Ea; left; reflexivity|exact Kp]. }
    assert (H2 : hd PMean (o_grad o) <> PLog).
    { intros E0. apply (requested_log _ _ HQ) in E0 as (a & Ha & Ka). exact (HL a Ha Ka). }
    cbn [ModelLogger.run_ev]. rewrite (sbind_run sget _ _ _ _ eq_refl). rewrite Er. unfold installed. rewrite on_tensor_inst.
    assert (HI : In (HGradT t m (name_of (x_names (with_opt x0 o)) m) i) (grad_hooks (x_mods (with_opt x0 o)) (x_names (with_opt x0 o)) (filter (fun p => t =? fst p) (outputs es)))).
    { unfold grad_hooks. apply in_concat. exists (repeat (HGradT t m (name_of (x_names (with_opt x0 o)) m) i) (times m (x_mods (with_opt x0 o)))). split.
      - apply in_map_iff. exists (t, (m, i)). split; [reflexivity|]. apply filter_In. split; [exact HO|apply Nat.eqb_refl].
      - pose proof (times_pos m _ HM) as HT. destruct (times m (x_mods (with_opt x0 o))); [congruence|left; reflexivity]. }
    match type of HI with In _ ?L => change (seach (fun h => match h with HGradT _ m n i => grad_tensor_hook kind eigh m n i g | HActT _ n => tensor_backward_hook eigh n g | _ => sret tt end) L x2 = (x2, Err AssertionError)) end.
    destruct (grad_hooks (x_mods (with_opt x0 o)) (x_names (with_opt x0 o)) (filter (fun p => t =? fst p) (outputs es))) as [|h hs] eqn:Eh; [destruct HI|]. cbn [seach].
    destruct (grad_hooks_in (x_mods (with_opt x0 o)) (x_names (with_opt x0 o)) h (filter (fun p => t =? fst p) (outputs es)) ltac:(rewrite Eh; left; reflexivity)) as (a & b & c & d & ->).
    unfold sbind. rewrite grad_needs_log; [reflexivity| |]; rewrite Eo2; assumption.
  Qed.
  Lemma batch_with_log kw ids mask es t g (x0 x x1 x2 : lx) : reachable x -> lx_setup kw x0 = (x, Ok tt) -> begins ids mask x x1 ->
    (kw_get "grad" kw = [] \/ exists a, In a (kw_get "grad" kw) /\ known a = Some PLog) ->
    run_evs es x1 = (x2, Ok tt) -> snd (run_ev (MGrad t g) x2) <> Err AssertionError.
  Proof.
    intros HR HS HB HL E. destruct (batch_reg _ _ _ _ _ _ HR HB E) as [Er Eo].
    unfold lx_setup in HS. destruct (opt_setup kw) as [[o kw'] r] eqn:Ek. injection HS as <- ->.
    assert (HQ : requested (kw_get "grad" kw) (o_grad o)) by exact (setup_requested _ _ _ Ek).
    assert (Eo2 : o_grad (x_opt x2) = o_grad o) by (rewrite Eo; reflexivity).
    cbn [ModelLogger.run_ev]. rewrite (sbind_run sget _ _ _ _ eq_refl). rewrite Er. unfold installed. rewrite on_tensor_inst.
    change (na (snd (seach (fun h => match h with HGradT _ m n i => grad_tensor_hook kind eigh m n i g | HActT _ n => tensor_backward_hook eigh n g | _ => sret tt end)
      (grad_hooks (x_mods (with_opt x0 o)) (x_names (with_opt x0 o)) (filter (fun p => t =? fst p) (outputs es))) x2))).
    apply (seach_na _ _ _ (fun y => o_grad (x_opt y) = o_grad o)); [exact Eo2|].
    intros h y Hh Ey. destruct (grad_hooks_in _ _ _ _ Hh) as (a & b & c & d & ->). split.
    - destruct HL as [HL|HL].
      + rewrite grad_no_plugins; [discriminate|]. rewrite Ey. destruct HQ as [_ HQ]. rewrite HL in HQ. destruct (o_grad o) as [|p l]; [reflexivity|].
        destruct (proj1 (HQ p) (or_introl eq_refl)) as (a' & [] & _).
      + apply grad_log_na. rewrite Ey. apply (requested_log _ _ HQ). exact HL.
    - destruct (grad_tensor_hook kind eigh b c d g y) as [y' o'] eqn:Eg. cbn [fst]. apply grad_tensor_hook_slh in Eg. rewrite (slh_opt _ _ Eg). exact Ey.
  Qed.

  (** ---- C62 ---- *)
  Lemma batch_inputs ids mask es c m ins out gm (x x1 x2 : lx) : reachable x -> begins ids mask x x1 -> run_evs es x1 = (x2, Ok tt) -> In m (x_mods x) ->
    length ins <> 1 -> snd (run_ev (MCall c m ins out gm) x2) = Err AssertionError.
  Proof.
    intros HR HB E HM HL. destruct (batch_reg _ _ _ _ _ _ HR HB E) as [Er _]. apply call_inputs; [|exact HL].
    rewrite Er. unfold installed. rewrite pre_inst. pose proof (times_pos m _ HM). destruct (times m (x_mods x)); [congruence|discriminate].
  Qed.
  Lemma batch_outputs ids mask es c m i out gm (x x1 x2 : lx) : reachable x -> begins ids mask x x1 -> run_evs es x1 = (x2, Ok tt) -> In m (x_mods x) ->
    (forall t u, out = OutTensor t u -> u_req u = false) -> (forall e, out <> OutRaise e) ->
    match run_ev (MCall c m [i] out gm) x2 with
    | (_, Ok _) => False
    | (_, Err e) => (o_forward (x_opt x) = [] -> mask = None -> e = match out with OutTensor _ _ => RuntimeError | _ => AttributeError end)
    end.
  Proof.
    intros HR HB E HM H1 H2. destruct (batch_reg _ _ _ _ _ _ HR HB E) as [Er Eo].
    assert (Em : x_mask x2 = mask).
    { destruct (begins_fresh _ _ _ _ _ _ _ _ HR HB) as (_ & _ & Em & _). apply run_evs_grows in E as (c' & s & l & h & hs & ->). exact Em. }
    pose proof (call_bad_output kind eigh c m i out gm x2) as HC. rewrite Eo, Em in HC. apply HC; try assumption.
    rewrite Er. unfold installed. rewrite fwd_inst. pose proof (times_pos m _ HM). destruct (times m (x_mods x)); [congruence|discriminate].
  Qed.

  (** ---- C22 ---- *)
  Lemma isolated ids ids' mask es (x y x1 y1 x2 y2 : lx) : reachable x -> reachable y ->
    x_mods x = x_mods y -> x_names x = x_names y -> x_opt x = x_opt y -> x_heap x = x_heap y -> own_backward [] es ->
    begins ids mask x x1 -> begins ids' mask y y1 -> run_evs es x1 = (x2, Ok tt) -> run_evs es y1 = (y2, Ok tt) ->
    x_ids x2 = Some ids /\ log_nd (fun d => d) (x_heap x2) (x_log x2) = log_nd (fun d => d) (x_heap y2) (x_log y2).
  Proof.
    intros HX HY Em En Eo Eh HO B1 B2 E1 E2.
    destruct (begins_fresh _ _ _ _ _ _ _ _ HX B1) as (a1 & a2 & a3 & a4 & a5 & a6 & a7 & a8 & a9 & a10 & _).
    destruct (begins_fresh _ _ _ _ _ _ _ _ HY B2) as (b1 & b2 & b3 & b4 & b5 & b6 & b7 & b8 & b9 & b10 & _).
    assert (HA : alike [] x1 y1).
    { repeat split; try congruence; [|intros c []]. rewrite a4, b4. unfold installed. rewrite Em, En. reflexivity. }
    destruct (alike_evs kind wsize eigh es [] _ _ x2 y2 HA HO E1 E2) as (cs' & _ & El & _ & Eh' & _). split.
    - apply run_evs_grows in E1 as (c & s & l & h & hs & ->). exact a2.
    - rewrite El, Eh'. reflexivity.
  Qed.

  (** ---- C21 ---- *)
  Lemma any_backward es : exists cs, @own_backward F cs es.
  Proof.
    assert (HS : forall es (a b : list nat), (forall q, In q a -> In q b) -> @own_backward F a es -> own_backward b es).
    { clear. induction es as [|e es IH]; intros a b Hab; [auto|]. destruct e; cbn [own_backward]; try (apply IH; exact Hab).
      - apply IH. intros q [<-|Hq]; [left; reflexivity|right; auto].
      - intros [Hi Hw]. split; [auto|exact (IH a b Hab Hw)]. }
    induction es as [|e es (cs & IH)]; [exists []; exact Logic.I|]. destruct e as [| c m| | c gs|]; cbn [own_backward]; try (exists cs; exact IH).
    - exists cs. apply (HS es cs); [intros q Hq; right; exact Hq|exact IH].
    - exists (c :: cs). split; [left; reflexivity|]. apply (HS es cs); [intros q Hq; right; exact Hq|exact IH].
  Qed.
  Lemma update_transparent sv es (x x' a b : lx) : update eigh enc sv x = (x', Ok tt) -> run_evs es x = (a, Ok tt) -> run_evs es x' = (b, Ok tt) ->
    log_nd (fun d => d) (x_heap a) (x_log a) = log_nd (fun d => d) (x_heap b) (x_log b).
  Proof.
    intros EU E1 E2. apply update_stores in EU as (s & sv' & d & vs & ->). destruct (any_backward es) as (cs & HO).
    assert (HA : alike cs x (with_views (with_store (with_state x s) sv' d (x_disk x)) vs)) by (repeat split).
    destruct (alike_evs kind wsize eigh es cs _ _ a b HA HO E1 E2) as (cs' & _ & El & _ & Eh' & _). rewrite El, Eh'. reflexivity.
  Qed.
  Lemma end_transparent save es (x x' a b : lx) : lx_end eigh enc save x = (x', Ok tt) \/ lx_exit eigh enc x = (x', Ok tt) ->
    run_evs es x = (a, Ok tt) -> run_evs es x' = (b, Ok tt) ->
    log_nd (fun d => d) (x_heap a) (x_log a) = log_nd (fun d => d) (x_heap b) (x_log b).
  Proof. rewrite end_saves, exit_saves. intros [EU|EU]; exact (update_transparent _ es x x' a b EU). Qed.
  Lemma after_statistics ids mask es es2 (x x1 x2 x3 x4 : lx) sv : reachable x -> begins ids mask x x1 -> moments_only (x_opt x) ->
    run_evs es x1 = (x2, Ok tt) -> own_backward [] es -> (lx_end eigh enc sv x2 = (x3, Ok tt) \/ lx_exit eigh enc x2 = (x3, Ok tt)) ->
    own_backward [] es2 -> run_evs es2 x3 = (x4, Ok tt) ->
    run_calls (stat_calls kind (x_mods x) (x_names x) (x_opt x) mask (x_offload x) (heap_after (x_heap x) es) [] es2) (x_state x3) = (x_state x4, Ok tt).
  Proof.
    rewrite end_saves, exit_saves. intros HR HB HM E HW [EU|EU] HW2 E2; exact (after_end_statistics kind wsize eigh enc ids mask es es2 x x1 x2 x3 x4 _ HR HB HM E HW EU HW2 E2).
  Qed.

  (** ---- C23 ---- *)
  Lemma raising_block ids mask save es1 ex es2 (x x0 x1 : lx) : reachable x -> (lx_call ids mask save ;; lx_enter) x = (x0, Ok tt) -> run_evs es1 x0 = (x1, Ok tt) ->
    fst (with_block eigh enc ids mask save (run_evs (es1 ++ MRaise ex :: es2)) x) = fst (with_block eigh enc ids mask save (run_evs es1) x) /\
    snd (with_block eigh enc ids mask save (run_evs (es1 ++ MRaise ex :: es2)) x) =
      match snd (with_block eigh enc ids mask save (run_evs es1) x) with Ok _ => Err ex | Err e => Err e end.
  Proof.
    intros HR E0 E1. assert (Ex : x0 = entered (with_saves (with_batch (detach x) (Some ids) mask []) (x_save x) save)).
    { erewrite sbind_run in E0 by reflexivity. pose proof (inv_call ids mask save x (reachable_inv _ _ _ _ _ HR)) as HI. cbn [fst lx_call binfo_clear sbind] in HI.
      rewrite lx_enter_run in E0 by exact HI. injection E0 as <-. reflexivity. }
    subst x0. destruct (exception_commits kind wsize eigh enc ids mask save es1 ex es2 x x1 HR E1) as (H1 & H2 & H3). split; [exact H1|].
    destruct (snd (with_block eigh enc ids mask save (run_evs es1) x)) as [[]|e]; [apply H2; reflexivity|apply H3; reflexivity].
  Qed.

  Lemma failing_block ids mask save es1 e es2 (x x0 x1 x2 : lx) ex : reachable x -> (lx_call ids mask save ;; lx_enter) x = (x0, Ok tt) ->
    run_evs es1 x0 = (x1, Ok tt) -> run_ev e x1 = (x2, Err ex) ->
    with_block eigh enc ids mask save (run_evs (es1 ++ e :: es2)) x =
    (fst (lx_exit eigh enc x2), match snd (lx_exit eigh enc x2) with Ok _ => Err ex | Err e' => Err e' end).
  Proof.
    intros HR E0 E1 E2. assert (Ex : x0 = entered (with_saves (with_batch (detach x) (Some ids) mask []) (x_save x) save)).
    { erewrite sbind_run in E0 by reflexivity. pose proof (inv_call ids mask save x (reachable_inv _ _ _ _ _ HR)) as HI. cbn [fst lx_call binfo_clear sbind] in HI.
      rewrite lx_enter_run in E0 by exact HI. injection E0 as <-. reflexivity. }
    subst x0. exact (exception_exit kind wsize eigh enc ids mask save es1 e es2 x x1 x2 ex HR E1 E2).
  Qed.

  (** ---- C26 ---- *)
  Lemma saves_when_asked save (x : lx) ids : x_ids x = Some ids -> skipn 1 (o_grad (x_opt x)) = [] ->
    let '(d', s', r) := save_log (x_dir x) (settle x) ids (log_nd enc (x_heap x) (x_log x)) in
    exists vs, (s_buffer s' = [] -> vs = []) /\
      lx_end eigh enc save x = (if save || x_save x then (with_views (with_store x s' d' (x_disk x)) vs, r) else (x, Ok tt)) /\
      lx_exit eigh enc x = (if x_save_batch x || x_save x then (with_views (with_store x s' d' (x_disk x)) vs, r) else (x, Ok tt)).
  Proof.
    intros Ei Eg. pose proof (update_saves eigh enc x ids Ei Eg) as HU. destruct (save_log _ _ _ _) as [[d' s'] r].
    rewrite end_saves, exit_saves.
    assert (HF : update eigh enc false x = (x, Ok tt)). { unfold update. rewrite (sbind_run sget _ _ _ _ eq_refl), Eg. reflexivity. }
    eexists (views_left s' _). split; [intros Eb; unfold views_left; rewrite Eb; reflexivity|].
    split; [destruct (save || x_save x)|destruct (x_save_batch x || x_save x)]; [exact HU|exact HF|exact HU|exact HF].
  Qed.
  Lemma eval_off (x : lx) : exists x', lx_eval x = (x', Ok tt) /\ x_save x' = false /\ x_save_batch x' = x_save_batch x /\ same_store x x'.
  Proof. eexists. split; [reflexivity|]. repeat split. assumption. Qed.

  (** ---- C64 ---- *)
  Lemma one_call c m i t u gm (x x' : lx) mods names outs :
    x_reg x = concat (map (fun m => hook_triple (m, name_of names m)) mods) ++ grad_hooks mods names outs -> times m mods = 1 -> x_mask x = None -> o_forward (x_opt x) = [PLog] ->
    run_ev (MCall c m [i] (OutTensor t u) gm) x = (x', Ok tt) ->
    exists y, log_put (name_of names m) "forward" (Ref i) (with_calls x (dset c (back_of m (x_reg x)) (x_calls x))) = (y, Ok tt) /\
      x_heap x' = dset t u (x_heap y) /\ x_log x' = x_log y /\ x_mask x' = None /\ x_opt x' = x_opt x /\
      x_reg x' = concat (map (fun m => hook_triple (m, name_of names m)) mods) ++ grad_hooks mods names (outs ++ [(t, (m, i))]).
  Proof.
    intros Er Et Em Eo E. pose proof (reg_after mods names [MCall c m [i] (OutTensor t u) gm] outs x x' Er) as HR.
    unfold outputs in HR. cbn [map concat app] in HR.
    assert (E0 : run_evs [MCall c m [i] (OutTensor t u) gm] x = (x', Ok tt)) by (unfold ModelLogger.run_evs; cbn [seach]; rewrite (sbind_run _ _ _ _ _ E); reflexivity).
    specialize (HR E0). clear E0. cbn [ModelLogger.run_ev] in E. erewrite sbind_run in E by reflexivity. rewrite (sbind_run sget _ _ _ _ eq_refl) in E.
    cbn [x_reg with_calls] in E. rewrite Er, pre_inst, Et in E. cbn [repeat seach] in E. apply sbind_ok in E as (z & [] & E & E3). apply sbind_ok in E as (z' & [] & E & Ez). injection Ez as ->.
    cbn [forward_hook] in E. cbn [x_mask with_calls] in E. rewrite Em in E. cbn [x_opt with_calls] in E. rewrite Eo in E.
    erewrite sbind_run in E by reflexivity. cbn [seach] in E. apply sbind_ok in E as (z' & [] & E & Ez). injection Ez as ->. cbn [run_plugin] in E.
    exists z. rewrite Er. split; [exact E|]. pose proof (log_put_slh _ _ _ _ _ _ E) as (s1 & l1 & h1 & Hz).
    erewrite sbind_run in E3 by reflexivity. rewrite (sbind_run sget _ _ _ _ eq_refl) in E3.
    assert (Erz : x_reg (with_heap z (dset t u (x_heap z))) = x_reg x) by (rewrite Hz; reflexivity). rewrite Erz, Er, fwd_inst, Et in E3. cbn [repeat seach] in E3.
    apply sbind_ok in E3 as (z2 & [] & E3 & Ez). injection Ez as ->. cbn [grad_hook] in E3. unfold register_tensor_hook in E3. destruct (u_req u); [|discriminate E3]. injection E3 as <-.
    cbn. split; [reflexivity|]. split; [reflexivity|]. split; [rewrite Hz; exact Em|]. split; [rewrite Hz; reflexivity|]. exact HR.
  Qed.
  Lemma reuse_overwrites ids c1 c2 m i1 i2 t1 u1 t2 u2 g1 g2 (x x1 x2 : lx) : reachable x -> begins ids None x x1 ->
    o_forward (x_opt x) = [PLog] -> times m (x_mods x) = 1 -> t1 <> i1 -> t2 <> i1 ->
    twf (snd (mem_get (x_heap x) i1)) -> twf (snd (mem_get (dset t1 u1 (x_heap x)) i2)) ->
    run_evs [MCall c1 m [i1] (OutTensor t1 u1) g1; MCall c2 m [i2] (OutTensor t2 u2) g2] x1 = (x2, Ok tt) ->
    sum_onto [snd (mem_get (x_heap x) i1); snd (mem_get (dset t1 u1 (x_heap x)) i2)] (snd (mem_get (x_heap x2) i1)) /\
    logged x2 (name_of (x_names x) m) "forward" = Some (snd (mem_get (x_heap x2) i1)).
  Proof.
    intros HR HB Eo Et N1 N2 W1 W2 E. destruct (begins_fresh _ _ _ _ _ _ _ _ HR HB) as (El & _ & Em & Er & _ & _ & Eox & _ & _ & Eh & _).
    unfold ModelLogger.run_evs in E. cbn [seach] in E. apply sbind_ok in E as (y & [] & E1 & E). apply sbind_ok in E as (y' & [] & E2 & Ey). injection Ey as ->.
    assert (Er' : x_reg x1 = concat (map (fun m => hook_triple (m, name_of (x_names x) m)) (x_mods x)) ++ grad_hooks (x_mods x) (x_names x) []).
    { unfold grad_hooks. cbn [map concat]. rewrite app_nil_r. exact Er. }
    destruct (one_call c1 m i1 t1 u1 g1 x1 y _ _ [] Er' Et Em ltac:(rewrite Eox; exact Eo) E1) as (z1 & P1 & Q1 & Q2 & Q3 & Q4 & Q5).
    destruct (one_call c2 m i2 t2 u2 g2 y x2 _ _ _ Q5 Et Q3 ltac:(rewrite Q4, Eox; exact Eo) E2) as (z2 & P2 & R1 & R2 & _).
    unfold log_put in P1. cbn [x_log with_calls] in P1. rewrite El in P1. cbn [dget] in P1. injection P1 as <-.
    cbn [x_heap with_log with_batch with_calls x_log dset] in Q1, Q2. unfold log_put in P2. cbn [x_log x_heap with_calls] in P2. rewrite Q2 in P2.
    cbn [dget] in P2. rewrite eqb_refl in P2. cbn [dget] in P2. rewrite eqb_refl in P2. cbn [deref] in P2. rewrite Q1, Eh in P2.
    assert (Ei : u_d (uget (dset t1 u1 (x_heap x)) i1) = mem_get (x_heap x) i1) by (unfold mem_get, uget; rewrite dget_dset_neq by congruence; reflexivity).
    change (u_d (uget (dset t1 u1 (x_heap x)) i2)) with (mem_get (dset t1 u1 (x_heap x)) i2) in P2.
    rewrite Ei in P2. destruct (iadd_ _ _) as [new|] eqn:Ea; [|discriminate P2]. injection P2 as <-.
    cbn [x_heap with_heap with_calls x_log] in R1, R2.
    assert (En : mem_get (x_heap x2) i1 = new).
    { unfold mem_get, uget. rewrite R1. rewrite dget_dset_neq by congruence. rewrite dget_dset_eq. reflexivity. }
    split.
    - rewrite En. clear -Ea W1 W2. destruct (mem_get (x_heap x) i1) as [da a]. destruct (mem_get (dset t1 u1 (x_heap x)) i2) as [db b]. cbn [snd] in *.
      exact (sum_onto_snoc [a] _ _ _ _ _ ltac:(discriminate) (sum_onto_one a W1) W2 Ea).
    - unfold logged. rewrite R2, Q2. cbn [dget]. rewrite eqb_refl. cbn [dget]. rewrite eqb_refl. reflexivity.
  Qed.

  (** ---- C28 ---- *)
  Lemma setup_ok kw (x : lx) : all_known (kw_get "forward" kw) -> all_known (kw_get "backward" kw) -> all_known (kw_get "grad" kw) ->
    exists o, lx_setup kw x = (with_opt x o, Ok tt) /\ requested (kw_get "forward" kw) (o_forward o) /\
      requested (kw_get "backward" kw) (o_backward o) /\ requested (kw_get "grad" kw) (o_grad o).
  Proof.
    intros A1 A2 A3. destruct (opt_setup_ok kw) as (o & kw' & E & Rf & Rb & Rg & _).
    - unfold phases_of. intros l [<-|[<-|[<-|[]]]]; assumption.
    - exists o. unfold lx_setup. rewrite E. auto.
  Qed.
  Lemma setup_bad kw (x : lx) : ~ (all_known (kw_get "forward" kw) /\ all_known (kw_get "backward" kw) /\ all_known (kw_get "grad" kw)) ->
    exists o, lx_setup kw x = (with_opt x o, Err AssertionError) /\ o_grad o = [] /\
      (all_known (kw_get "forward" kw) -> requested (kw_get "forward" kw) (o_forward o)) /\
      (~ all_known (kw_get "forward" kw) -> o_forward o = []) /\
      (all_known (kw_get "forward" kw) -> all_known (kw_get "backward" kw) -> requested (kw_get "backward" kw) (o_backward o)) /\
      (~ (all_known (kw_get "forward" kw) /\ all_known (kw_get "backward" kw)) -> o_backward o = []).
  Proof.
    intros HN. unfold lx_setup. destruct (all_known_dec (kw_get "forward" kw)) as [A1|N1].
    - destruct (all_known_dec (kw_get "backward" kw)) as [A2|N2].
      + assert (N3 : ~ all_known (kw_get "grad" kw)) by tauto. destruct (opt_setup_bad_grad kw A1 A2 N3) as (f & b & kw' & Rf & Rb & ->).
        eexists. split; [reflexivity|]. cbn. repeat split; auto; try tauto; try apply Rf; try apply Rb.
      + destruct (opt_setup_bad_backward kw A1 N2) as (f & kw' & Rf & ->). eexists. split; [reflexivity|]. cbn. repeat split; auto; try tauto; try apply Rf.
    - destruct (opt_setup_bad_forward kw N1) as (kw' & ->). eexists. split; [reflexivity|]. cbn. repeat split; auto; tauto.
  Qed.
  Lemma requested_nodup l ps : requested l ps -> NoDup ps.
  Proof.
    intros [HS _]. unfold in_order in HS. induction HS as [|p l0 HS IH HF]; constructor; [|exact IH].
    intros HI. rewrite Forall_forall in HF. specialize (HF p HI). lia.
  Qed.
End P.
