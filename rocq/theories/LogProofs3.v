(** Contexts: entering, leaving, exceptions, LogIX.log, get_log, saving; masks. *)
From Coq Require Import ZArith Permutation.
From Verif Require Import Py Field Tensor ModelGrad Monad ModelState ModelMmap ModelSaver ModelLogger SpecGrad SpecState SpecLogger LogProofs1 ViewProofs LogProofs2.
Local Open Scope nat_scope.

Section P.
  Context {F : Type} `{OField F}.
  Notation tensor := (tensor F).
  Notation dten := (@dten F).
  Notation uten := (@uten F).
  Notation lx := (@lx F).
  Notation ev := (@ev F).
  Notation op := (@op F).
  Variable kind : mid -> mkind.
  Variable wsize : mid -> nat.
  Variable eigh : tensor -> res (tensor * tensor).
  Variable enc : dten -> array.
  Notation run_plugin := (run_plugin eigh).
  Notation update := (update eigh enc).
  Notation run_ev := (run_ev kind eigh).
  Notation run_evs := (run_evs kind eigh).
  Notation run_op := (run_op kind wsize eigh enc).
  Notation run_ops := (run_ops kind wsize eigh enc).
  Notation reachable := (reachable kind wsize eigh enc).

  (** ---- C24 ---- *)
  Lemma log_discards ids mask (x : lx) : lx_log eigh enc ids mask x = (with_batch (detach x) (Some ids) mask [], Ok tt).
  Proof.
    unfold lx_log, logger_log, binfo_clear. erewrite sbind_run by reflexivity. erewrite sbind_run by reflexivity.
    set (y := with_batch _ _ _ _). change y with (with_batch (detach x) (Some ids) mask []). clear y. set (y := with_batch _ _ _ _).
    rewrite update_eq. assert (E : forall ps, grad_stats eigh ps y = (y, Ok tt)).
    { induction ps as [|p ps IH]; [reflexivity|]. cbn [grad_stats seach]. unfold grad_stats in *. cbn [seach].
      erewrite sbind_run; [exact IH|]. reflexivity. }
    erewrite sbind_run by apply E. reflexivity.
  Qed.

  (** ---- C22: entering ---- *)
  Lemma start_fresh ids mask (x : lx) : reachable x ->
    exists x', lx_start ids mask x = (x', Ok tt) /\ x_log x' = [] /\ x_ids x' = Some ids /\ x_mask x' = mask /\
      x_reg x' = installed x /\ x_th x' = [] /\
      x_state x' = x_state x /\ x_opt x' = x_opt x /\ x_mods x' = x_mods x /\ x_names x' = x_names x /\ x_heap x' = x_heap x /\
      x_saver x' = settle x /\ x_views x' = [] /\ x_dir x' = x_dir x /\ x_save x' = x_save x /\ x_save_batch x' = x_save_batch x.
  Proof.
    intros HR. eexists. split; [apply lx_start_run; exact (reachable_inv _ _ _ _ _ HR)|]. destruct x. repeat split; reflexivity.
  Qed.
  Lemma inv_call ids mask save x : inv x -> inv (fst (lx_call (F := F) ids mask save x)).
  Proof. intros HI. exact HI. Qed.
  Lemma call_enter_fresh ids mask save (x : lx) : reachable x ->
    exists x', (lx_call ids mask save ;; lx_enter) x = (x', Ok tt) /\ x_log x' = [] /\ x_ids x' = Some ids /\ x_mask x' = mask /\
      x_reg x' = installed x /\ x_th x' = [] /\
      x_state x' = x_state x /\ x_opt x' = x_opt x /\ x_mods x' = x_mods x /\ x_names x' = x_names x /\ x_heap x' = x_heap x /\
      x_saver x' = settle x /\ x_views x' = [] /\ x_dir x' = x_dir x /\ x_save x' = x_save x /\ x_save_batch x' = save.
  Proof.
    intros HR. assert (HI := reachable_inv _ _ _ _ _ HR). eexists. split.
    - unfold lx_call, binfo_clear. erewrite sbind_run; [|reflexivity]. apply lx_enter_run. exact HI.
    - destruct x. repeat split; reflexivity.
  Qed.

  (** ---- C21: leaving ---- *)
  Lemma exit_keeps_hooks (x x' : lx) o : lx_exit eigh enc x = (x', o) ->
    x_reg x' = x_reg x /\ x_fh x' = x_fh x /\ x_bh x' = x_bh x /\ x_gh x' = x_gh x /\ x_th x' = x_th x /\
    x_calls x' = x_calls x /\ x_opt x' = x_opt x /\ x_log x' = x_log x /\ x_mask x' = x_mask x /\ x_heap x' = x_heap x.
  Proof. intros E. apply update_stores in E as (s & sv & d & vs & ->). repeat split; reflexivity. Qed.
  Lemma end_keeps_hooks save (x x' : lx) o : lx_end eigh enc save x = (x', o) ->
    x_reg x' = x_reg x /\ x_fh x' = x_fh x /\ x_bh x' = x_bh x /\ x_gh x' = x_gh x /\ x_th x' = x_th x /\
    x_calls x' = x_calls x /\ x_opt x' = x_opt x /\ x_log x' = x_log x /\ x_mask x' = x_mask x /\ x_heap x' = x_heap x.
  Proof. intros E. apply update_stores in E as (s & sv & d & vs & ->). repeat split; reflexivity. Qed.

  (** without hooks, and without backward passes of earlier calls, events only touch the program's tensors *)
  Lemma quiet_ev e (x x' : lx) o : x_reg x = [] -> (forall c gs, e = MBack c gs -> dget c (x_calls x) = None \/ dget c (x_calls x) = Some []) ->
    run_ev e x = (x', o) -> exists h c, x' = with_calls (with_heap x h) c /\
      (forall k, dget k c = Some [] \/ dget k c = dget k (x_calls x)) /\ (forall k m ins out gm, e = MCall k m ins out gm -> dget k c = Some []).
  Proof.
    intros HR HB. destruct e as [t u|c m ins out gm|t g|c gs|e]; cbn [run_ev ModelLogger.run_ev].
    - intros [= <- _]. exists (dset t u (x_heap x)), (x_calls x). split; [destruct x; reflexivity|]. split; [auto|discriminate].
    - erewrite sbind_run by reflexivity. rewrite HR. cbn [back_of filter].
      rewrite (sbind_run sget _ _ _ _ eq_refl). cbn [x_reg with_calls]. rewrite HR. cbn [pre_of map concat seach].
      erewrite sbind_run by reflexivity. intros E.
      assert (G : exists h, x' = with_heap (with_calls x (dset c [] (x_calls x))) h).
      { destruct out as [t u| |e].
        - erewrite sbind_run in E by reflexivity. erewrite sbind_run in E by reflexivity. cbn [x_reg with_heap with_calls] in E.
          rewrite HR in E. injection E as <- _. eauto.
        - erewrite sbind_run in E by reflexivity. cbn [x_reg with_calls] in E. rewrite HR in E. injection E as <- _.
          exists (x_heap x). destruct x; reflexivity.
        - injection E as <- _. exists (x_heap x). destruct x; reflexivity. }
      destruct G as (h & ->). exists h, (dset c [] (x_calls x)). split; [destruct x; reflexivity|]. split.
      + intros k. rewrite dget_dset. destruct (eqb k c); auto.
      + intros k m' ins' out' gm' [= <- _ _ _ _]. apply dget_dset_eq.
    - erewrite sbind_run by reflexivity. rewrite HR. intros [= <- _]. exists (x_heap x), (x_calls x). split; [destruct x; reflexivity|]. split; [auto|discriminate].
    - erewrite sbind_run by reflexivity. destruct (HB c gs eq_refl) as [-> | ->]; intros [= <- _]; (exists (x_heap x), (x_calls x); split; [destruct x; reflexivity|]; split; [auto|discriminate]).
    - intros [= <- _]. exists (x_heap x), (x_calls x). split; [destruct x; reflexivity|]. split; [auto|discriminate].
  Qed.
  Lemma quiet_evs es (x x' : lx) o cs : x_reg x = [] -> (forall c, In c cs -> dget c (x_calls x) = Some []) -> own_backward cs es ->
    run_evs es x = (x', o) -> exists h c, x' = with_calls (with_heap x h) c.
  Proof.
    revert x cs. induction es as [|e es IH]; intros x cs HR HC HO E.
    - injection E as <- _. exists (x_heap x), (x_calls x). destruct x; reflexivity.
    - cbn [run_evs ModelLogger.run_evs seach] in E. fold run_evs in E. cbn [own_backward] in HO.
      assert (HB : forall c gs, e = MBack c gs -> dget c (x_calls x) = None \/ dget c (x_calls x) = Some []).
      { intros c gs ->. right. apply HC. exact (proj1 HO). }
      unfold sbind in E. destruct (run_ev e x) as [y r] eqn:E1.
      destruct (quiet_ev e x y r HR HB E1) as (h & c & -> & HK & HM).
      destruct r as [[]|ex].
      + assert (exists cs', own_backward cs' es /\ forall k, In k cs' -> dget k c = Some []) as (cs' & HO' & HC').
        { destruct e as [t u|k m ins out gm|t g|k gs|ex].
          - exists cs. split; [exact HO|]. intros k Hk. destruct (HK k) as [->| ->]; auto.
          - exists (k :: cs). split; [exact HO|]. intros k' [<-|Hk]; [exact (HM _ _ _ _ _ eq_refl)|]. destruct (HK k') as [->| ->]; auto.
          - exists cs. split; [exact HO|]. intros k Hk. destruct (HK k) as [->| ->]; auto.
          - exists cs. split; [exact (proj2 HO)|]. intros k' Hk. destruct (HK k') as [->| ->]; auto.
          - exists cs. split; [exact HO|]. intros k Hk. destruct (HK k) as [->| ->]; auto. }
        destruct (IH (with_calls (with_heap x h) c) cs') as (h' & c' & ->); auto.
        exists h', c'. destruct x; reflexivity.
      + injection E as <- _. eauto.
  Qed.
  Lemma clear_silences es (x x1 x2 : lx) o : reachable x -> lx_clear x = (x1, Ok tt) -> own_backward [] es -> run_evs es x1 = (x2, o) ->
    x_state x2 = x_state x1 /\ x_log x2 = x_log x1 /\ x_saver x2 = x_saver x1 /\ x_dir x2 = x_dir x1.
  Proof.
    intros HR EC HO E. destruct (lx_clear_run x x1 (reachable_inv _ _ _ _ _ HR) EC) as (s & _ & ->).
    match type of E with run_evs es ?y = _ => assert (G : exists h c, x2 = with_calls (with_heap y h) c) end.
    { apply (quiet_evs es _ x2 o []); [reflexivity|intros c []|exact HO|exact E]. }
    destruct G as (h & c & ->). repeat split; reflexivity.
  Qed.

  (** ---- C23: exceptions ---- *)
  Lemma run_evs_app es1 es2 (x : lx) : run_evs (es1 ++ es2) x = (run_evs es1 ;; run_evs es2) x.
  Proof. apply seach_app. Qed.
  Lemma with_block_unfold ids mask save (body : SM lx unit) (x : lx) : inv x ->
    with_block eigh enc ids mask save body x =
    match body (entered (with_saves (with_batch (detach x) (Some ids) mask []) (x_save x) save)) with
    | (x', Ok _) => lx_exit eigh enc x'
    | (x', Err e) => match lx_exit eigh enc x' with (x'', Ok _) => (x'', Err e) | (x'', Err e') => (x'', Err e') end
    end.
  Proof.
    intros HI. unfold with_block. unfold lx_call, binfo_clear. erewrite sbind_run; [|erewrite sbind_run by reflexivity; reflexivity].
    erewrite sbind_run; [reflexivity|]. apply lx_enter_run. exact HI.
  Qed.
  Lemma exception_commits ids mask save es1 ex es2 (x : lx) x1 : reachable x ->
    run_evs es1 (entered (with_saves (with_batch (detach x) (Some ids) mask []) (x_save x) save)) = (x1, Ok tt) ->
    fst (with_block eigh enc ids mask save (run_evs (es1 ++ MRaise ex :: es2)) x) = fst (with_block eigh enc ids mask save (run_evs es1) x) /\
    (snd (with_block eigh enc ids mask save (run_evs es1) x) = Ok tt ->
     snd (with_block eigh enc ids mask save (run_evs (es1 ++ MRaise ex :: es2)) x) = Err ex) /\
    (forall e, snd (with_block eigh enc ids mask save (run_evs es1) x) = Err e ->
     snd (with_block eigh enc ids mask save (run_evs (es1 ++ MRaise ex :: es2)) x) = Err e).
  Proof.
    intros HR E. assert (HI := reachable_inv _ _ _ _ _ HR). rewrite !with_block_unfold by exact HI.
    rewrite run_evs_app, (sbind_run _ _ _ _ _ E), E. cbn [run_evs ModelLogger.run_evs seach]. 
    change ((run_ev (MRaise ex) ;; seach (ModelLogger.run_ev kind eigh) es2) x1) with (x1, @Err unit ex).
    cbn beta iota. destruct (lx_exit eigh enc x1) as [x2 [[]|e]]; cbn [fst snd]; (split; [reflexivity|split; intros; congruence]).
  Qed.
  (** the general form: the exception arises anywhere in an event *)
  Lemma exception_exit ids mask save es1 e es2 (x : lx) x1 x2 ex : reachable x ->
    run_evs es1 (entered (with_saves (with_batch (detach x) (Some ids) mask []) (x_save x) save)) = (x1, Ok tt) ->
    run_ev e x1 = (x2, Err ex) ->
    with_block eigh enc ids mask save (run_evs (es1 ++ e :: es2)) x =
    (fst (lx_exit eigh enc x2), match snd (lx_exit eigh enc x2) with Ok _ => Err ex | Err e' => Err e' end).
  Proof.
    intros HR E E2. assert (HI := reachable_inv _ _ _ _ _ HR). rewrite with_block_unfold by exact HI.
    rewrite run_evs_app, (sbind_run _ _ _ _ _ E). cbn [run_evs ModelLogger.run_evs seach]. rewrite (sbind_err _ _ _ _ _ E2).
    destruct (lx_exit eigh enc x2) as [x3 [u|e']]; reflexivity.
  Qed.

  (** ---- C26: saving ---- *)
  Lemma quiet_op o (x : lx) : inv x -> x_save x = false -> x_save_batch x = false -> unsaved o ->
    let x' := fst (run_op o x) in same_store x x' /\ x_save x' = false /\ x_save_batch x' = false.
  Proof.
    intros HI HS HB HQ. cbv zeta. destruct (run_op o x) as [x' r] eqn:E. cbn [fst].
    assert (Same : forall y : lx, x_saver y = x_saver x -> x_views y = x_views x -> x_dir y = x_dir x -> x_disk y = x_disk x -> same_store x y).
    { intros y E1 E2 E3 E4. unfold same_store. rewrite E1, E2, E3, E4. repeat split; auto. }
    assert (Cleared : forall y : lx, x_saver y = settle x -> x_views y = [] -> x_dir y = x_dir x -> x_disk y = x_disk x -> same_store x y).
    { intros y E1 E2 E3 E4. unfold same_store. rewrite E1, E2, E3, E4. split; [apply settle_keys|]. split; [intros V; rewrite (settle_none x V); auto|]. repeat split. }
    assert (Watched : forall y : lx, s_buffer (x_saver y) = s_buffer (x_saver x) -> s_size (x_saver y) = s_size (x_saver x) -> s_count (x_saver y) = s_count (x_saver x) -> x_views y = x_views x -> x_dir y = x_dir x -> x_disk y = x_disk x -> same_store x y).
    { intros y E1 E2 E3 E4 E5 E6. unfold same_store. rewrite E1, E2, E3, E4, E5, E6. repeat split; auto. }
    assert (Keep : forall y, (exists s l h f b g t reg c, y = with_calls (with_hooks (with_heap (with_log (with_state x s) l) h) f b g t reg) c) ->
      same_store x y /\ x_save y = false /\ x_save_batch y = false).
    { intros y (s & l & h & f & b & g & t & reg & c & ->). split; [apply Same; reflexivity|split; assumption]. }
    destruct o; cbn [run_op ModelLogger.run_op unsaved] in *; try contradiction.
    - unfold watch in E. rewrite (sbind_run _ _ _ _ _ (add_modules_run ms x)) in E.
      set (y := with_mods x _ _) in *. rewrite (sbind_run _ _ y y y eq_refl) in E. cbv zeta in E.
      destruct (map (fun p : mid * string => wsize (fst p)) (x_names y)) as [|d ds] eqn:Ed.
      + assert (E' : y = x') by (exact (f_equal fst E)). subst x'. (split; [first [apply Same; reflexivity|apply Cleared; reflexivity|apply Watched; reflexivity]|split; first [assumption|reflexivity]]).
      + unfold sbind at 1 in E. destruct ((set_state _ _ _ ;; set_state _ _ _) (x_state y)) as [s' [u|e]].
        * match type of E with context [x_shared ?z] => destruct (x_shared z) end; injection E as <- _; (split; [first [apply Same; reflexivity|apply Cleared; reflexivity|apply Watched; reflexivity]|split; first [assumption|reflexivity]]).
        * injection E as <- _. (split; [first [apply Same; reflexivity|apply Cleared; reflexivity|apply Watched; reflexivity]|split; first [assumption|reflexivity]]).
    - apply watch_activation_grows in E as (s & l & h & hs & ->). apply Keep.
      exists s, l, h, (x_fh x), (x_bh x), (x_gh x), (x_th x ++ hs), (x_reg x ++ hs), (x_calls x). destruct x; reflexivity.
    - subst save. apply (f_equal fst) in E. cbn [fst] in E. subst x'. (split; [first [apply Same; reflexivity|apply Cleared; reflexivity|apply Watched; reflexivity]|split; first [assumption|reflexivity]]).
    - rewrite lx_enter_run in E by exact HI. injection E as <- _. (split; [first [apply Same; reflexivity|apply Cleared; reflexivity|apply Watched; reflexivity]|split; first [assumption|reflexivity]]).
    - unfold lx_exit in E. erewrite sbind_run in E by reflexivity. rewrite HS, HB in E. cbn [orb] in E.
      apply update_nosave in E. rewrite E. (split; [first [apply Same; reflexivity|apply Cleared; reflexivity|apply Watched; reflexivity]|split; first [assumption|reflexivity]]).
    - rewrite lx_start_run in E by exact HI. injection E as <- _. (split; [first [apply Same; reflexivity|apply Cleared; reflexivity|apply Watched; reflexivity]|split; first [assumption|reflexivity]]).
    - subst save. unfold lx_end in E. erewrite sbind_run in E by reflexivity. rewrite HS in E. cbn [orb] in E.
      apply update_nosave in E. rewrite E. (split; [first [apply Same; reflexivity|apply Cleared; reflexivity|apply Watched; reflexivity]|split; first [assumption|reflexivity]]).
    - rewrite log_discards in E. injection E as <- _. (split; [first [apply Same; reflexivity|apply Cleared; reflexivity|apply Watched; reflexivity]|split; first [assumption|reflexivity]]).
    - unfold lx_setup in E. destruct (opt_setup kw) as [[o1 kw1] r1]. injection E as <- _. (split; [first [apply Same; reflexivity|apply Cleared; reflexivity|apply Watched; reflexivity]|split; first [assumption|reflexivity]]).
    - subst enable. injection E as <- _. (split; [first [apply Same; reflexivity|apply Cleared; reflexivity|apply Watched; reflexivity]|split; first [assumption|reflexivity]]).
    - injection E as <- _. (split; [first [apply Same; reflexivity|apply Cleared; reflexivity|apply Watched; reflexivity]|split; first [assumption|reflexivity]]).
    - unfold lx_load, lx_load_from in E. destruct (load_state (x_disk x) (x_state x)) as [s' r1]. injection E as <- _. (split; [first [apply Same; reflexivity|apply Cleared; reflexivity|apply Watched; reflexivity]|split; first [assumption|reflexivity]]).
    - apply run_ev_grows in E as (c & s & l & h & hs & ->). (split; [first [apply Same; reflexivity|apply Cleared; reflexivity|apply Watched; reflexivity]|split; first [assumption|reflexivity]]).
  Qed.
  Lemma quiet_ops os (x : lx) : reachable x -> x_save x = false -> x_save_batch x = false -> Forall unsaved os ->
    same_store x (run_ops os x).
  Proof.
    intros HR. assert (HI := reachable_inv _ _ _ _ _ HR). clear HR. revert x HI. induction os as [|o os IH]; intros x HI HS HB HF.
    - repeat split; auto.
    - inversion HF as [|o' os' HQ HF']; subst. destruct (quiet_op o x HI HS HB HQ) as ((B1 & B2 & B3 & B4 & B5 & B6) & HS' & HB').
      destruct (IH (fst (run_op o x))) as (C1 & C2 & C3 & C4 & C5 & C6); auto; [apply run_op_inv; exact HI|].
      cbn [run_ops ModelLogger.run_ops fold_left]. split; [etransitivity; eassumption|]. split; [|repeat split; etransitivity; eassumption].
      intros V. destruct (B2 V) as (K1 & K2). destruct (C2 K2) as (K3 & K4). split; [etransitivity; eassumption|exact K4].
  Qed.
  (** leaving with saving on: the batch log is buffered and the buffer flushed when due *)
  Lemma update_saves (x : lx) ids : x_ids x = Some ids -> skipn 1 (o_grad (x_opt x)) = [] ->
    let '(d', s', r) := save_log (x_dir x) (settle x) ids (log_nd enc (x_heap x) (x_log x)) in
    update true x = (with_views (with_store x s' d' (x_disk x)) (views_left s' (fold_left add_view (batch_views enc (x_heap x) (log_refs (x_log x)) ids 0) (x_views x))), r).
  Proof.
    intros HI HG. rewrite update_eq, HG. cbn [grad_stats seach]. 
    change (grad_stats eigh []) with (@sret lx unit tt). erewrite sbind_run by reflexivity. unfold lx_save_log. rewrite HI.
    destruct (save_log _ _ _ _) as [[d' s'] r]. reflexivity.
  Qed.
  Lemma exit_saves (x : lx) : lx_exit eigh enc x = update (x_save_batch x || x_save x) x.
  Proof. reflexivity. Qed.
  Lemma end_saves save (x : lx) : lx_end eigh enc save x = update (save || x_save x) x.
  Proof. reflexivity. Qed.

  (** ---- C25 ---- *)
  Lemma got_copy (x x' : lx) g os : lx_get_log true x = (x', Ok g) ->
    x' = x /\ read_got (run_ops os x') g = (x_ids x, log_nd (fun d => d) (x_heap x) (x_log x)).
  Proof. unfold lx_get_log. destruct (forallb _ _); intros [= <- <-]. split; reflexivity. Qed.
  Lemma got_copy_fails (x : lx) : (exists r, lx_get_log true x = (x, Ok r)) \/ lx_get_log true x = (x, Err RuntimeError).
  Proof. unfold lx_get_log. destruct (forallb _ _); eauto. Qed.
  Lemma got_copy_iff (x : lx) : (exists g, lx_get_log true x = (x, Ok g)) <->
    forall r, In r (blog_vals (x_log x)) -> ~ (u_req (deref (x_heap x) r) = true /\ u_leaf (deref (x_heap x) r) = false).
  Proof.
    unfold lx_get_log.
    split.
    - intros (g & E) r Hr [E1 E2]. destruct (forallb (copyable (x_heap x)) (blog_vals (x_log x))) eqn:Ef; [|discriminate E].
      rewrite forallb_forall in Ef. specialize (Ef r Hr). unfold copyable in Ef. cbv zeta in Ef. rewrite E1, E2 in Ef. discriminate Ef.
    - intros HN. assert (Ef : forallb (copyable (x_heap x)) (blog_vals (x_log x)) = true).
      { apply forallb_forall. intros r Hr. specialize (HN r Hr). unfold copyable. cbv zeta.
        destruct (u_req (deref (x_heap x) r)), (u_leaf (deref (x_heap x) r)); try reflexivity. exfalso. apply HN. auto. }
      rewrite Ef. eauto.
  Qed.
  Lemma got_view (x : lx) os : exists g, lx_get_log false x = (x, Ok g) /\
    read_got (run_ops os x) g = (x_ids x, log_nd (fun d => d) (x_heap (run_ops os x)) (x_log (run_ops os x))).
  Proof. eexists. split; reflexivity. Qed.
  Lemma run_ops_app os1 os2 (x : lx) : run_ops (os1 ++ os2) x = run_ops os2 (run_ops os1 x).
  Proof. apply fold_left_app. Qed.
  Lemma got_view_next (x : lx) os ids mask : reachable x -> exists g, lx_get_log false x = (x, Ok g) /\
    read_got (run_ops (os ++ [XStart ids mask]) x) g = (x_ids x, Node []) /\
    (forall save, read_got (run_ops (os ++ [XCall ids mask save]) x) g = (x_ids x, Node [])).
  Proof.
    intros HR. eexists. split; [reflexivity|]. split; [|intros save]; rewrite run_ops_app.
    - cbn [run_ops ModelLogger.run_ops fold_left run_op ModelLogger.run_op].
      rewrite lx_start_run; [reflexivity|]. apply inv_run_ops. exact (reachable_inv _ _ _ _ _ HR).
    - reflexivity.
  Qed.
End P.
