(** Views over whole programs: the buffer of a reachable object, and what later backward passes do to saved rows. *)
From Coq Require Import ZArith Permutation.
From Verif Require Import Py Field Tensor ModelGrad Monad ModelState ModelMmap ModelSaver ModelLogger SpecLogger StoreProofs3 LogProofs1 ViewProofs.
Local Open Scope nat_scope.

Lemma buf_put_deep i m t a buf : two_deep buf -> two_deep (buf_put i m t a buf).
Proof.
  unfold buf_put. intros D. destruct (dget i buf) as [[|l]|] eqn:E1; try exact D. destruct (dget m l) as [[|q]|] eqn:E2; try exact D.
  intros j b. rewrite dget_dset. destruct (eqb j i); [|apply D]. intros [= <-]. eexists. split; [reflexivity|]. intros m' c. rewrite dget_dset. destruct (eqb m' m); [intros [= <-]; eauto|].
  destruct (D i _ E1) as (l' & [= <-] & K). apply K.
Qed.

Section P.
  Context {F : Type} `{OField F}.
  Notation tensor := (tensor F).
  Notation dten := (@dten F).
  Notation lx := (@lx F).
  Notation ev := (@ev F).
  Notation op := (@op F).
  Variable kind : mid -> mkind.
  Variable wsize : mid -> nat.
  Variable eigh : tensor -> res (tensor * tensor).
  Variable enc : dten -> array.
  Notation reachable := (reachable kind wsize eigh enc).
  Notation run_op := (run_op kind wsize eigh enc).

  Lemma settle_deep (x : lx) : two_deep (s_buffer (x_saver x)) -> two_deep (s_buffer (settle x)).
  Proof.
    unfold settle. cbn [s_buffer]. generalize (s_buffer (x_saver x)). induction (x_views x) as [|v vs IH]; intros b D; [exact D|]. cbn [fold_left]. apply IH.
    unfold refresh. destruct (look x v); [apply buf_put_deep, D|exact D].
  Qed.
  Definition vinv (x : lx) : Prop := log_wf (x_log x) /\ two_deep (s_buffer (x_saver x)).
  Definition vrel (x x' : lx) : Prop := vinv x -> vinv x'.
  Lemma vrel_trans x y z : vrel x y -> vrel y z -> vrel x z.
  Proof. unfold vrel. auto. Qed.
  Lemma vrel_refl x : vrel x x.
  Proof. intros V. exact V. Qed.
  Lemma save_vinv (x x' : lx) r : lx_save_log enc x = (x', r) -> vrel x x'.
  Proof.
    intros E (W & D). unfold lx_save_log in E. destruct (x_ids x) as [ids|]; [|injection E as <- _; split; assumption].
    destruct (save_log _ _ _ _) as [[d' s'] o] eqn:Es. apply (f_equal fst) in E. cbn [fst] in E. subst x'. split; [exact W|]. change (two_deep (s_buffer s')).
    unfold save_log, buffer_write in Es. destruct (buffer_write_from _ ids 0 (settle x)) as [s1 o1] eqn:Eb.
    destruct (batch_puts enc (x_heap x) (x_log x) W ids 0 _ _ _ [] (settle_deep x D) (fun v (i : In v []) => match i with end) Eb) as (D1 & _).
    assert (Bf : s_buffer s' = s_buffer s1 \/ s_buffer s' = []). { destruct o1; [exact (flush_buffer _ _ _ _ _ Es)|injection Es as _ <- _; auto]. }
    destruct Bf as [-> | ->]; [exact D1|intros i b; discriminate].
  Qed.
  Lemma update_vinv sv (x x' : lx) r : update eigh enc sv x = (x', r) -> vrel x x'.
  Proof.
    rewrite update_eq. apply (sbind_rel vrel vrel_trans).
    - intros y o' E V. apply grad_stats_state in E. rewrite E. exact V.
    - intros [] y y' o'. destruct sv; [apply save_vinv|]. intros [= <- _]. apply vrel_refl.
  Qed.
  Lemma evs_vinv es (x x' : lx) r : run_evs kind eigh es x = (x', r) -> vrel x x'.
  Proof.
    intros E (W & D). split; [exact (evs_wf kind eigh _ _ _ _ E W)|]. apply run_evs_grows in E as (c & s & l & h & hs & ->). exact D.
  Qed.
  Lemma act_vinv ts (x x' : lx) r : watch_activation eigh ts x = (x', r) -> vrel x x'.
  Proof.
    apply (seach_rel vrel vrel_refl vrel_trans). intros p y y' o' _. apply (sbind_rel vrel vrel_trans).
    - intros z o1 E (W & D). split; [|apply plugins_slh in E as (s & l & h & ->); exact D].
      revert W. change (wfs y z). unfold tensor_forward_hook in E. revert E. apply plugins_rel.
      + intros a b Eq W. rewrite Eq. exact W.
      + unfold wfs. auto.
      + apply put_wf.
    - intros [] z z' o1. apply (sbind_rel vrel vrel_trans); [intros w o2 [= <- _]; apply vrel_refl|]. intros w0 w w' o2. unfold register_tensor_hook. destruct (u_req _); intros [= <- _] V; exact V.
  Qed.
  Lemma watch_vinv ms (x x' : lx) r : watch wsize ms x = (x', r) -> vrel x x'.
  Proof.
    unfold watch. rewrite (sbind_run _ _ _ _ _ (add_modules_run ms x)).
    set (y := with_mods x _ _). rewrite (sbind_run _ _ y y y) by reflexivity. cbv zeta. assert (Vy : vrel x y) by (intros V; exact V).
    destruct (map (fun p : mid * string => wsize (fst p)) (x_names y)) as [|d ds] eqn:Ed.
    - intros E. apply (f_equal fst) in E. cbn [fst] in E. subst x'. exact Vy.
    - unfold sbind at 1. destruct ((set_state _ _ _ ;; set_state _ _ _) (x_state y)) as [s' [u|e]].
      + intros E. apply (f_equal fst) in E. change (fst (x', r)) with x' in E. subst x'. destruct (x_shared (with_state y s')); intros V; exact V.
      + intros [= <- _] V. exact V.
  Qed.
  Lemma detach_vinv x ids mask : vinv x -> vinv (with_batch (detach x) ids mask []).
  Proof. intros (W & D). split; [|apply (settle_deep x D)]. split; [constructor|intros m e; discriminate]. Qed.
  Lemma run_op_vinv o (x : lx) : inv x -> vinv x -> vinv (fst (run_op o x)).
  Proof.
    intros HI V. destruct (run_op o x) as [x' r] eqn:E. cbn [fst]. destruct o; cbn [ModelLogger.run_op] in E.
    - exact (watch_vinv _ _ _ _ E V).
    - exact (act_vinv _ _ _ _ E V).
    - injection E as <- _. apply (detach_vinv x (Some ids) mask V).
    - rewrite lx_enter_run in E by exact HI. injection E as <- _. exact V.
    - exact (update_vinv _ _ _ _ E V).
    - rewrite lx_start_run in E by exact HI. injection E as <- _. apply (detach_vinv x (Some ids) mask V).
    - exact (update_vinv _ _ _ _ E V).
    - unfold lx_log, logger_log in E. rewrite (sbind_run _ _ _ _ _ (eq_refl (binfo_clear x))) in E.
      erewrite sbind_run in E by reflexivity. apply update_vinv in E. apply E. apply (detach_vinv x (Some ids) mask V).
    - unfold lx_setup in E. destruct (opt_setup kw) as [[o1 kw1] r1]. injection E as <- _. exact V.
    - injection E as <- _. exact V.
    - injection E as <- _. exact V.
    - destruct r as [[]|e].
      + destruct (lx_clear_run x x' HI E) as (s & _ & ->). split; [exact (proj1 V)|intros i b; discriminate].
      + unfold lx_clear in E. unfold sbind at 1 in E. destruct (state_clear (x_state x)) as [s [[]|e']].
        * unfold logger_clear in E. rewrite (sbind_run _ _ _ _ _ (clear_hooks_run (with_state x s) HI)) in E. discriminate E.
        * injection E as <- _. exact V.
    - unfold lx_finalize in E. unfold sbind at 1 in E. destruct (finalize (x_disk x) (x_state x)) as [s' [dk|e]].
      + destruct (saver_finalize _ _) as [[d' sv] o1] eqn:Es. apply (f_equal fst) in E. cbn [fst] in E. subst x'. split; [exact (proj1 V)|]. change (two_deep (s_buffer sv)). apply flush_serial_buffer in Es. destruct Es as [-> | ->]; [|intros i b; discriminate].
        apply (settle_deep (with_store (with_state x s') (x_saver x) (x_dir x) dk)). exact (proj2 V).
      + injection E as <- _. exact V.
    - unfold lx_load, lx_load_from in E. destruct (load_state (x_disk x) (x_state x)) as [s' r1]. injection E as <- _. exact V.
    - apply (evs_vinv [e] x x' r); [|exact V]. unfold run_evs. cbn [seach]. unfold sbind. rewrite E. destruct r as [[]|er]; reflexivity.
  Qed.
  Lemma reachable_vinv (x : lx) : reachable x -> vinv x.
  Proof.
    intros (w & t & off & os & ->). assert (G : forall os x, inv x -> vinv x -> vinv (run_ops kind wsize eigh enc os x)).
    { clear. induction os as [|o r IH]; intros y HI V; [exact V|]. cbn. apply IH; [apply run_op_inv; exact HI|apply run_op_vinv; assumption]. }
    apply G; [apply inv_init|]. split; [split; [constructor|intros m e; discriminate]|intros i b; discriminate].
  Qed.

  (** a batch has begun: no shared rows, an empty log *)
  Lemma begins_views ids mask (x x1 : lx) : reachable x -> begins ids mask x x1 -> x_views x1 = [] /\ x_saver x1 = settle x /\ vinv x1 /\ x_ids x1 = Some ids.
  Proof.
    intros R B. pose proof (reachable_inv _ _ _ _ _ R) as HI. pose proof (reachable_vinv _ R) as V. destruct B as [E|(save & E)].
    - rewrite (lx_start_run _ _ _ HI) in E. injection E as <-. repeat split; try reflexivity; apply (detach_vinv x (Some ids) mask V).
    - rewrite (sbind_run _ _ _ (with_saves (with_batch (detach x) (Some ids) mask []) (x_save x) save) tt) in E by reflexivity.
      assert (HI' : inv (with_saves (with_batch (detach x) (Some ids) mask []) (x_save x) save)) by exact HI. rewrite (lx_enter_run _ HI') in E. injection E as <-. repeat split; try reflexivity; apply (detach_vinv x (Some ids) mask V).
  Qed.
  Lemma before_end ids mask es (x x1 x2 : lx) o : reachable x -> begins ids mask x x1 -> run_evs kind eigh es x1 = (x2, o) -> x_views x2 = [] /\ x_ids x2 = Some ids /\ vinv x2.
  Proof.
    intros R B E. destruct (begins_views _ _ _ _ R B) as (V & _ & I & Ids). pose proof (evs_vinv _ _ _ _ E I) as I2. apply run_evs_grows in E as (c & s & l & h & hs & ->). auto.
  Qed.
  Notation ends := (ends eigh enc).
  Lemma ends_update asked (x x' : lx) r : ends asked x x' r -> update eigh enc asked x = (x', r).
  Proof. intros [(save & -> & E)|(-> & E)]; exact E. Qed.
  Lemma ends_synced ids mask es (x x1 x2 x3 : lx) o r asked : reachable x -> begins ids mask x x1 -> run_evs kind eigh es x1 = (x2, o) -> ends asked x2 x3 r -> settle x3 = x_saver x3.
  Proof.
    intros R B E En. destruct (before_end _ _ _ _ _ _ _ R B E) as (V & _ & I). apply ends_update in En. rewrite update_eq in En. unfold sbind in En. destruct (grad_stats eigh _ x2) as [y [[]|e]] eqn:Eg; pose proof (grad_stats_state _ _ _ _ _ Eg) as Ey.
    - destruct asked; [|injection En as <- _; apply settle_none; rewrite Ey; exact V].
      apply (save_synced enc y x3 r); [rewrite Ey; exact V|rewrite Ey; apply I|rewrite Ey; apply I|exact En].
    - injection En as <- _. apply settle_none. rewrite Ey. exact V.
  Qed.
  Lemma ends_follow ids mask es es' (x x1 x2 x3 x4 : lx) o o' j i m t u : reachable x -> begins ids mask x x1 -> run_evs kind eigh es x1 = (x2, o) ->
    ends true x2 x3 (Ok tt) -> s_buffer (x_saver x3) <> [] -> run_evs kind eigh es' x3 = (x4, o') ->
    NoDup ids -> nth_error ids j = Some i -> log_at x2 m t = Some (Own u) -> fst (u_d u) = Cpu ->
    exists u', log_at x4 m t = Some (Own u') /\ forall a, row_read enc j (u_d u') = Ok a -> cell (s_buffer (settle x4)) i m t = Some a.
  Proof.
    intros R B E En NB E' ND Nj G C. destruct (before_end _ _ _ _ _ _ _ R B E) as (V & Ids & I). apply ends_update in En. rewrite update_eq in En. unfold sbind in En. destruct (grad_stats eigh _ x2) as [y [[]|e]] eqn:Eg; pose proof (grad_stats_state _ _ _ _ _ Eg) as Ey.
    - apply (rows_follow enc kind eigh y x3 x4 ids es' o' j i m t u); try assumption; try (rewrite Ey; assumption); rewrite Ey; apply I.
    - discriminate En.
  Qed.
  (** nothing follows: the buffer was written out, or the log is not on the CPU *)
  Lemma gpu_views ids mask es (x x1 x2 x3 : lx) o r asked : reachable x -> begins ids mask x x1 -> run_evs kind eigh es x1 = (x2, o) -> ends asked x2 x3 r ->
    (s_buffer (x_saver x3) = [] \/ forall m t u, log_at x2 m t = Some (Own u) -> fst (u_d u) <> Cpu) -> x_views x3 = [].
  Proof.
    intros R B E En K. destruct (before_end _ _ _ _ _ _ _ R B E) as (V & Ids & (W & _)). apply ends_update in En. rewrite update_eq in En. unfold sbind in En. destruct (grad_stats eigh _ x2) as [y [[]|e]] eqn:Eg; pose proof (grad_stats_state _ _ _ _ _ Eg) as Ey.
    - destruct asked; [|injection En as <- _; rewrite Ey; exact V]. unfold lx_save_log in En. assert (Iy : x_ids y = Some ids) by (rewrite Ey; exact Ids). rewrite Iy in En.
      destruct (save_log _ _ _ _) as [[d' s'] o1]. apply (f_equal fst) in En. cbn [fst] in En. subst x3. cbn [x_views with_views x_saver with_store] in *. unfold views_left. destruct (s_buffer s') as [|q qs] eqn:Eq; [reflexivity|]. destruct K as [K|K]; [discriminate K|].
      assert (Nv : batch_views enc (x_heap y) (log_refs (x_log y)) ids 0 = []); [|rewrite Nv, Ey; exact V].
      assert (Nr : forall i k, fst (row_views enc (x_heap y) (log_refs (x_log y)) i k) = []).
      { assert (Kr : forall m t u, In (m, (t, Own u)) (log_refs (x_log y)) -> fst (u_d u) <> Cpu).
        { intros m t u I0. unfold log_refs in I0. apply in_concat in I0. destruct I0 as (q0 & I0 & I1). apply in_map_iff in I0. destruct I0 as ([m' e] & <- & I0). cbn [fst snd] in I1. apply in_map_iff in I1. destruct I1 as ([t' r'] & [= -> -> ->] & I1).
          assert (x_log y = x_log x2) as Lq by (rewrite Ey; reflexivity). rewrite Lq in I0. destruct W as (N1 & N2). assert (Gm : dget m (x_log x2) = Some e) by (apply nodup_dget; assumption). apply (K m t u). unfold log_at. rewrite Gm. apply nodup_dget; [exact (N2 m e Gm)|exact I1]. }
        clear - Kr. intros i k. induction (log_refs (x_log y)) as [|[m [t r]] l IH]; [reflexivity|]. cbn [row_views]. destruct (row_read enc k _); [|reflexivity]. specialize (IH (fun m t u I0 => Kr m t u (or_intror I0))). destruct (row_views enc (x_heap y) l i k) as [vs b]. cbn [fst] in *. subst vs.
        destruct r as [u|i0]; [|reflexivity]. specialize (Kr m t u (or_introl eq_refl)). destruct (fst (u_d u)); [congruence|reflexivity]. }
      clear - Nr. generalize 0. induction ids as [|i ids IH]; intros k; [reflexivity|]. cbn [batch_views]. specialize (Nr i k). destruct (row_views enc (x_heap y) (log_refs (x_log y)) i k) as [vs b]. cbn [fst] in Nr. subst vs. destruct b; [apply IH|reflexivity].
    - injection En as <- _. rewrite Ey. exact V.
  Qed.
  Lemma ends_keep ids mask es es' (x x1 x2 x3 x4 : lx) o r o' asked : reachable x -> begins ids mask x x1 -> run_evs kind eigh es x1 = (x2, o) -> ends asked x2 x3 r ->
    (s_buffer (x_saver x3) = [] \/ forall m t u, log_at x2 m t = Some (Own u) -> fst (u_d u) <> Cpu) ->
    run_evs kind eigh es' x3 = (x4, o') -> settle x4 = x_saver x3.
  Proof.
    intros R B E En K E'. pose proof (gpu_views _ _ _ _ _ _ _ _ _ _ R B E En K) as V. destruct (evs_keep kind eigh _ _ _ _ E') as (K1 & K2 & _). rewrite settle_none by congruence. exact K2.
  Qed.
  (** the next batch leaves the rows alone *)
  Lemma next_keeps ids mask es (x x1 x2 : lx) o : reachable x -> begins ids mask x x1 -> run_evs kind eigh es x1 = (x2, o) -> settle x2 = settle x.
  Proof.
    intros R B E. destruct (begins_views _ _ _ _ R B) as (V & S & _). destruct (evs_keep kind eigh _ _ _ _ E) as (K1 & K2 & _). rewrite settle_none by congruence. congruence.
  Qed.
  Lemma finalize_writes (x x' : lx) : lx_finalize x = (x', Ok tt) -> saver_finalize (x_dir x) (settle x) = (x_dir x', x_saver x', Ok tt).
  Proof.
    unfold lx_finalize. unfold sbind. destruct (finalize (x_disk x) (x_state x)) as [s' [dk|e]]; [|discriminate].
    change (settle (with_store (with_state x s') (x_saver x) (x_dir x) dk)) with (settle x). change (x_dir (with_store (with_state x s') (x_saver x) (x_dir x) dk)) with (x_dir x).
    destruct (saver_finalize (x_dir x) (settle x)) as [[d' sv] o1]. intros [= <- ->]. reflexivity.
  Qed.
End P.
