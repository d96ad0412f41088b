(** Which logged tensors can be copied: the flags of the tensors in the batch log. *)
From Coq Require Import ZArith Permutation.
From Verif Require Import Py Field Tensor ModelGrad Monad ModelState ModelMmap ModelSaver ModelLogger SpecGrad SpecState SpecLogger LogProofs1 LogProofs3 LogProofs6.
Local Open Scope nat_scope.

Lemma In_dset {K V} `{Eqb K} (k : K) (v : V) (d : list (K * V)) p : In p (dset k v d) -> p = (k, v) \/ In p d.
Proof.
  induction d as [|[k' v'] r IH]; cbn [dset In].
  - intros [<-|[]]; auto.
  - destruct (eqb_spec k k') as [E|E]; cbn [In].
    + subst. intros [<-|HI]; auto.
    + intros [<-|HI]; [auto|]. destruct (IH HI); auto.
Qed.

Section P.
  Context {F : Type} `{OField F}.
  Notation tensor := (tensor F).
  Notation dten := (@dten F).
  Notation uten := (@uten F).
  Notation lref := (@lref F).
  Notation lx := (@lx F).
  Notation ev := (@ev F).
  Notation op := (@op F).
  Variable kind : mid -> mkind.
  Variable wsize : mid -> nat.
  Variable eigh : tensor -> res (tensor * tensor).
  Variable enc : dten -> array.
  Notation run_plugin := (run_plugin eigh).
  Notation update := (update eigh enc).
  Notation run_ev := (run_ev kind eigh).
  Notation run_evs := (run_evs kind eigh).
  Notation run_op := (run_op kind wsize eigh enc).
  Notation run_ops := (run_ops kind wsize eigh enc).
  Notation reachable := (reachable kind wsize eigh enc).

  Definition detached (r : lref) : Prop := exists d, r = Own (UT d false true).

  Section Q.
    Variable Q : string -> lref -> Prop.
    Hypothesis HQ : forall t u d, Q t (Own u) -> Q t (Own (UT d (u_req u) (u_leaf u))).
    Hypothesis HG : forall d, Q "grad" (Own (UT d false true)).
    Definition qinv (x : lx) : Prop := forall n l t r, In (n, l) (x_log x) -> In (t, r) l -> Q t r.
    Lemma qinv_log x x' : x_log x' = x_log x -> qinv x -> qinv x'.
    Proof. unfold qinv. intros ->. auto. Qed.
    Lemma qinv_only_state x x' : only_state x x' -> qinv x -> qinv x'.
    Proof. intros ->. apply qinv_log. reflexivity. Qed.
    Lemma only_state_opt (x x' : lx) : only_state x x' -> x_opt x' = x_opt x.
    Proof. intros ->. reflexivity. Qed.
    Lemma log_put_qinv m t r x x' o : Q t r -> log_put m t r x = (x', o) -> qinv x -> qinv x'.
    Proof.
      unfold log_put. cbv zeta. intros Qr. destruct (dget t _) as [old|] eqn:Ed.
      - destruct (iadd_ _ _) as [new|e]; [|intros [= <- _]; auto].
        destruct (dget m (x_log x)) as [ml|] eqn:Em; [|discriminate Ed].
        pose proof (dget_In _ _ _ Em) as Im. pose proof (dget_In _ _ _ Ed) as Id.
        destruct old as [u|i]; intros [= <- _]; [|apply qinv_log; reflexivity].
        intros HI n l t' r'. cbn [x_log with_log with_batch]. intros H1 H2. apply In_dset in H1 as [E|H1]; [|exact (HI _ _ _ _ H1 H2)].
        injection E as -> ->. apply In_dset in H2 as [E|H2]; [|exact (HI _ _ _ _ Im H2)].
        injection E as -> ->. apply HQ. exact (HI _ _ _ _ Im Id).
      - intros [= <- _] HI n l t' r'. cbn [x_log with_log with_batch]. intros H1 H2. apply In_dset in H1 as [E|H1]; [|exact (HI _ _ _ _ H1 H2)].
        injection E as -> ->. apply In_dset in H2 as [E|H2]; [injection E as -> ->; exact Qr|].
        destruct (dget m (x_log x)) as [ml|] eqn:Em; [|destruct H2]. exact (HI _ _ _ _ (dget_In _ _ _ Em) H2).
    Qed.
    Definition qstep (o : opts) (x x' : lx) : Prop := x_opt x = o -> x_opt x' = o /\ (qinv x -> qinv x').
    Lemma qstep_refl o x : qstep o x x.
    Proof. intros E. auto. Qed.
    Lemma qstep_trans o x y z : qstep o x y -> qstep o y z -> qstep o x z.
    Proof. intros H1 H2 E. destruct (H1 E) as [E1 I1]. destruct (H2 E1) as [E2 I2]. auto. Qed.
    Lemma qstep_same o x x' : x_opt x' = x_opt x -> x_log x' = x_log x -> qstep o x x'.
    Proof. intros E1 E2 E. rewrite E1. split; [exact E|]. apply qinv_log. exact E2. Qed.
    Lemma run_plugin_q o p mo m t d x x' r : (p = PLog -> forall a, d = Some a -> Q t a) ->
      run_plugin p mo m t d x = (x', r) -> qstep o x x'.
    Proof.
      intros Hd E Eo. destruct p; try (apply run_plugin_state in E; [|discriminate]; split; [rewrite (only_state_opt _ _ E); exact Eo|exact (qinv_only_state _ _ E)]).
      cbn in E. destruct d as [a|].
      - split; [|exact (log_put_qinv _ _ _ _ _ _ (Hd eq_refl a eq_refl) E)]. apply log_put_slh in E as (s & l & h & ->). exact Eo.
      - injection E as <- _. auto.
    Qed.
    Lemma plugins_q o (l : list plugin) mo m t a x x' r : (In PLog l -> Q t a) ->
      seach (fun p => run_plugin p mo m t (Some a)) l x = (x', r) -> qstep o x x'.
    Proof.
      intros Hd. apply (seach_rel (qstep o) (qstep_refl o) (qstep_trans o)). intros p y y' o' Hp.
      apply run_plugin_q. intros -> b [= <-]. auto.
    Qed.
    Lemma register_q o u h x x' r : register_tensor_hook u h x = (x', r) -> qstep o x x'.
    Proof. unfold register_tensor_hook. destruct (u_req u); intros [= <- _]; apply qstep_same; reflexivity. Qed.
    Section Opt.
      Variable o : opts.
      Hypothesis Hf : In PLog (o_forward o) -> forall r, Q "forward" r.
      Hypothesis Hb : In PLog (o_backward o) -> forall r, Q "backward" r.
      Lemma forward_q gm m n ins x x' r : forward_hook kind eigh gm m n ins x = (x', r) -> qstep o x x'.
      Proof.
        intros E Eo. revert E. cut (forward_hook kind eigh gm m n ins x = (x', r) -> qstep o x x'); [intros C E; exact (C E Eo)|].
        unfold forward_hook. destruct ins as [|t [|t' l]]; try (intros [= <- _]; apply qstep_refl).
        apply (sbind_rel (qstep o) (qstep_trans o)).
        - intros y o' [= <- _]. apply qstep_refl.
        - intros a y y' o'. rewrite Eo. apply plugins_q. intros HI. exact (Hf HI a).
      Qed.
      Lemma backward_q m n gs x x' r : backward_hook kind eigh m n gs x = (x', r) -> qstep o x x'.
      Proof.
        intros E Eo. revert E. cut (backward_hook kind eigh m n gs x = (x', r) -> qstep o x x'); [intros C E; exact (C E Eo)|].
        unfold backward_hook. destruct gs as [|t [|t' l]]; try (intros [= <- _]; apply qstep_refl).
        rewrite Eo. apply plugins_q. intros HI. exact (Hb HI _).
      Qed.
      Lemma tensor_backward_q n g x x' r : tensor_backward_hook eigh n g x = (x', r) -> qstep o x x'.
      Proof.
        intros E Eo. revert E. cut (tensor_backward_hook eigh n g x = (x', r) -> qstep o x x'); [intros C E; exact (C E Eo)|].
        unfold tensor_backward_hook. rewrite Eo. apply plugins_q. intros HI. exact (Hb HI _).
      Qed.
      Lemma tensor_forward_q t n x x' r : tensor_forward_hook eigh t n x = (x', r) -> qstep o x x'.
      Proof.
        intros E Eo. revert E. cut (tensor_forward_hook eigh t n x = (x', r) -> qstep o x x'); [intros C E; exact (C E Eo)|].
        unfold tensor_forward_hook. rewrite Eo. apply plugins_q. intros HI. exact (Hf HI _).
      Qed.
      Lemma grad_tensor_q m n i g x x' r : grad_tensor_hook kind eigh m n i g x = (x', r) -> qstep o x x'.
      Proof.
        unfold grad_tensor_hook. destruct (o_grad (x_opt x)) as [|p l]; [intros [= <- _]; apply qstep_refl|].
        destruct (plugin_eqb p PLog); [|intros [= <- _]; apply qstep_refl].
        apply (sbind_rel (qstep o) (qstep_trans o)).
        - intros y o' [= <- _]. apply qstep_refl.
        - intros a y y' o'. apply plugins_q. intros _. apply HG.
      Qed.
      Lemma grad_hook_q m n ins out x x' r : grad_hook m n ins out x = (x', r) -> qstep o x x'.
      Proof.
        unfold grad_hook. destruct ins as [|i [|i' l]]; try (intros [= <- _]; apply qstep_refl).
        destruct out; try (intros [= <- _]; apply qstep_refl). apply register_q.
      Qed.
      Notation Rq := (sbind_rel (qstep o) (qstep_trans o)).
      Notation Eq := (seach_rel (qstep o) (qstep_refl o) (qstep_trans o)).
      Lemma run_ev_q e x x' r : run_ev e x = (x', r) -> qstep o x x'.
      Proof.
        destruct e as [t u|c m ins out gm|t g|c gs|e]; cbn [run_ev ModelLogger.run_ev].
        - intros [= <- _]. apply qstep_same; reflexivity.
        - apply Rq; [intros y o' [= <- _]; apply qstep_same; reflexivity|].
          intros [] y y' o'. apply Rq; [intros z o1 [= <- _]; apply qstep_refl|].
          intros z0 z z' o1. apply Rq; [intros w o2; apply Eq; intros n v v' o3 _; apply forward_q|].
          intros [] w w' o2. destruct out as [t u| |e].
          + apply Rq; [intros v o3 [= <- _]; apply qstep_same; reflexivity|].
            intros [] v v' o3. apply Rq; [intros v1 o4 [= <- _]; apply qstep_refl|].
            intros v0 v1 v2 o4. apply Eq. intros n y1 y2 o5 _. apply grad_hook_q.
          + apply Rq; [intros v1 o4 [= <- _]; apply qstep_refl|].
            intros v0 v1 v2 o4. apply Eq. intros n y1 y2 o5 _. apply grad_hook_q.
          + intros [= <- _]. apply qstep_refl.
        - apply Rq; [intros y o' [= <- _]; apply qstep_refl|].
          intros z y y' o'. apply Eq. intros h v v' o3 _. destruct h; try (intros [= <- _]; apply qstep_refl).
          + apply grad_tensor_q.
          + apply tensor_backward_q.
        - apply Rq; [intros y o' [= <- _]; apply qstep_refl|].
          intros z y y' o'. apply Eq. intros h v v' o3 _. destruct h; try (intros [= <- _]; apply qstep_refl).
          apply backward_q.
        - intros [= <- _]. apply qstep_refl.
      Qed.
      Lemma run_evs_q es x x' r : run_evs es x = (x', r) -> qstep o x x'.
      Proof. apply Eq. intros e y y' o' _. apply run_ev_q. Qed.
      Lemma watch_activation_q ts x x' r : watch_activation eigh ts x = (x', r) -> qstep o x x'.
      Proof.
        unfold watch_activation, register_all_tensor_hooks. apply Eq. intros p y y' o' _. apply Rq.
        - intros z o1. apply tensor_forward_q.
        - intros [] z z' o1. apply Rq; [intros w o2 [= <- _]; apply qstep_refl|].
          intros a w w' o2. apply register_q.
      Qed.
    End Opt.
    Lemma nil_qinv x : x_log x = [] -> qinv x.
    Proof. intros E n l t r. rewrite E. intros []. Qed.
    Section Ops.
      Hypothesis Hf : forall r, Q "forward" r.
      Hypothesis Hb : forall r, Q "backward" r.
      Lemma run_op_q p x : inv x -> qinv x -> qinv (fst (run_op p x)).
      Proof.
        intros HI Hq. destruct (run_op p x) as [x' r] eqn:E. cbn [fst].
        destruct p; cbn [run_op ModelLogger.run_op] in E.
        - apply watch_watched in E as (s & sv & ->). revert Hq. apply qinv_log. reflexivity.
        - refine (proj2 (watch_activation_q (x_opt x) _ ts x x' r E eq_refl) Hq). intros _. exact Hf.
        - apply nil_qinv. injection E as <- _. reflexivity.
        - rewrite (lx_enter_run _ HI) in E. injection E as <- _. revert Hq. apply qinv_log. reflexivity.
        - unfold lx_exit in E. rewrite (sbind_run sget _ _ _ _ eq_refl) in E. apply update_stores in E as (s & sv & d & vs & ->). revert Hq. apply qinv_log. reflexivity.
        - rewrite (lx_start_run _ _ _ HI) in E. apply nil_qinv. injection E as <- _. reflexivity.
        - unfold lx_end in E. rewrite (sbind_run sget _ _ _ _ eq_refl) in E. apply update_stores in E as (s & sv & d & vs & ->). revert Hq. apply qinv_log. reflexivity.
        - apply nil_qinv. unfold lx_log, logger_log, binfo_clear in E. erewrite sbind_run in E by reflexivity. erewrite sbind_run in E by reflexivity.
          apply update_nosave in E. rewrite E. reflexivity.
        - unfold lx_setup in E. destruct (opt_setup kw) as [[o d] r']. injection E as <- _. revert Hq. apply qinv_log. reflexivity.
        - injection E as <- _. revert Hq. apply qinv_log. reflexivity.
        - injection E as <- _. revert Hq. apply qinv_log. reflexivity.
        - assert (El : x_log x' = x_log x); [|revert Hq; apply qinv_log; exact El].
          unfold lx_clear in E. revert E. apply (sbind_rel (fun a b : lx => x_log b = x_log a)); [congruence| |].
          + intros y o'. destruct (state_clear (x_state x)) as [s o1]. intros [= <- _]. reflexivity.
          + intros [] y y' o'. unfold logger_clear, clear_hooks. cbv [sbind]. intros [= <- _]. reflexivity.
        - assert (El : x_log x' = x_log x); [|revert Hq; apply qinv_log; exact El].
          unfold lx_finalize in E. revert E. apply (sbind_rel (fun a b : lx => x_log b = x_log a)); [congruence| |].
          + intros y o'. destruct (finalize _ _) as [s [dk|e]]; intros [= <- _]; reflexivity.
          + intros [] y y' o'. destruct (saver_finalize _ _) as [[d' sv] o1]. intros [= <- _]. reflexivity.
        - unfold lx_load, lx_load_from in E. destruct (load_state _ _) as [s r']. injection E as <- _. revert Hq. apply qinv_log. reflexivity.
        - refine (proj2 (run_ev_q (x_opt x) _ _ e x x' r E eq_refl) Hq); intros _; assumption.
      Qed.
      Lemma reachable_q x : reachable x -> qinv x.
      Proof.
        intros (w & t & off & os & ->).
        assert (G : forall os, qinv (run_ops os (lx_init w t off))); [|apply G].
        intros l. induction l as [|p l IH] using rev_ind.
        - apply nil_qinv. reflexivity.
        - unfold ModelLogger.run_ops in *. rewrite fold_left_app. cbn [fold_left]. apply run_op_q; [|exact IH].
          apply (reachable_inv kind wsize eigh enc). exists w, t, off, l. reflexivity.
      Qed.
    End Ops.
  End Q.

  (** ---- C85 ---- *)
  Lemma grad_detached x n l r : reachable x -> dget n (x_log x) = Some l -> dget "grad"%string l = Some r -> exists d, r = Own (UT d false true).
  Proof.
    intros HR E1 E2.
    refine (reachable_q (fun t r => t = "grad"%string -> detached r) _ _ _ _ x HR n l "grad"%string r (dget_In _ _ _ E1) (dget_In _ _ _ E2) eq_refl).
    - intros t u d Hu Et. destruct (Hu Et) as (d' & E). injection E as ->. exists d. reflexivity.
    - intros d _. exists d. reflexivity.
    - discriminate.
    - discriminate.
  Qed.
  Lemma in_blog_vals r (l : @blog F) : In r (blog_vals l) <-> exists n ml t, In (n, ml) l /\ In (t, r) ml.
  Proof.
    unfold blog_vals. rewrite in_concat. split.
    - intros (vs & Hv & Hr). apply in_map_iff in Hv as ([n ml] & <- & Hm). apply in_map_iff in Hr as ([t r'] & E & Ht). cbn in E. subst. eauto 6.
    - intros (n & ml & t & Hm & Ht). exists (map snd ml). split; [apply in_map_iff; exists (n, ml); auto|apply in_map_iff; exists (t, r); auto].
  Qed.
  Lemma batch_copy ids mask es (x x1 x2 : lx) r : reachable x -> begins ids mask x x1 ->
    ~ In PLog (o_forward (x_opt x)) -> ~ In PLog (o_backward (x_opt x)) -> run_evs es x1 = (x2, r) ->
    lx_get_log true x2 = (x2, Ok (GCopy (Some ids) (log_nd (fun d => d) (x_heap x2) (x_log x2)))).
  Proof.
    intros HR HB Nf Nb E. destruct (LogProofs6.begins_fresh _ _ _ _ _ _ _ _ HR HB) as (El & Ei & _ & _ & _ & _ & Eo & _).
    assert (HA : qinv (fun _ r => detached r) x2).
    { refine (proj2 (run_evs_q (fun _ r => detached r) _ _ (x_opt x) _ _ es x1 x2 r E Eo) (nil_qinv _ _ El)).
      - intros t u d (d' & E'). injection E' as ->. exists d. reflexivity.
      - intros d. exists d. reflexivity.
      - intros HI. contradiction.
      - intros HI. contradiction. }
    assert (Ei2 : x_ids x2 = Some ids). { apply run_evs_grows in E as (c & s & l & h & hs & ->). exact Ei. }
    unfold lx_get_log. rewrite Ei2.
    replace (forallb (copyable (x_heap x2)) (blog_vals (x_log x2))) with true; [reflexivity|]. symmetry. apply forallb_forall. intros v Hv.
    apply in_blog_vals in Hv as (n & ml & t & Hm & Ht). destruct (HA _ _ _ _ Hm Ht) as (d & ->). reflexivity.
  Qed.
  (** one entry more *)
  Lemma copy_put n t r (x : lx) : (forall l, dget n (x_log x) = Some l -> dget t l = None) ->
    exists x', log_put n t r x = (x', Ok tt) /\
    ((exists g, lx_get_log true x' = (x', Ok g)) <->
     (exists g, lx_get_log true x = (x, Ok g)) /\ ~ (u_req (deref (x_heap x) r) = true /\ u_leaf (deref (x_heap x) r) = false)).
  Proof.
    intros HN. unfold log_put. cbv zeta. set (ml := match dget n (x_log x) with Some l => l | None => [] end).
    assert (Em : dget t ml = None). { subst ml. destruct (dget n (x_log x)) as [l|] eqn:E; [exact (HN l eq_refl)|reflexivity]. }
    rewrite Em. eexists. split; [reflexivity|]. rewrite !got_copy_iff. cbn [x_log x_heap with_log with_batch].
    rewrite (dset_notin t r ml) by (apply dget_None_keys; exact Em).
    assert (HB : forall v, In v (blog_vals (dset n (ml ++ [(t, r)]) (x_log x))) <-> v = r \/ In v (blog_vals (x_log x))).
    { intros v. subst ml. clear Em HN. induction (x_log x) as [|[n' l'] lg IH]; cbn [dget dset].
      - cbn. intuition.
      - destruct (eqb_spec n n') as [E|E]; unfold blog_vals in *; cbn [map concat fst snd].
        + rewrite map_app, !in_app_iff. cbn. intuition.
        + rewrite !in_app_iff, IH. intuition. }
    split.
    - intros HA. split; [intros v Hv; apply HA, HB; auto|apply HA, HB; auto].
    - intros [HA Hr] v Hv. apply HB in Hv as [->|Hv]; auto.
  Qed.
  Lemma only_state_copy (x x' : lx) : only_state x x' -> ((exists g, lx_get_log true x' = (x', Ok g)) <-> (exists g, lx_get_log true x = (x, Ok g))).
  Proof. intros E. rewrite !got_copy_iff, E. reflexivity. Qed.
  Lemma plugins_copy ps mo n t r (x x' : lx) : (forall l, dget n (x_log x) = Some l -> dget t l = None) -> ~ In PLog ps ->
    seach (fun p => run_plugin p mo n t (Some r)) (PLog :: ps) x = (x', Ok tt) ->
    ((exists g, lx_get_log true x' = (x', Ok g)) <->
     (exists g, lx_get_log true x = (x, Ok g)) /\ ~ (u_req (deref (x_heap x) r) = true /\ u_leaf (deref (x_heap x) r) = false)).
  Proof.
    intros HN NP E. cbn [seach] in E. apply sbind_ok in E as (y & [] & E1 & E2). destruct (copy_put n t r x HN) as (y' & E1' & HC).
    change (run_plugin PLog mo n t (Some r) x) with (log_put n t r x) in E1. rewrite E1' in E1. injection E1 as ->.
    rewrite <- HC. apply only_state_copy. exact (plugins_state _ _ _ _ _ _ _ _ _ NP E2).
  Qed.
  Lemma forward_copy ps gm m n i (x x' : lx) : o_forward (x_opt x) = PLog :: ps -> ~ In PLog ps ->
    (forall l, dget n (x_log x) = Some l -> dget "forward"%string l = None) ->
    forward_hook kind eigh gm m n [i] x = (x', Ok tt) ->
    ((exists g, lx_get_log true x' = (x', Ok g)) <->
     (exists g, lx_get_log true x = (x, Ok g)) /\
     ~ match x_mask x with
       | Some mk => match apply_mask mk (mem_get (x_heap x) i) with
                    | Ok (Some _) => gm = true /\ u_req (uget (x_heap x) i) = true
                    | _ => u_req (uget (x_heap x) i) = true /\ u_leaf (uget (x_heap x) i) = false
                    end
       | None => u_req (uget (x_heap x) i) = true /\ u_leaf (uget (x_heap x) i) = false
       end).
  Proof.
    intros Eo NP HN E. unfold forward_hook in E. rewrite Eo in E. apply sbind_ok in E as (y & a & E1 & E2).
    unfold mem_get. destruct (x_mask x) as [mk|].
    - destruct (apply_mask mk _) as [[d|]|e]; cbn in E1; try discriminate E1; injection E1 as <- <-.
      + rewrite (plugins_copy _ _ _ _ _ _ _ HN NP E2). cbn. destruct gm, (u_req (uget (x_heap x) i)); cbn; intuition; try discriminate.
      + exact (plugins_copy _ _ _ _ _ _ _ HN NP E2).
    - injection E1 as <- <-. exact (plugins_copy _ _ _ _ _ _ _ HN NP E2).
  Qed.
  Lemma backward_copy ps m n g (x x' : lx) : o_backward (x_opt x) = PLog :: ps -> ~ In PLog ps ->
    (forall l, dget n (x_log x) = Some l -> dget "backward"%string l = None) ->
    backward_hook kind eigh m n [g] x = (x', Ok tt) ->
    ((exists c, lx_get_log true x' = (x', Ok c)) <->
     (exists c, lx_get_log true x = (x, Ok c)) /\ ~ (u_req (uget (x_heap x) g) = true /\ u_leaf (uget (x_heap x) g) = false)).
  Proof.
    intros Eo NP HN E. unfold backward_hook in E. rewrite Eo in E. exact (plugins_copy _ _ _ _ _ _ _ HN NP E).
  Qed.
End P.
