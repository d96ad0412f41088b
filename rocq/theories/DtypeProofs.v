(** The configured data type (C93). *)
From Coq Require Import ZArith Permutation Sorting.Sorted.
From Verif Require Import BcastProofs Py Field Tensor ModelGrad Monad ModelState ModelMmap ModelSaver ModelLogger ModelDtype SpecGrad SpecState SpecLogger SpecDtype LogProofs1 LogProofs2 LogProofs6 LogProofs8.
Local Open Scope nat_scope.

Section P.
  Context {F : Type} `{OField F}.
  Notation tensor := (tensor F).
  Notation dten := (@dten F).
  Notation uten := (@uten F).
  Notation lx := (@lx F).
  Notation ev := (@ev F).
  Notation op := (@op F).
  Notation lstate := (@lstate F).
  Variable kind : mid -> mkind.
  Variable wsize : mid -> nat.
  Variable eigh : tensor -> res (tensor * tensor).
  Variable enc : dten -> array.
  Notation run_plugin := (run_plugin eigh).

  (** ---- the data type changes nothing ---- *)
  Lemma sx_ext {A} (f g : A -> SM lx unit) l : (forall a s, f a s = g a s) -> forall s, seach f l s = seach g l s.
  Proof. intros Hf. induction l as [|a l IH]; intros s; [reflexivity|]. cbn [seach]. unfold sbind. rewrite Hf. destruct (g a s) as [s' [u|e]]; auto. Qed.
  Lemma sb_ext {A B} (f f' : SM lx A) (g g' : A -> SM lx B) s : f s = f' s -> (forall a s, g a s = g' a s) -> sbind f g s = sbind f' g' s.
  Proof. intros Hf Hg. unfold sbind. rewrite Hf. destruct (f' s) as [s' [a|e]]; auto. Qed.
  (** the conversion is the identity on the tensors the hooks see *)
  Section Same.
    Variable dt : option (@dcast F).
    Hypothesis Hdt : forall gm (h : @heap F) r, to_dtype dt gm h r = r.
    Lemma forward_same gm m n ins x : forward_hook_dt kind eigh dt gm m n ins x = forward_hook kind eigh gm m n ins x.
    Proof. unfold forward_hook_dt, forward_hook. destruct ins as [|t [|]]; try reflexivity. apply sb_ext; [reflexivity|]. intros a s. rewrite Hdt. reflexivity. Qed.
    Lemma backward_same m n gs x : backward_hook_dt kind eigh dt m n gs x = backward_hook kind eigh m n gs x.
    Proof. unfold backward_hook_dt, backward_hook. destruct gs as [|t [|]]; try reflexivity. rewrite Hdt. reflexivity. Qed.
    Lemma grad_same m n i g x : grad_tensor_hook_dt kind eigh dt m n i g x = grad_tensor_hook kind eigh m n i g x.
    Proof.
      unfold grad_tensor_hook_dt, grad_tensor_hook. destruct (o_grad (x_opt x)) as [|p r]; [reflexivity|]. destruct (plugin_eqb p PLog); [|reflexivity].
      apply sb_ext; [reflexivity|]. intros a s. rewrite Hdt. reflexivity.
    Qed.
    Lemma acts_same ts x : register_all_tensor_hooks_dt eigh dt ts x = register_all_tensor_hooks eigh ts x.
    Proof. apply sx_ext. intros p s. apply sb_ext; [|reflexivity]. unfold tensor_forward_hook_dt. rewrite Hdt. reflexivity. Qed.
    Lemma ev_same e x : run_ev_dt kind eigh dt e x = run_ev kind eigh e x.
    Proof.
      destruct e as [t u|c m ins out gm|t g|c gs|e]; try reflexivity; cbn [run_ev_dt run_ev].
      - apply sb_ext; [reflexivity|]. intros [] s. apply sb_ext; [reflexivity|]. intros y s'. apply sb_ext; [|reflexivity].
        apply sx_ext. intros n s''. apply forward_same.
      - apply sb_ext; [reflexivity|]. intros y s. apply sx_ext. intros h s'. destruct h; try reflexivity.
        + apply grad_same.
        + unfold tensor_backward_hook_dt. rewrite Hdt. reflexivity.
      - apply sb_ext; [reflexivity|]. intros y s. apply sx_ext. intros h s'. destruct h; try reflexivity. apply backward_same.
    Qed.
    Lemma op_same o x : run_op_dt kind wsize eigh enc dt o x = run_op kind wsize eigh enc o x.
    Proof. destruct o; try reflexivity; cbn [run_op_dt run_op]; [apply acts_same|apply ev_same]. Qed.
    Lemma ops_same os : forall x, run_ops_dt kind wsize eigh enc dt os x = run_ops kind wsize eigh enc os x.
    Proof. unfold run_ops_dt, run_ops. induction os as [|o os IH]; intros x; [reflexivity|]. cbn [fold_left]. rewrite op_same. apply IH. Qed.
  End Same.
  Lemma dtype_none os x : run_ops_dt kind wsize eigh enc None os x = run_ops kind wsize eigh enc os x /\
    forall o, run_op_dt kind wsize eigh enc None o x = run_op kind wsize eigh enc o x.
  Proof. split; [|intros o]; [apply ops_same|apply op_same]; reflexivity. Qed.
  Lemma dtype_same c os x : dc_float c = true -> (forall t, dc_has c t = true) -> (forall d, dc_cast c d = d) ->
    run_ops_dt kind wsize eigh enc (Some c) os x = run_ops kind wsize eigh enc os x /\
    forall o, run_op_dt kind wsize eigh enc (Some c) o x = run_op kind wsize eigh enc o x.
  Proof.
    intros H1 H2 H3. assert (HD : forall gm (h : @heap F) r, to_dtype (Some c) gm h r = r).
    { intros gm h [u|t]; cbn [to_dtype]; [|rewrite H2; reflexivity]. rewrite H1, H3, andb_true_r. destruct u; reflexivity. }
    split; [|intros o]; [apply ops_same|apply op_same]; exact HD.
  Qed.

  (** ---- frames ---- *)
  Section Frame.
    Variable dt : option (@dcast F).
    Lemma forward_dt_slh gm m n ins x x' o : forward_hook_dt kind eigh dt gm m n ins x = (x', o) -> slh x x'.
    Proof.
      unfold forward_hook_dt. destruct ins as [|t [|t' r]]; try (intros [= <- _]; apply slh_refl).
      apply (sbind_rel slh slh_trans); [intros y o' [= <- _]; apply slh_refl|]. intros a y y' o'. apply plugins_slh.
    Qed.
    Lemma backward_dt_slh m n gs x x' o : backward_hook_dt kind eigh dt m n gs x = (x', o) -> slh x x'.
    Proof. unfold backward_hook_dt. destruct gs as [|t [|t' r]]; try (intros [= <- _]; apply slh_refl). apply plugins_slh. Qed.
    Lemma grad_dt_slh m n i g x x' o : grad_tensor_hook_dt kind eigh dt m n i g x = (x', o) -> slh x x'.
    Proof.
      unfold grad_tensor_hook_dt. destruct (o_grad (x_opt x)) as [|p r] eqn:Eg; [intros [= <- _]; apply slh_refl|].
      destruct (plugin_eqb p PLog); [|intros [= <- _]; apply slh_refl]. rewrite <- Eg. clear Eg.
      apply (sbind_rel slh slh_trans); [intros y o' [= <- _]; apply slh_refl|]. intros a y y' o'. apply plugins_slh.
    Qed.
    Lemma acts_dt_grows ts x x' o : register_all_tensor_hooks_dt eigh dt ts x = (x', o) -> grows x x'.
    Proof.
      unfold register_all_tensor_hooks_dt. apply (seach_rel grows grows_refl grows_trans). intros p y y' o' _. apply (sbind_rel grows grows_trans).
      - intros z o1 E. apply slh_grows. exact (plugins_slh _ _ _ _ _ _ _ _ _ E).
      - intros [] z z' o1. apply (sbind_rel grows grows_trans); [intros w o2 [= <- _]; apply grows_refl|]. intros a w w' o2. apply register_tensor_hook_grows.
    Qed.
    Lemma ev_dt_grows e x x' o : run_ev_dt kind eigh dt e x = (x', o) -> call_grows x x'.
    Proof.
      destruct e as [t u|c m ins out gm|t g|c gs|e]; cbn [run_ev_dt].
      - intros [= <- _]. apply grows_call, slh_grows, heap_slh.
      - apply (sbind_rel call_grows call_grows_trans).
        + intros y o' [= <- _]. exists (dset c (back_of m (x_reg x)) (x_calls x)). apply grows_refl.
        + intros [] y y' o' E. apply grows_call. revert E. apply (sbind_rel grows grows_trans).
          * intros z o1 [= <- _]. apply grows_refl.
          * intros z0 z z' o1. apply (sbind_rel grows grows_trans).
            -- intros w o2. apply (seach_rel grows grows_refl grows_trans). intros n v v' o3 _ E. apply slh_grows. exact (forward_dt_slh _ _ _ _ _ _ _ E).
            -- intros [] w w' o2. destruct out as [t u| |e].
               ++ apply (sbind_rel grows grows_trans).
                  ** intros v o3 [= <- _]. apply slh_grows, heap_slh.
                  ** intros [] v v' o3. apply (sbind_rel grows grows_trans).
                     { intros v1 o4 [= <- _]. apply grows_refl. }
                     { intros v0 v1 v2 o4. apply (seach_rel grows grows_refl grows_trans). intros n y1 y2 o5 _. apply grad_hook_grows. }
               ++ apply (sbind_rel grows grows_trans).
                  { intros v1 o4 [= <- _]. apply grows_refl. }
                  { intros v0 v1 v2 o4. apply (seach_rel grows grows_refl grows_trans). intros n y1 y2 o5 _. apply grad_hook_grows. }
               ++ intros [= <- _]. apply grows_refl.
      - intros E. apply grows_call. revert E. apply (sbind_rel grows grows_trans); [intros y o' [= <- _]; apply grows_refl|].
        intros z y y' o'. apply (seach_rel grows grows_refl grows_trans). intros h v v' o3 _ E. apply slh_grows. revert E.
        destruct h; try (intros [= <- _]; apply slh_refl); [apply grad_dt_slh|apply plugins_slh].
      - intros E. apply grows_call. revert E. apply (sbind_rel grows grows_trans); [intros y o' [= <- _]; apply grows_refl|].
        intros z y y' o'. apply (seach_rel grows grows_refl grows_trans). intros h v v' o3 _ E. apply slh_grows. revert E.
        destruct h; try (intros [= <- _]; apply slh_refl). apply backward_dt_slh.
      - intros [= <- _]. apply call_grows_refl.
    Qed.
    (** the plugin lists are in order *)
    Definition ordered (o : opts) : Prop := in_order (o_forward o) /\ in_order (o_backward o) /\ in_order (o_grad o).
    Lemma grows_opt x x' : @grows F x x' -> x_opt x' = x_opt x.
    Proof. intros (s & l & h & hs & ->). reflexivity. Qed.
    Lemma stores_opt x x' : @stores F x x' -> x_opt x' = x_opt x.
    Proof. intros (s & sv & d & vs & ->). reflexivity. Qed.
    Lemma to_plugins_order l l' ps : to_plugins l false = (l', Ok ps) -> in_order ps.
    Proof.
      intros E. destruct (all_known_dec l) as [HA|HN].
      - destruct (to_plugins_ok l HA) as (ps' & [HO _] & _ & E'). rewrite E' in E. injection E as _ <-. exact HO.
      - destruct (to_plugins_bad l HN) as (l2 & E'). rewrite E' in E. discriminate E.
    Qed.
    Lemma nil_order : in_order [].
    Proof. constructor. Qed.
    Lemma setup_order kw o kw' r : opt_setup kw = (o, kw', r) -> ordered o.
    Proof.
      unfold opt_setup. destruct (to_plugins (kw_get "forward" kw) false) as [l1 [f|e]] eqn:E1.
      2: { intros [= <- _ _]. repeat split; apply nil_order. }
      destruct (to_plugins (kw_get "backward" _) false) as [l2 [b|e]] eqn:E2.
      2: { intros [= <- _ _]. repeat split; try apply nil_order. exact (to_plugins_order _ _ _ E1). }
      destruct (to_plugins (kw_get "grad" _) false) as [l3 [g|e]] eqn:E3; intros [= <- _ _]; repeat split; try apply nil_order; eapply to_plugins_order; eassumption.
    Qed.
    Lemma op_inv_dt o x : inv x /\ ordered (x_opt x) -> let x' := fst (run_op_dt kind wsize eigh enc dt o x) in inv x' /\ ordered (x_opt x').
    Proof.
      intros [HI HO]. cbv zeta.
      assert (Base : forall o', run_op_dt kind wsize eigh enc dt o' x = run_op kind wsize eigh enc o' x -> inv (fst (run_op_dt kind wsize eigh enc dt o' x))).
      { intros o' ->. apply run_op_inv. exact HI. }
      destruct (run_op_dt kind wsize eigh enc dt o x) as [x' r] eqn:E. cbn [fst].
      assert (HI' : inv x').
      { destruct o; cbn [run_op_dt] in E; try (match type of E with run_op _ _ _ _ ?q _ = _ => specialize (Base q eq_refl) end; cbn [run_op_dt] in Base; rewrite E in Base; exact Base).
        - exact (inv_grows _ _ (acts_dt_grows _ _ _ _ E) HI).
        - exact (inv_call_grows _ _ (ev_dt_grows _ _ _ _ E) HI). }
      clear Base. split; [exact HI'|]. clear HI'.
      enough (HX : x_opt x' = x_opt x \/ ordered (x_opt x')) by (destruct HX as [->|HX]; assumption).
      destruct o; cbn [run_op_dt run_op] in E.
      - apply watch_watched in E as (s & sv & ->). left. reflexivity.
      - left. exact (grows_opt _ _ (acts_dt_grows _ _ _ _ E)).
      - injection E as <- _. left. reflexivity.
      - rewrite lx_enter_run in E by exact HI. injection E as <- _. left. reflexivity.
      - left. exact (stores_opt _ _ (update_stores _ _ _ _ _ _ E)).
      - rewrite lx_start_run in E by exact HI. injection E as <- _. left. reflexivity.
      - left. exact (stores_opt _ _ (update_stores _ _ _ _ _ _ E)).
      - unfold lx_log, logger_log in E. rewrite (sbind_run _ _ _ _ _ (eq_refl (binfo_clear x))) in E.
        erewrite sbind_run in E by reflexivity. apply update_stores in E. left. rewrite (stores_opt _ _ E). reflexivity.
      - unfold lx_setup in E. destruct (opt_setup kw) as [[o1 kw1] r1] eqn:E1. injection E as <- _. right. exact (setup_order _ _ _ _ E1).
      - injection E as <- _. left. reflexivity.
      - injection E as <- _. left. reflexivity.
      - left. unfold lx_clear in E. unfold sbind at 1 in E. destruct (state_clear (x_state x)) as [s [[]|e']].
        + unfold logger_clear in E. rewrite (sbind_run _ _ _ _ _ (clear_hooks_run (with_state x s) HI)) in E. cbv [sbind] in E. injection E as <- _. reflexivity.
        + injection E as <- _. reflexivity.
      - left. unfold lx_finalize in E. unfold sbind at 1 in E. destruct (finalize (x_disk x) (x_state x)) as [s' [dk|e]].
        + destruct (saver_finalize _ _) as [[d' sv] o1]. injection E as <- _. reflexivity.
        + injection E as <- _. reflexivity.
      - left. unfold lx_load, lx_load_from in E. destruct (load_state (x_disk x) (x_state x)) as [s' r1]. injection E as <- _. reflexivity.
      - left. destruct (ev_dt_grows _ _ _ _ E) as (c & HG). rewrite (grows_opt _ _ HG). reflexivity.
    Qed.
    Lemma reachable_dt_inv x : reachable_dt kind wsize eigh enc dt x -> inv x /\ ordered (x_opt x).
    Proof.
      intros (w & t & off & os & ->).
      assert (Main : forall os y, inv y /\ ordered (x_opt y) -> inv (run_ops_dt kind wsize eigh enc dt os y) /\ ordered (x_opt (run_ops_dt kind wsize eigh enc dt os y))).
      { clear. induction os as [|o os IH]; intros y Hy; [exact Hy|]. cbn. apply IH. apply op_inv_dt. exact Hy. }
      apply Main. split; [apply inv_init|]. repeat split; apply nil_order.
    Qed.
    Lemma begins_dt_fresh ids mask (x x1 : lx) : reachable_dt kind wsize eigh enc dt x -> begins ids mask x x1 ->
      x_log x1 = [] /\ x_mask x1 = mask /\ x_reg x1 = installed x /\ x_state x1 = x_state x /\
      x_opt x1 = x_opt x /\ x_heap x1 = x_heap x /\ x_offload x1 = x_offload x.
    Proof.
      intros HR HB. destruct (reachable_dt_inv _ HR) as [HI _]. destruct HB as [E|(save & E)].
      - rewrite (lx_start_run _ _ _ HI) in E. injection E as <-. repeat split.
      - unfold lx_call, binfo_clear in E. erewrite sbind_run in E; [|erewrite sbind_run by reflexivity; reflexivity].
        rewrite lx_enter_run in E; [|exact HI]. injection E as <-. repeat split.
    Qed.
  End Frame.
End P.
