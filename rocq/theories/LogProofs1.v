(** Frames of the logger operations, and the invariant of the hook registry. *)
From Coq Require Import ZArith Permutation.
From Verif Require Import Py Field Tensor ModelGrad Monad ModelState ModelMmap ModelSaver ModelLogger SpecGrad SpecState SpecLogger.
Local Open Scope nat_scope.

(** ---- relations along monadic programs ---- *)
Section Rel.
  Context {X : Type} (R : X -> X -> Prop) (Rr : forall x, R x x) (Rt : forall x y z, R x y -> R y z -> R x z).
  Lemma sbind_rel {A B} (m : SM X A) (f : A -> SM X B) x x' o :
    (forall y o', m x = (y, o') -> R x y) -> (forall a y y' o', f a y = (y', o') -> R y y') -> sbind m f x = (x', o) -> R x x'.
  Proof.
    intros Hm Hf E. unfold sbind in E. destruct (m x) as [y [a|e]] eqn:E1.
    - exact (Rt _ _ _ (Hm _ _ eq_refl) (Hf _ _ _ _ E)).
    - injection E as <- _. exact (Hm _ _ eq_refl).
  Qed.
  Lemma seach_rel {A} (f : A -> SM X unit) l x x' o :
    (forall a y y' o', In a l -> f a y = (y', o') -> R y y') -> seach f l x = (x', o) -> R x x'.
  Proof.
    revert x. induction l as [|a l IH]; intros x Hf E.
    - injection E as <- _. apply Rr.
    - cbn [seach] in E. unfold sbind in E. destruct (f a x) as [y [u|e]] eqn:E1.
      + apply (Rt _ _ _ (Hf _ _ _ _ (or_introl eq_refl) E1)). apply IH; [|exact E].
        intros b z z' o' Hb. apply Hf. right. exact Hb.
      + injection E as <- _. exact (Hf _ _ _ _ (or_introl eq_refl) E1).
  Qed.
End Rel.

(** successful runs, two at a time *)
Section Rel2.
  Context {X Y : Type} (R : X -> Y -> Prop).
  Lemma seach_rel2 {A} (f : A -> SM X unit) (g : A -> SM Y unit) l x y x' y' :
    (forall a x y x' y', In a l -> R x y -> f a x = (x', Ok tt) -> g a y = (y', Ok tt) -> R x' y') ->
    R x y -> seach f l x = (x', Ok tt) -> seach g l y = (y', Ok tt) -> R x' y'.
  Proof.
    revert x y. induction l as [|a l IH]; intros x y Hf HR E1 E2.
    - injection E1 as <-. injection E2 as <-. exact HR.
    - cbn [seach] in E1, E2. apply sbind_ok in E1 as (x1 & [] & F1 & E1). apply sbind_ok in E2 as (y1 & [] & F2 & E2).
      apply (IH x1 y1); auto.
      + intros b u v u' v' Hb. apply Hf. right. exact Hb.
      + exact (Hf _ _ _ _ _ (or_introl eq_refl) HR F1 F2).
  Qed.
End Rel2.

(** ---- hook removal ---- *)
Lemma hook_eqb_spec a b : reflect (a = b) (hook_eqb a b).
Proof.
  destruct a, b; cbn [hook_eqb]; try (constructor; congruence).
  all: repeat match goal with
       | |- context [?x =? ?y] => destruct (Nat.eqb_spec x y); cbn [andb]
       | |- context [String.eqb ?x ?y] => destruct (String.eqb_spec x y); cbn [andb]
       end; constructor; congruence.
Qed.
Lemma hook_remove_perm h l : In h l -> Permutation l (h :: hook_remove h l).
Proof.
  induction l as [|x r IH]; [intros []|]. cbn [In hook_remove]. destruct (hook_eqb_spec h x) as [E|E].
  - intros _. subst. apply Permutation_refl.
  - intros [E'|HI]; [congruence|]. apply (Permutation_trans (perm_skip x (IH HI))). apply perm_swap.
Qed.
Lemma hooks_remove_all hs l : Permutation l hs -> hooks_remove hs l = [].
Proof.
  revert l. induction hs as [|h hs IH]; intros l HP; cbn [hooks_remove fold_left].
  - apply Permutation_sym, Permutation_nil in HP. exact HP.
  - fold (hooks_remove hs (hook_remove h l)). apply IH. apply (Permutation_cons_inv (a := h)).
    apply (Permutation_trans (Permutation_sym (hook_remove_perm h l (Permutation_in _ (Permutation_sym HP) (or_introl eq_refl))))). exact HP.
Qed.

Section P.
  Context {F : Type} `{OField F}.
  Notation tensor := (tensor F).
  Notation dten := (@dten F).
  Notation uten := (@uten F).
  Notation lx := (@lx F).
  Notation ev := (@ev F).
  Notation op := (@op F).
  Variable kind : mid -> mkind.
  Variable wsize : mid -> nat.
  Variable eigh : tensor -> res (tensor * tensor).
  Variable enc : dten -> array.
  Notation run_plugin := (run_plugin eigh).
  Notation update := (update eigh enc).
  Notation run_ev := (run_ev kind eigh).
  Notation run_evs := (run_evs kind eigh).
  Notation run_op := (run_op kind wsize eigh enc).
  Notation run_ops := (run_ops kind wsize eigh enc).
  Notation reachable := (reachable kind wsize eigh enc).

  (** only statistics, the batch log and tensors change *)
  Definition slh (x x' : lx) : Prop := exists s l h, x' = with_heap (with_log (with_state x s) l) h.
  Lemma slh_refl x : slh x x.
  Proof. exists (x_state x), (x_log x), (x_heap x). destruct x; reflexivity. Qed.
  Lemma slh_trans x y z : slh x y -> slh y z -> slh x z.
  Proof. intros (s & l & h & ->) (s' & l' & h' & ->). exists s', l', h'. destruct x; reflexivity. Qed.
  (** only statistics change *)
  Definition only_state (x x' : lx) : Prop := x' = with_state x (x_state x').
  Lemma only_state_refl x : only_state x x.
  Proof. destruct x; reflexivity. Qed.
  Lemma only_state_trans x y z : only_state x y -> only_state y z -> only_state x z.
  Proof. unfold only_state. intros E1 E2. rewrite E2, E1. destruct x, y, z; reflexivity. Qed.
  Lemma only_state_slh x x' : only_state x x' -> slh x x'.
  Proof. intros ->. exists (x_state x'), (x_log x), (x_heap x). destruct x; reflexivity. Qed.

  Lemma on_state_only f x x' o : on_state f x = (x', o) -> only_state x x'.
  Proof. unfold on_state. destruct (f _ _ _) as [s' r]. intros [= <- _]. destruct x; reflexivity. Qed.
  Lemma run_plugin_state p mo m t d x x' o : p <> PLog -> run_plugin p mo m t d x = (x', o) -> only_state x x'.
  Proof. destruct p; intros N E; try (exact (on_state_only _ _ _ _ E)). congruence. Qed.
  Lemma slh_log x l : slh x (with_log x l).
  Proof. exists (x_state x), l, (x_heap x). destruct x; reflexivity. Qed.
  Lemma slh_heap x h : slh x (with_heap x h).
  Proof. exists (x_state x), (x_log x), h. destruct x; reflexivity. Qed.
  Lemma log_put_slh m t r x x' o : log_put m t r x = (x', o) -> slh x x'.
  Proof.
    unfold log_put. cbv zeta. destruct (dget t _) as [old|].
    - destruct (iadd_ _ _) as [new|e].
      + destruct old as [u|i]; intros [= <- _].
        * apply slh_log.
        * apply slh_heap.
      + intros [= <- _]. apply slh_refl.
    - intros [= <- _]. apply slh_log.
  Qed.
  Lemma run_plugin_slh p mo m t d x x' o : run_plugin p mo m t d x = (x', o) -> slh x x'.
  Proof.
    destruct p; intros E; try (apply only_state_slh; exact (on_state_only _ _ _ _ E)).
    cbn in E. destruct d as [r|]; [exact (log_put_slh _ _ _ _ _ _ E)|]. injection E as <- _. apply slh_refl.
  Qed.
  Lemma plugins_slh (l : list plugin) mo m t d x x' o : seach (fun p => run_plugin p mo m t d) l x = (x', o) -> slh x x'.
  Proof. apply (seach_rel slh slh_refl slh_trans). intros p y y' o' _. apply run_plugin_slh. Qed.
  Lemma plugins_state (l : list plugin) mo m t d x x' o :
    ~ In PLog l -> seach (fun p => run_plugin p mo m t d) l x = (x', o) -> only_state x x'.
  Proof.
    intros N. apply (seach_rel only_state only_state_refl only_state_trans). intros p y y' o' Hp.
    apply run_plugin_state. intros ->. contradiction.
  Qed.
  Lemma forward_hook_slh gm m n ins x x' o : forward_hook kind eigh gm m n ins x = (x', o) -> slh x x'.
  Proof.
    unfold forward_hook. destruct ins as [|t [|t' r]]; try (intros [= <- _]; apply slh_refl).
    apply (sbind_rel slh slh_trans).
    - intros y o' [= <- _]. apply slh_refl.
    - intros a y y' o'. apply plugins_slh.
  Qed.
  Lemma forward_hook_state gm m n ins x x' o :
    ~ In PLog (o_forward (x_opt x)) -> forward_hook kind eigh gm m n ins x = (x', o) -> only_state x x'.
  Proof.
    intros N. unfold forward_hook. destruct ins as [|t [|t' r]]; try (intros [= <- _]; apply only_state_refl).
    apply (sbind_rel only_state only_state_trans).
    - intros y o' [= <- _]. apply only_state_refl.
    - intros a y y' o'. apply plugins_state. exact N.
  Qed.
  Lemma backward_hook_slh m n gs x x' o : backward_hook kind eigh m n gs x = (x', o) -> slh x x'.
  Proof.
    unfold backward_hook. destruct gs as [|t [|t' r]]; try (intros [= <- _]; apply slh_refl). apply plugins_slh.
  Qed.
  Lemma backward_hook_state m n gs x x' o :
    ~ In PLog (o_backward (x_opt x)) -> backward_hook kind eigh m n gs x = (x', o) -> only_state x x'.
  Proof.
    intros N. unfold backward_hook. destruct gs as [|t [|t' r]]; try (intros [= <- _]; apply only_state_refl). apply plugins_state. exact N.
  Qed.
  Lemma grad_tensor_hook_slh m n i g x x' o : grad_tensor_hook kind eigh m n i g x = (x', o) -> slh x x'.
  Proof.
    unfold grad_tensor_hook. destruct (o_grad (x_opt x)) as [|p r] eqn:Eg; [intros [= <- _]; apply slh_refl|].
    destruct (plugin_eqb p PLog); [|intros [= <- _]; apply slh_refl]. rewrite <- Eg. clear Eg.
    apply (sbind_rel slh slh_trans).
    - intros y o' [= <- _]. apply slh_refl.
    - intros a y y' o'. apply plugins_slh.
  Qed.

  (** everything but statistics, log, tensors and tensor hooks is kept; tensor hooks are appended together with
      their handles *)
  Definition grows (x x' : lx) : Prop :=
    exists s l h hs,
      x' = with_hooks (with_heap (with_log (with_state x s) l) h) (x_fh x) (x_bh x) (x_gh x) (x_th x ++ hs) (x_reg x ++ hs).
  Lemma grows_refl x : grows x x.
  Proof. exists (x_state x), (x_log x), (x_heap x), []. destruct x. unfold with_hooks. cbn. rewrite !app_nil_r. reflexivity. Qed.
  Lemma grows_trans x y z : grows x y -> grows y z -> grows x z.
  Proof.
    intros (s & l & h & hs & ->) (s' & l' & h' & hs' & ->). exists s', l', h', (hs ++ hs'). destruct x.
    unfold with_hooks. cbn. rewrite !app_assoc. reflexivity.
  Qed.
  Lemma slh_grows x x' : slh x x' -> grows x x'.
  Proof. intros (s & l & h & ->). exists s, l, h, []. destruct x. unfold with_hooks. cbn. rewrite !app_nil_r. reflexivity. Qed.
  Lemma register_tensor_hook_grows u h x x' o : register_tensor_hook u h x = (x', o) -> grows x x'.
  Proof.
    unfold register_tensor_hook. destruct (u_req u); intros [= <- _]; [|apply grows_refl].
    exists (x_state x), (x_log x), (x_heap x), [h]. destruct x; reflexivity.
  Qed.
  Lemma grad_hook_grows m n ins out x x' o : grad_hook m n ins out x = (x', o) -> grows x x'.
  Proof.
    unfold grad_hook. destruct ins as [|i [|i' r]]; try (intros [= <- _]; apply grows_refl).
    destruct out; try (intros [= <- _]; apply grows_refl). apply register_tensor_hook_grows.
  Qed.
  Lemma watch_activation_grows ts x x' o : watch_activation eigh ts x = (x', o) -> grows x x'.
  Proof.
    unfold watch_activation, register_all_tensor_hooks. apply (seach_rel grows grows_refl grows_trans). intros p y y' o' _.
    apply (sbind_rel grows grows_trans).
    - intros z o1 E. apply slh_grows. exact (plugins_slh _ _ _ _ _ _ _ _ E).
    - intros [] z z' o1. apply (sbind_rel grows grows_trans).
      + intros w o2 [= <- _]. apply grows_refl.
      + intros a w w' o2. apply register_tensor_hook_grows.
  Qed.
  Lemma heap_slh x h : slh x (with_heap x h).
  Proof. exists (x_state x), (x_log x), h. destruct x; reflexivity. Qed.

  (** [run_ev] may also record a call *)
  Definition call_grows (x x' : lx) : Prop := exists c, grows (with_calls x c) x'.
  Lemma grows_calls x y c : grows x y -> grows (with_calls x c) (with_calls y c).
  Proof. intros (s & l & h & hs & ->). exists s, l, h, hs. destruct x; reflexivity. Qed.
  Lemma call_grows_trans x y z : call_grows x y -> call_grows y z -> call_grows x z.
  Proof.
    intros (c & H1) (c' & H2). exists c'. apply (grows_trans _ (with_calls y c')); [|exact H2].
    assert (E : with_calls x c' = with_calls (with_calls x c) c') by (destruct x; reflexivity). rewrite E. apply grows_calls. exact H1.
  Qed.
  Lemma grows_call x x' : grows x x' -> call_grows x x'.
  Proof. intros HG. exists (x_calls x). destruct x. exact HG. Qed.
  Lemma call_grows_refl x : call_grows x x.
  Proof. apply grows_call, grows_refl. Qed.
  Lemma run_ev_grows e x x' o : run_ev e x = (x', o) -> call_grows x x'.
  Proof.
    destruct e as [t u|c m ins out gm|t g|c gs|e]; cbn [run_ev ModelLogger.run_ev].
    - intros [= <- _]. apply grows_call, slh_grows, heap_slh.
    - apply (sbind_rel call_grows call_grows_trans).
      + intros y o' [= <- _]. exists (dset c (back_of m (x_reg x)) (x_calls x)). apply grows_refl.
      + intros [] y y' o' E. apply grows_call. revert E. apply (sbind_rel grows grows_trans).
        * intros z o1 [= <- _]. apply grows_refl.
        * intros z0 z z' o1. apply (sbind_rel grows grows_trans).
          -- intros w o2. apply (seach_rel grows grows_refl grows_trans). intros n v v' o3 _ E.
             apply slh_grows. exact (forward_hook_slh _ _ _ _ _ _ _ E).
          -- intros [] w w' o2. destruct out as [t u| |e].
             ++ apply (sbind_rel grows grows_trans).
                ** intros v o3 [= <- _]. apply slh_grows, heap_slh.
                ** intros [] v v' o3. apply (sbind_rel grows grows_trans).
                   { intros v1 o4 [= <- _]. apply grows_refl. }
                   { intros v0 v1 v2 o4. apply (seach_rel grows grows_refl grows_trans). intros n y1 y2 o5 _. apply grad_hook_grows. }
             ++ apply (sbind_rel grows grows_trans).
                { intros v1 o4 [= <- _]. apply grows_refl. }
                { intros v0 v1 v2 o4. apply (seach_rel grows grows_refl grows_trans). intros n y1 y2 o5 _. apply grad_hook_grows. }
             ++ intros [= <- _]. apply grows_refl.
    - intros E. apply grows_call. revert E. apply (sbind_rel grows grows_trans).
      + intros y o' [= <- _]. apply grows_refl.
      + intros z y y' o'. apply (seach_rel grows grows_refl grows_trans). intros h v v' o3 _ E. apply slh_grows. revert E.
        destruct h; try (intros [= <- _]; apply slh_refl).
        * apply grad_tensor_hook_slh.
        * apply plugins_slh.
    - intros E. apply grows_call. revert E. apply (sbind_rel grows grows_trans).
      + intros y o' [= <- _]. apply grows_refl.
      + intros z y y' o'. apply (seach_rel grows grows_refl grows_trans). intros h v v' o3 _ E. apply slh_grows. revert E.
        destruct h; try (intros [= <- _]; apply slh_refl). apply backward_hook_slh.
    - intros [= <- _]. apply call_grows_refl.
  Qed.
  Lemma run_evs_grows es x x' o : run_evs es x = (x', o) -> call_grows x x'.
  Proof. apply (seach_rel call_grows call_grows_refl call_grows_trans). intros e y y' o' _. apply run_ev_grows. Qed.

  (** ---- update ---- *)
  (** statistics, buffer and directory *)
  Definition stores (x x' : lx) : Prop := exists s sv d vs, x' = with_views (with_store (with_state x s) sv d (x_disk x)) vs.
  Lemma stores_refl x : stores x x.
  Proof. exists (x_state x), (x_saver x), (x_dir x), (x_views x). destruct x; reflexivity. Qed.
  Lemma stores_trans x y z : stores x y -> stores y z -> stores x z.
  Proof. intros (s & sv & d & vs & ->) (s' & sv' & d' & vs' & ->). exists s', sv', d', vs'. destruct x; reflexivity. Qed.
  Lemma only_state_stores x x' : only_state x x' -> stores x x'.
  Proof. intros ->. exists (x_state x'), (x_saver x), (x_dir x), (x_views x). destruct x; reflexivity. Qed.
  Lemma run_plugin_none p mo m t x x' o : run_plugin p mo m t None x = (x', o) -> only_state x x'.
  Proof.
    destruct p; intros E; try exact (on_state_only _ _ _ _ E). injection E as <- _. apply only_state_refl.
  Qed.
  Definition grad_stats (ps : list plugin) : SM lx unit :=
    seach (fun p => let! x := sget in seach (fun m => run_plugin p None m "grad" None) (dkeys (x_log x))) ps.
  Lemma grad_stats_state ps x x' o : grad_stats ps x = (x', o) -> only_state x x'.
  Proof.
    apply (seach_rel only_state only_state_refl only_state_trans). intros p y y' o' _.
    apply (sbind_rel only_state only_state_trans).
    - intros z o1 [= <- _]. apply only_state_refl.
    - intros a z z' o1. apply (seach_rel only_state only_state_refl only_state_trans). intros m v v' o2 _. apply run_plugin_none.
  Qed.
  Lemma update_eq sv x : update sv x = (grad_stats (skipn 1 (o_grad (x_opt x))) ;; (if sv then lx_save_log enc else sret tt)) x.
  Proof. reflexivity. Qed.
  Lemma update_nosave x x' o : update false x = (x', o) -> only_state x x'.
  Proof.
    rewrite update_eq. apply (sbind_rel only_state only_state_trans).
    - intros y o'. apply grad_stats_state.
    - intros [] y y' o' [= <- _]. apply only_state_refl.
  Qed.
  Lemma lx_save_log_stores x x' o : lx_save_log enc x = (x', o) -> stores x x'.
  Proof.
    unfold lx_save_log. destruct (x_ids x); [|intros [= <- _]; apply stores_refl].
    destruct (save_log _ _ _ _) as [[d' s'] r]. intros [= <- _]. eexists (x_state x), s', d', _. destruct x; reflexivity.
  Qed.
  Lemma update_stores sv x x' o : update sv x = (x', o) -> stores x x'.
  Proof.
    rewrite update_eq. apply (sbind_rel stores stores_trans).
    - intros y o' E. apply only_state_stores. exact (grad_stats_state _ _ _ _ E).
    - intros [] y y' o'. destruct sv; [apply lx_save_log_stores|]. intros [= <- _]. apply stores_refl.
  Qed.

  (** ---- the invariant ---- *)
  Definition is_pre (h : hook) : bool := match h with HPre _ _ => true | _ => false end.
  Definition is_back (h : hook) : bool := match h with HBack _ _ => true | _ => false end.
  Definition inv (x : lx) : Prop :=
    Permutation (x_reg x) (x_fh x ++ x_bh x ++ x_gh x ++ x_th x) /\
    (forall m, In m (x_mods x) -> exists n, dget m (x_names x) = Some n).
  Lemma inv_grows x x' : grows x x' -> inv x -> inv x'.
  Proof.
    intros (s & l & h & hs & ->) [HP HN]. split; [|exact HN]. cbn.
    rewrite !app_assoc in *. apply Permutation_app_tail. exact HP.
  Qed.
  Lemma inv_call_grows x x' : call_grows x x' -> inv x -> inv x'.
  Proof. intros (c & HG) HI. apply (inv_grows _ _ HG). exact HI. Qed.
  Lemma inv_stores x x' : stores x x' -> inv x -> inv x'.
  Proof. intros (s & sv & d & vs & ->) HI. exact HI. Qed.

  Lemma register_all_run (x : lx) :
    (forall m, In m (x_mods x) -> exists n, dget m (x_names x) = Some n) ->
    register_all_module_hooks x =
    (with_hooks x (x_fh x ++ map (fun m => HPre m (name_of (x_names x) m)) (x_mods x))
                  (x_bh x ++ map (fun m => HBack m (name_of (x_names x) m)) (x_mods x))
                  (x_gh x ++ map (fun m => HFwd m (name_of (x_names x) m)) (x_mods x))
                  (x_th x) (x_reg x ++ installed x), Ok tt).
  Proof.
    unfold register_all_module_hooks, installed. rewrite (sbind_run _ _ x x x) by reflexivity.
    generalize (x_mods x). intros ms.
    assert (Main : forall ms (y : lx), x_names y = x_names x -> (forall m, In m ms -> exists n, dget m (x_names x) = Some n) ->
      seach (fun m (x0 : lx) => match dget m (x_names x0) with
        | None => (x0, Err KeyError)
        | Some n => (with_hooks x0 (x_fh x0 ++ [HPre m n]) (x_bh x0 ++ [HBack m n]) (x_gh x0 ++ [HFwd m n]) (x_th x0)
                     (x_reg x0 ++ [HPre m n; HBack m n; HFwd m n]), Ok tt) end) ms y =
      (with_hooks y (x_fh y ++ map (fun m => HPre m (name_of (x_names x) m)) ms)
                  (x_bh y ++ map (fun m => HBack m (name_of (x_names x) m)) ms)
                  (x_gh y ++ map (fun m => HFwd m (name_of (x_names x) m)) ms)
                  (x_th y) (x_reg y ++ concat (map (fun m => hook_triple (m, name_of (x_names x) m)) ms)), Ok tt)).
    { clear ms. induction ms as [|m ms IH]; intros y Ey HN.
      - cbn. rewrite !app_nil_r. destruct y; reflexivity.
      - cbn [seach]. destruct (HN m (or_introl eq_refl)) as [n En].
        erewrite sbind_run by (rewrite Ey, En; reflexivity).
        rewrite IH; [|exact Ey|intros m' Hm'; apply HN; right; exact Hm'].
        assert (name_of (x_names x) m = n) as <- by (unfold name_of; rewrite En; reflexivity).
        destruct y. unfold with_hooks. cbn. rewrite <- !app_assoc. reflexivity. }
    intros HN. rewrite (Main ms x eq_refl HN). reflexivity.
  Qed.
  Lemma clear_hooks_run x : inv x -> clear_hooks x = (with_hooks x [] [] [] [] [], Ok tt).
  Proof. intros [HP _]. unfold clear_hooks. rewrite hooks_remove_all; [reflexivity|exact HP]. Qed.
  (** entering a context: exactly one set of hooks per watch *)
  Definition entered (x : lx) : lx :=
    with_hooks x (map (fun m => HPre m (name_of (x_names x) m)) (x_mods x))
                 (map (fun m => HBack m (name_of (x_names x) m)) (x_mods x))
                 (map (fun m => HFwd m (name_of (x_names x) m)) (x_mods x)) [] (installed x).
  Lemma lx_enter_run x : inv x -> lx_enter x = (entered x, Ok tt).
  Proof.
    intros HI. unfold lx_enter, logger_clear.
    erewrite sbind_run; [|erewrite sbind_run by (apply clear_hooks_run; exact HI);
      erewrite sbind_run by reflexivity; reflexivity].
    rewrite register_all_run; [|exact (proj2 HI)]. reflexivity.
  Qed.
  Lemma lx_start_run ids mask x : inv x -> lx_start ids mask x = (entered (with_batch (detach x) (Some ids) mask []), Ok tt).
  Proof.
    intros HI. unfold lx_start. unfold binfo_clear. erewrite sbind_run by reflexivity. erewrite sbind_run by reflexivity.
    change (with_batch (with_batch (detach x) None None []) (Some ids) mask (x_log (with_batch (detach x) None None [])))
      with (with_batch (detach x) (Some ids) mask []).
    assert (HI' : inv (with_batch (detach x) (Some ids) mask [])) by exact HI.
    exact (lx_enter_run _ HI').
  Qed.
  Lemma installed_perm (x : lx) :
    Permutation (installed x) (map (fun m => HPre m (name_of (x_names x) m)) (x_mods x) ++
       map (fun m => HBack m (name_of (x_names x) m)) (x_mods x) ++ map (fun m => HFwd m (name_of (x_names x) m)) (x_mods x) ++ []).
  Proof.
    unfold installed. rewrite app_nil_r. induction (x_mods x) as [|m ms IH]; [apply Permutation_refl|]. cbn [map concat hook_triple app fst snd].
    apply perm_skip. apply (Permutation_trans (perm_skip _ (perm_skip _ IH))).
    match goal with |- Permutation (?a :: ?b :: ?p ++ ?q ++ ?r) _ => 
      apply (Permutation_trans (l' := p ++ a :: b :: q ++ r)) end.
    - apply (Permutation_trans (perm_skip _ (Permutation_middle _ _ _))). apply Permutation_middle.
    - apply Permutation_app_head. apply perm_skip. apply Permutation_middle.
  Qed.
  Lemma inv_entered x : inv x -> inv (entered x).
  Proof. intros [_ HN]. split; [exact (installed_perm x)|exact HN]. Qed.

  Lemma add_modules_run (ms : list (string * mid)) (x : lx) :
    seach (fun p => add_module (fst p) (snd p)) ms x =
    (with_mods x (x_mods x ++ map snd ms) (fold_left (fun d p => dset (snd p) (fst p) d) ms (x_names x)), Ok tt).
  Proof.
    revert x. induction ms as [|[n m] ms IH]; intros x; cbn [seach map fold_left fst snd].
    - rewrite app_nil_r. destruct x; reflexivity.
    - erewrite sbind_run by reflexivity. rewrite IH. cbn [x_mods x_names with_mods]. rewrite <- app_assoc. destruct x; reflexivity.
  Qed.
  Lemma fold_names_keeps (ms : list (string * mid)) d m :
    (exists n, dget m d = Some n) -> exists n, dget m (fold_left (fun d p => dset (snd p) (fst p) d) ms d) = Some n.
  Proof.
    revert d. induction ms as [|[n' m'] ms IH]; intros d HD; cbn [fold_left fst snd]; [exact HD|].
    apply IH. rewrite dget_dset. destruct (eqb m m'); eauto.
  Qed.
  Lemma fold_names_in (ms : list (string * mid)) d m :
    In m (map snd ms) -> exists n, dget m (fold_left (fun d p => dset (snd p) (fst p) d) ms d) = Some n.
  Proof.
    revert d. induction ms as [|[n' m'] ms IH]; intros d HI; cbn [fold_left fst snd map In] in *; [contradiction|].
    destruct HI as [E|HI]; [|apply IH; exact HI]. apply fold_names_keeps. rewrite dget_dset, E, eqb_refl. eauto.
  Qed.
  (** what [watch] may change besides the module lists *)
  Definition watched (ms : list (string * mid)) (x x' : lx) : Prop :=
    exists s sv, x' = with_store (with_state (with_mods x (x_mods x ++ map snd ms) (fold_left (fun d p => dset (snd p) (fst p) d) ms (x_names x))) s) sv (x_dir x) (x_disk x).
  Lemma watch_watched ms x x' o : watch wsize ms x = (x', o) -> watched ms x x'.
  Proof.
    unfold watch. rewrite (sbind_run _ _ _ _ _ (add_modules_run ms x)).
    set (y := with_mods x _ _). rewrite (sbind_run _ _ y y y) by reflexivity. cbv zeta.
    destruct (map (fun p : mid * string => wsize (fst p)) (x_names y)) as [|d ds] eqn:Ed.
    - intros E. assert (E' : y = x') by (exact (f_equal fst E)). subst x' y. exists (x_state x), (x_saver x). destruct x; reflexivity.
    - unfold sbind at 1. destruct ((set_state _ _ _ ;; set_state _ _ _) (x_state y)) as [s' [u|e]].
      + intros E. apply (f_equal fst) in E. change (fst (x', o)) with x' in E. subst x'. change (x_shared (with_state y s')) with (x_shared y). destruct (x_shared y) eqn:Sh; [eexists s', _|exists s', (x_saver x)]; subst y; destruct x; reflexivity.
      + intros [= <- _]. exists s', (x_saver x). subst y. destruct x; reflexivity.
  Qed.
  Lemma inv_watched ms x x' : watched ms x x' -> inv x -> inv x'.
  Proof.
    intros (s & sv & ->) [HP HN]. split; [exact HP|]. cbn. intros m HI. apply in_app_iff in HI as [HI|HI].
    - apply fold_names_keeps. exact (HN m HI).
    - apply fold_names_in. exact HI.
  Qed.
  Lemma lx_clear_run x x' : inv x -> lx_clear x = (x', Ok tt) ->
    exists s, state_clear (x_state x) = (s, Ok tt) /\
      x' = with_views (with_store (with_mods (with_hooks (with_state x s) [] [] [] [] []) [] []) (buffer_clear (x_saver x)) (x_dir x) (x_disk x)) [].
  Proof.
    intros HI E. unfold lx_clear in E. apply sbind_ok in E as (y & [] & E1 & E2).
    destruct (state_clear (x_state x)) as [s o] eqn:Es. injection E1 as <- ->. exists s. split; [reflexivity|].
    unfold logger_clear in E2. rewrite (sbind_run _ _ _ _ _ (clear_hooks_run (with_state x s) HI)) in E2.
    cbv [sbind] in E2. injection E2 as <-. destruct x; reflexivity.
  Qed.
  Lemma inv_clear x x' o : inv x -> lx_clear x = (x', o) -> inv x'.
  Proof.
    intros HI E. destruct o as [[]|e].
    - destruct (lx_clear_run x x' HI E) as (s & _ & ->). split; [constructor|intros m []].
    - unfold lx_clear in E. unfold sbind at 1 in E. destruct (state_clear (x_state x)) as [s [[]|e']].
      + unfold logger_clear in E. rewrite (sbind_run _ _ _ _ _ (clear_hooks_run (with_state x s) HI)) in E. discriminate E.
      + injection E as <- _. exact HI.
  Qed.
  Lemma run_op_inv o x : inv x -> inv (fst (run_op o x)).
  Proof.
    intros HI. destruct (run_op o x) as [x' r] eqn:E. cbn [fst]. destruct o; cbn [run_op ModelLogger.run_op] in E.
    - exact (inv_watched _ _ _ (watch_watched _ _ _ _ E) HI).
    - exact (inv_grows _ _ (watch_activation_grows _ _ _ _ E) HI).
    - injection E as <- _. exact HI.
    - rewrite lx_enter_run in E by exact HI. injection E as <- _. apply inv_entered. exact HI.
    - exact (inv_stores _ _ (update_stores _ _ _ _ E) HI).
    - rewrite lx_start_run in E by exact HI. injection E as <- _. apply inv_entered. exact HI.
    - exact (inv_stores _ _ (update_stores _ _ _ _ E) HI).
    - unfold lx_log, logger_log in E. rewrite (sbind_run _ _ _ _ _ (eq_refl (binfo_clear x))) in E.
      erewrite sbind_run in E by reflexivity. apply update_stores in E. refine (inv_stores _ _ E _). exact HI.
    - unfold lx_setup in E. destruct (opt_setup kw) as [[o1 kw1] r1]. injection E as <- _. exact HI.
    - injection E as <- _. exact HI.
    - injection E as <- _. exact HI.
    - exact (inv_clear _ _ _ HI E).
    - unfold lx_finalize in E. unfold sbind at 1 in E. destruct (finalize (x_disk x) (x_state x)) as [s' [dk|e]].
      + destruct (saver_finalize _ _) as [[d' sv] o1]. injection E as <- _. exact HI.
      + injection E as <- _. exact HI.
    - unfold lx_load, lx_load_from in E. destruct (load_state (x_disk x) (x_state x)) as [s' r1]. injection E as <- _. exact HI.
    - exact (inv_call_grows _ _ (run_ev_grows _ _ _ _ E) HI).
  Qed.
  Lemma inv_run_ops os x : inv x -> inv (run_ops os x).
  Proof. revert x. induction os as [|o os IH]; intros x HI; [exact HI|]. cbn. apply IH. apply run_op_inv. exact HI. Qed.
  Lemma inv_init w t off : inv (lx_init w t off).
  Proof. split; [constructor|intros m []]. Qed.
  Lemma reachable_inv x : reachable x -> inv x.
  Proof. intros (w & t & off & os & ->). apply inv_run_ops, inv_init. Qed.
End P.
