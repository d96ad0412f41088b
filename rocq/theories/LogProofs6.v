(** The logged gradients of a batch (C19, C20). *)
From Coq Require Import ZArith Permutation.
From Verif Require Import BcastProofs Py Field Tensor ModelGrad Monad ModelState ModelMmap ModelSaver ModelLogger SpecGrad SpecState SpecLogger LogProofs1 LogProofs2 LogProofs3 LogProofs4 StateProofs2.
Local Open Scope nat_scope.

Lemma concat_repeat_nil {A B} (f : A -> list B) l : (forall a, In a l -> f a = []) -> concat (map f l) = [].
Proof. induction l as [|a l IH]; intros Hf; [reflexivity|]. cbn. rewrite (Hf a (or_introl eq_refl)). apply IH. intros b Hb. apply Hf. right. exact Hb. Qed.

Section Hooks.
  Variable mods : list mid.
  Variable names : dict mid string.
  Let inst := concat (map (fun m => hook_triple (m, name_of names m)) mods).
  Definition grad_hooks (outs : list (tid * (mid * tid))) : list hook :=
    concat (map (fun p => repeat (HGradT (fst p) (fst (snd p)) (name_of names (fst (snd p))) (snd (snd p))) (times (fst (snd p)) mods)) outs).
  Lemma grad_hooks_app a b : grad_hooks (a ++ b) = grad_hooks a ++ grad_hooks b.
  Proof. unfold grad_hooks. rewrite map_app, concat_app. reflexivity. Qed.
  Lemma grad_hooks_in h outs : In h (grad_hooks outs) -> exists o m n i, h = HGradT o m n i.
  Proof.
    unfold grad_hooks. intros HI. apply in_concat in HI as (l & Hl & HI). apply in_map_iff in Hl as ([o [m i]] & <- & _).
    apply repeat_spec in HI. subst. eauto 10.
  Qed.
  Lemma times_cons m a l : times m (a :: l) = (if m =? a then 1 else 0) + times m l.
  Proof. unfold times. cbn. destruct (m =? a); reflexivity. Qed.
  Lemma pre_inst m outs : pre_of m (inst ++ grad_hooks outs) = repeat (name_of names m) (times m mods).
  Proof.
    unfold pre_of. rewrite map_app, concat_app.
    rewrite (concat_repeat_nil _ (grad_hooks outs)) by (intros h HI; apply grad_hooks_in in HI as (o & m' & n & i & ->); reflexivity).
    rewrite app_nil_r. unfold inst. clear inst. induction mods as [|a l IH]; [reflexivity|].
    rewrite times_cons. cbn [map concat hook_triple app fst snd]. destruct (Nat.eqb_spec m a) as [->|]; cbn [app plus repeat]; rewrite IH; reflexivity.
  Qed.
  Lemma fwd_inst m outs : fwd_of m (inst ++ grad_hooks outs) = repeat (name_of names m) (times m mods).
  Proof.
    unfold fwd_of. rewrite map_app, concat_app.
    rewrite (concat_repeat_nil _ (grad_hooks outs)) by (intros h HI; apply grad_hooks_in in HI as (o & m' & n & i & ->); reflexivity).
    rewrite app_nil_r. unfold inst. clear inst. induction mods as [|a l IH]; [reflexivity|].
    rewrite times_cons. cbn [map concat hook_triple app fst snd]. destruct (Nat.eqb_spec m a) as [->|]; cbn [app plus repeat]; rewrite IH; reflexivity.
  Qed.
  Lemma on_tensor_inst t outs : on_tensor t (inst ++ grad_hooks outs) = grad_hooks (filter (fun p => t =? fst p) outs).
  Proof.
    unfold on_tensor. rewrite filter_app. match goal with |- ?a ++ ?b = _ => assert (Ea : a = []) end.
    { unfold inst. clear inst. induction mods as [|a l IH]; [reflexivity|]. cbn. exact IH. }
    rewrite Ea. cbn [app]. clear Ea. induction outs as [|[o [m i]] r IH]; [reflexivity|].
    change (grad_hooks ((o, (m, i)) :: r)) with (repeat (HGradT o m (name_of names m) i) (times m mods) ++ grad_hooks r).
    rewrite filter_app, IH. cbn [filter fst]. 
    assert (Er : forall k, filter (fun h => match h with HGradT o' _ _ _ => t =? o' | HActT o' _ => t =? o' | _ => false end)
        (repeat (HGradT o m (name_of names m) i) k) = if t =? o then repeat (HGradT o m (name_of names m) i) k else []).
    { induction k as [|k IHk]; [destruct (t =? o); reflexivity|]. cbn [repeat filter]. rewrite IHk. destruct (t =? o); reflexivity. }
    rewrite Er. destruct (t =? o); reflexivity.
  Qed.
End Hooks.

Section P.
  Context {F : Type} `{OField F}.
  Add Field FfLP6 : f_theory.
  Notation tensor := (tensor F).
  Notation dten := (@dten F).
  Notation uten := (@uten F).
  Notation lx := (@lx F).
  Notation ev := (@ev F).
  Notation op := (@op F).
  Variable kind : mid -> mkind.
  Variable wsize : mid -> nat.
  Variable eigh : tensor -> res (tensor * tensor).
  Variable enc : dten -> array.
  Notation run_plugin := (run_plugin eigh).
  Notation run_ev := (run_ev kind eigh).
  Notation run_evs := (run_evs kind eigh).
  Notation reachable := (reachable kind wsize eigh enc).

  Lemma psg_twf (a b t : tensor) k : compute_per_sample_gradient a b k = Ok t -> twf t.
  Proof.
    unfold compute_per_sample_gradient. destruct k; try (intros E; discriminate E).
    - unfold psg_linear. destruct (einsum_outer b a) as [u|]; [|intros E; discriminate E]. cbn [bind]. unfold reduce_mid.
      destruct (shape u) as [|n r]; [intros E; discriminate E|]. destruct (rev r) as [|x [|y z]]; try (intros E; discriminate E).
      intros [= <-]. apply tgen_wf.
    - unfold psg_conv2d. destruct (shape a) as [|bsz r]; [intros E; discriminate E|].
      destruct (f_unfold a c) as [u|]; [|intros E; discriminate E]. cbn [bind].
      destruct (reshape_infer u _ _) as [u2|]; [|intros E; discriminate E]. cbn [bind].
      destruct (reshape_infer b _ _) as [b2|]; [|intros E; discriminate E]. cbn [bind].
      destruct (einsum_ijk_ilk b2 u2) as [g|] eqn:Eg; [|intros E; discriminate E]. cbn [bind].
      assert (HW : twf g).
      { unfold einsum_ijk_ilk in Eg. destruct (shape b2) as [|p1 [|p2 [|p3 [|]]]]; try discriminate Eg.
        destruct (shape u2) as [|q1 [|q2 [|q3 [|]]]]; try discriminate Eg. destruct (_ && _); [|discriminate Eg].
        injection Eg as <-. apply tgen_wf. }
      intros E. apply reshape_infer_inv in E as (_ & k & Ek & ->). unfold twf in *. cbn [shape data]. rewrite HW, Ek, prod_app. unfold prod. cbn [fold_right]. lia.
  Qed.

  (** the log after some gradients *)
  Definition of_name (n : string) (acc : list (string * tensor)) : list tensor := map snd (filter (fun p => String.eqb (fst p) n) acc).
  Definition glog (l : @blog F) (acc : list (string * tensor)) : Prop :=
    forall n, match of_name n acc with
              | [] => dget n l = None
              | ts => exists u, dget n l = Some [("grad"%string, Own u)] /\ sum_onto ts (snd (u_d u))
              end.
  Lemma of_name_app n a b : of_name n (a ++ b) = of_name n a ++ of_name n b.
  Proof. unfold of_name. rewrite filter_app, map_app. reflexivity. Qed.
  Lemma lsum_snoc (l : list F) a : lsum (l ++ [a]) = fadd (lsum l) a.
  Proof. induction l as [|b l IH]; [unfold lsum; cbn; ring|]. cbn [app]. unfold lsum in *. cbn [fold_right]. rewrite IH. ring. Qed.
  Lemma glog_put n d psg q lf (x x' : lx) acc : twf psg -> glog (x_log x) acc -> log_put n "grad" (Own (UT (d, psg) q lf)) x = (x', Ok tt) ->
    (exists l, x' = with_log x l) /\ glog (x_log x') (acc ++ [(n, psg)]).
  Proof.
    intros HW HG E. pose proof (HG n) as Hn. unfold log_put in E.
    destruct (of_name n acc) as [|t0 ts0] eqn:En.
    - rewrite Hn in E. cbn [dget] in E. injection E as <-. split; [eexists; reflexivity|].
      intros n'. rewrite of_name_app. cbn [x_log with_log with_batch]. unfold of_name at 2. cbn [filter fst].
      destruct (String.eqb_spec n n') as [<-|N].
      + rewrite En. cbn [app map snd]. exists (UT (d, psg) q lf). rewrite dget_dset_eq. split; [reflexivity|].
        exact (sum_onto_one psg HW).
      + cbn [map]. rewrite app_nil_r, dget_dset_neq by congruence. exact (HG n').
    - destruct Hn as (u & Ed & HS). rewrite Ed in E. cbn [dget] in E. rewrite eqb_refl in E. cbn [deref u_d] in E.
      destruct (u_d u) as [d0 t] eqn:Eu. cbn [snd] in HS.
      destruct (iadd_ (d0, t) (d, psg)) as [c|] eqn:Ea; [|discriminate E]. injection E as <-.
      split; [eexists; reflexivity|]. intros n'. rewrite of_name_app. cbn [x_log with_log with_batch]. unfold of_name at 2. cbn [filter fst].
      destruct (String.eqb_spec n n') as [<-|N].
      + rewrite En. cbn [app map snd]. eexists. rewrite dget_dset_eq. split; [reflexivity|].
        cbn [u_d snd]. exact (sum_onto_snoc (t0 :: ts0) _ _ _ _ _ ltac:(discriminate) HS HW Ea).
      + cbn [map]. rewrite app_nil_r, dget_dset_neq by congruence. exact (HG n').
  Qed.

  Lemma seach_state_keep {A} (f : A -> SM lx unit) o l (x x' : lx) r :
    (forall a y y' r', x_opt y = o -> f a y = (y', r') -> only_state y y') -> x_opt x = o -> seach f l x = (x', r) -> only_state x x'.
  Proof.
    intros Hf. revert x. induction l as [|a l IH]; intros x Eo E; cbn [seach] in E.
    - injection E as <- _. apply only_state_refl.
    - unfold sbind in E. destruct (f a x) as [y [u|e]] eqn:E1.
      + pose proof (Hf _ _ _ _ Eo E1) as HO. apply (only_state_trans _ _ _ HO). apply IH; [|exact E].
        rewrite HO. exact Eo.
      + injection E as <- _. exact (Hf _ _ _ _ Eo E1).
  Qed.

  Notation psg_is := (psg_is kind).
  Section Batch.
  Variable mods : list mid.
  Variable names : dict mid string.
  Variable o : opts.
  Variable rest : list plugin.
  Hypothesis Hgrad : o_grad o = PLog :: rest.
  Hypothesis Hfwd : ~ In PLog (o_forward o).
  Hypothesis Hbwd : ~ In PLog (o_backward o).
  Local Notation inst := (concat (map (fun m => hook_triple (m, name_of names m)) mods)).

  Lemma grad_hook_step m n i g (x x' : lx) acc : x_opt x = o -> glog (x_log x) acc ->
    grad_tensor_hook kind eigh m n i g x = (x', Ok tt) ->
    (exists l, x' = with_log x l) /\ exists t, psg_is (m, (mem_get (x_heap x) i, mem_get (x_heap x) g)) t /\ glog (x_log x') (acc ++ [(n, t)]).
  Proof.
    intros Eo HG E. unfold grad_tensor_hook in E. rewrite Eo, Hgrad in E. cbn [plugin_eqb firstn] in E.
    apply sbind_ok in E as (y & psg & E1 & E). unfold lift in E1. injection E1 as <- E1.
    destruct (dev_eqb _ _); [|discriminate E1].
    cbn [seach] in E. apply sbind_ok in E as (z & [] & E & E2). injection E2 as <-. cbn [ModelLogger.run_plugin] in E.
    pose proof (psg_twf _ _ _ _ E1) as HW. destruct (glog_put _ _ _ _ _ _ _ _ HW HG E) as [HL HG']. split; [exact HL|].
    exists psg. split; [exact E1|exact HG'].
  Qed.
  (** the arrivals of one delivered gradient *)
  Definition arrived (h : @heap F) (g : tid) (p : tid * (mid * tid)) : list (mid * (dten * dten)) :=
    repeat (fst (snd p), (mem_get h (snd (snd p)), mem_get h g)) (times (fst (snd p)) mods).
  Definition named (ds : list (mid * (dten * dten))) (acc : list (string * tensor)) : Prop :=
    Forall2 (fun d p => fst p = name_of names (fst d) /\ psg_is d (snd p)) ds acc.
  Lemma hooks_step g outs (x x' : lx) acc : x_opt x = o -> glog (x_log x) acc ->
    seach (fun h => match h with
                    | HGradT _ m n i => grad_tensor_hook kind eigh m n i g
                    | HActT _ n => tensor_backward_hook eigh n g
                    | _ => sret tt
                    end) (grad_hooks mods names outs) x = (x', Ok tt) ->
    (exists l, x' = with_log x l) /\
    exists acc', named (concat (map (arrived (x_heap x) g) outs)) acc' /\ glog (x_log x') (acc ++ acc').
  Proof.
    revert x acc. induction outs as [|[t [m i]] r IH]; intros x acc Eo HG E.
    - injection E as <-. split; [exists (x_log x); destruct x; reflexivity|]. exists []. rewrite app_nil_r. split; [constructor|exact HG].
    - change (grad_hooks mods names ((t, (m, i)) :: r)) with (repeat (HGradT t m (name_of names m) i) (times m mods) ++ grad_hooks mods names r) in E.
      rewrite seach_app in E. apply sbind_ok in E as (y & [] & E1 & E2).
      assert (Hrep : forall k x y acc, x_opt x = o -> glog (x_log x) acc ->
        seach (fun h => match h with
                    | HGradT _ m n i => grad_tensor_hook kind eigh m n i g
                    | HActT _ n => tensor_backward_hook eigh n g
                    | _ => sret tt
                    end) (repeat (HGradT t m (name_of names m) i) k) x = (y, Ok tt) ->
        (exists l, y = with_log x l) /\
        exists acc', named (repeat (m, (mem_get (x_heap x) i, mem_get (x_heap x) g)) k) acc' /\ glog (x_log y) (acc ++ acc')).
      { clear IH E1 E2 HG Eo x x' y acc. intros k. induction k as [|k IHk]; intros x y acc Eo HG E; cbn [repeat seach] in *.
        - injection E as <-. split; [exists (x_log x); destruct x; reflexivity|]. exists []. rewrite app_nil_r. split; [constructor|exact HG].
        - apply sbind_ok in E as (z & [] & E1 & E2). destruct (grad_hook_step _ _ _ _ _ _ _ Eo HG E1) as ((l & ->) & p & Hp & HG1).
          apply (IHk _ _ (acc ++ [(name_of names m, p)])) in E2; [|exact Eo|exact HG1]. destruct E2 as ((l' & ->) & acc' & HN & HG2).
          split; [exists l'; destruct x; reflexivity|]. exists ((name_of names m, p) :: acc'). rewrite <- app_assoc in HG2. split; [|exact HG2].
          constructor; [split; [reflexivity|exact Hp]|exact HN]. }
      destruct (Hrep _ _ _ _ Eo HG E1) as ((l & ->) & a1 & HN1 & HG1).
      destruct (IH (with_log x l) _ Eo HG1 E2) as ((l' & ->) & a2 & HN2 & HG2). split; [exists l'; destruct x; reflexivity|].
      exists (a1 ++ a2). rewrite <- app_assoc in HG2. split; [|exact HG2]. cbn [map concat]. apply Forall2_app; [exact HN1|exact HN2].
  Qed.
  (** registering tensor hooks *)
  Lemma register_steps m n i t u k (x x' : lx) : seach (fun n => grad_hook m n [i] (OutTensor t u)) (repeat n k) x = (x', Ok tt) ->
    x_reg x' = x_reg x ++ repeat (HGradT t m n i) k /\ x_opt x' = x_opt x /\ x_heap x' = x_heap x /\ x_log x' = x_log x.
  Proof.
    revert x. induction k as [|k IH]; intros x E; cbn [repeat seach] in E.
    - injection E as <-. cbn [repeat]. rewrite app_nil_r. auto.
    - apply sbind_ok in E as (y & [] & E1 & E2). unfold grad_hook, register_tensor_hook in E1. destruct (u_req u); [|discriminate E1].
      injection E1 as <-. apply IH in E2 as (-> & -> & -> & ->). cbn [repeat x_reg x_opt x_heap x_log with_hooks].
      rewrite <- app_assoc. auto.
  Qed.

  Definition binv (h : @heap F) (outs : list (tid * (mid * tid))) (acc : list (string * tensor)) (x : lx) : Prop :=
    x_opt x = o /\ x_reg x = inst ++ grad_hooks mods names outs /\ x_heap x = h /\ glog (x_log x) acc.
  Lemma binv_state h outs acc x x' : only_state x x' -> binv h outs acc x -> binv h outs acc x'.
  Proof. intros -> HB. exact HB. Qed.
  (** all arrivals of a delivery list, in order *)
  Definition arrive (ds : list (mid * (dten * dten))) : list (mid * (dten * dten)) := concat (map (fun d => repeat d (times (fst d) mods)) ds).
  Lemma arrive_app a b : arrive (a ++ b) = arrive a ++ arrive b.
  Proof. unfold arrive. rewrite map_app, concat_app. reflexivity. Qed.

  Lemma batch_run es : forall h outs acc (x x' : lx), binv h outs acc x -> run_evs es x = (x', Ok tt) ->
    exists acc', named (arrive (deliveries h outs es)) acc' /\ glog (x_log x') (acc ++ acc').
  Proof.
    induction es as [|e es IH]; intros h outs acc x x' HB E.
    - injection E as <-. exists []. rewrite app_nil_r. split; [constructor|apply HB].
    - unfold ModelLogger.run_evs in E. cbn [seach] in E. apply sbind_ok in E as (y & [] & E1 & E2).
      change (run_evs es y = (x', Ok tt)) in E2.
      destruct HB as (Eo & Er & Eh & HG).
      destruct e as [t u|c m ins out gm|t g|c gs|e]; cbn [ModelLogger.run_ev] in E1.
      + injection E1 as <-. cbn [deliveries]. refine (IH _ outs acc _ _ _ E2).
        repeat split; try assumption. cbn. rewrite Eh. reflexivity.
      + erewrite sbind_run in E1 by reflexivity. rewrite (sbind_run sget _ _ _ _ eq_refl) in E1.
        set (cl := dset c _ _) in E1. cbn [x_reg with_calls] in E1. rewrite Er, pre_inst in E1. apply sbind_ok in E1 as (z & [] & E1 & E3).
        assert (HZ : binv h outs acc z).
        { apply (binv_state _ _ _ (with_calls x (dset c (back_of m (x_reg x)) (x_calls x)))).
          - revert E1. apply (seach_state_keep (fun n => forward_hook kind eigh gm m n ins) o); [|exact Eo].
            intros n a b r Ha Ef. refine (forward_hook_state _ _ _ _ _ _ _ _ _ _ Ef). rewrite Ha. exact Hfwd.
          - repeat split; assumption. }
        clear E1. destruct HZ as (Eo' & Er' & Eh' & HG').
        destruct out as [t u| |e].
        * erewrite sbind_run in E3 by reflexivity. rewrite (sbind_run sget _ _ _ _ eq_refl) in E3. cbn [x_reg with_heap] in E3.
          rewrite Er', fwd_inst in E3.
          destruct ins as [|i [|i' r]].
          -- cbn [deliveries]. destruct (times m mods) as [|k]; [|cbn [repeat seach] in E3; discriminate E3]. injection E3 as <-.
             refine (IH _ outs acc _ _ _ E2). repeat split; try assumption. cbn. rewrite Eh'. reflexivity.
          -- cbn [deliveries]. apply register_steps in E3 as (Rr & Ro & Rh & Rl). cbn [x_reg x_opt x_heap x_log with_heap] in Rr, Ro, Rh, Rl.
             refine (IH (dset t u h) (outs ++ [(t, (m, i))]) acc _ _ _ E2).
             repeat split; try congruence.
             ++ rewrite Rr, Er', grad_hooks_app, app_assoc. unfold grad_hooks at 3. cbn [map concat fst snd]. rewrite app_nil_r. reflexivity.
             ++ rewrite Rl. exact HG'.
          -- cbn [deliveries]. destruct (times m mods) as [|k]; [|cbn [repeat seach] in E3; discriminate E3]. injection E3 as <-.
             refine (IH _ outs acc _ _ _ E2). repeat split; try assumption. cbn. rewrite Eh'. reflexivity.
        * rewrite (sbind_run sget _ _ _ _ eq_refl) in E3. rewrite Er', fwd_inst in E3.
          replace (deliveries h outs (MCall c m ins OutOther gm :: es)) with (deliveries h outs es) by (destruct ins as [|i [|i' r]]; reflexivity).
          destruct (times m mods) as [|k]; [|cbn [repeat seach] in E3; destruct ins as [|i [|i' r]]; discriminate E3]. injection E3 as <-.
          refine (IH _ outs acc _ _ _ E2). repeat split; assumption.
        * discriminate E3.
      + rewrite (sbind_run sget _ _ _ _ eq_refl) in E1. rewrite Er, on_tensor_inst in E1.
        destruct (hooks_step _ _ _ _ _ Eo HG E1) as ((l & ->) & a1 & HN1 & HG1).
        assert (HB1 : binv h outs (acc ++ a1) (with_log x l)) by (repeat split; assumption).
        destruct (IH h outs (acc ++ a1) _ _ HB1 E2) as (a2 & HN2 & HG2).
        exists (a1 ++ a2). rewrite <- app_assoc in HG2. split; [|exact HG2]. cbn [deliveries]. rewrite arrive_app.
        apply Forall2_app; [|exact HN2]. unfold arrive. rewrite map_map. rewrite Eh in HN1. exact HN1.
      + rewrite (sbind_run sget _ _ _ _ eq_refl) in E1. cbn [deliveries].
        refine (IH h outs acc _ _ _ E2). apply (binv_state _ _ _ x); [|repeat split; assumption].
        revert E1. apply (seach_state_keep (fun h => match h with HBack m n => backward_hook kind eigh m n gs | _ => sret tt end) o); [|exact Eo].
        intros k a b r Ha Ef. destruct k; try (injection Ef as <- _; apply only_state_refl).
        refine (backward_hook_state _ _ _ _ _ _ _ _ _ Ef). rewrite Ha. exact Hbwd.
      + discriminate E1.
  Qed.
  End Batch.

  (** ---- C19, C20 ---- *)
  Lemma named_arrivals mods names ds acc n : named names (arrive mods ds) acc ->
    Forall2 psg_is (arrivals mods names n ds) (of_name n acc).
  Proof.
    revert acc. induction ds as [|d ds IH]; intros acc HN.
    - inversion HN. constructor.
    - unfold arrive in HN. cbn [map concat] in HN. apply Forall2_app_inv_l in HN as (a1 & a2 & H1 & H2 & ->).
      unfold arrivals. cbn [map concat]. rewrite of_name_app. apply Forall2_app; [|apply IH; exact H2]. clear IH H2.
      unfold concerns. revert a1 H1. generalize (times (fst d) mods). intros k. induction k as [|k IHk]; intros a1 H1; inversion H1 as [|? p ? a' [Ep Hp] Hr]; subst; cbn [repeat].
      + destruct (String.eqb _ _); constructor.
      + unfold of_name. cbn [filter]. rewrite Ep. specialize (IHk _ Hr). destruct (String.eqb _ _).
        * cbn [map]. constructor; [exact Hp|exact IHk].
        * exact IHk.
  Qed.
  Lemma begins_fresh ids mask (x x1 : lx) : reachable x -> begins ids mask x x1 ->
    x_log x1 = [] /\ x_ids x1 = Some ids /\ x_mask x1 = mask /\ x_reg x1 = installed x /\ x_th x1 = [] /\ x_state x1 = x_state x /\
    x_opt x1 = x_opt x /\ x_mods x1 = x_mods x /\ x_names x1 = x_names x /\ x_heap x1 = x_heap x /\ x_offload x1 = x_offload x.
  Proof.
    intros HR HB. pose proof (reachable_inv _ _ _ _ _ HR) as HI. destruct HB as [E|(save & E)].
    - rewrite (lx_start_run _ _ _ HI) in E. injection E as <-. repeat split.
    - unfold lx_call, binfo_clear in E. erewrite sbind_run in E; [|erewrite sbind_run by reflexivity; reflexivity].
      rewrite lx_enter_run in E; [|exact HI]. injection E as <-. repeat split.
  Qed.
  Lemma batch_gradients ids mask es (x x1 x2 : lx) rest n : reachable x -> begins ids mask x x1 ->
    o_grad (x_opt x) = PLog :: rest -> ~ In PLog (o_forward (x_opt x)) -> ~ In PLog (o_backward (x_opt x)) ->
    run_evs es x1 = (x2, Ok tt) ->
    exists ts, Forall2 psg_is (arrivals (x_mods x) (x_names x) n (deliveries (x_heap x) [] es)) ts /\
      match ts with
      | [] => logged x2 n "grad" = None
      | _ => exists G, logged x2 n "grad" = Some G /\ sum_onto ts G
      end.
  Proof.
    intros HR Es Hg Hf Hb E. destruct (begins_fresh _ _ _ _ HR Es) as (El & _ & _ & Er & _ & _ & Eo & _ & _ & Eh & _).
    assert (HB : binv (x_mods x) (x_names x) (x_opt x) (x_heap x) [] [] x1).
    { repeat split; try assumption.
      - rewrite Er. unfold grad_hooks. cbn [map concat]. rewrite app_nil_r. reflexivity.
      - intros n'. cbn. rewrite El. reflexivity. }
    destruct (batch_run (x_mods x) (x_names x) (x_opt x) rest Hg Hf Hb es _ _ _ _ _ HB E) as (acc & HN & HG).
    exists (of_name n acc). split; [exact (named_arrivals _ _ _ _ _ HN)|]. specialize (HG n). cbn [app] in HG. unfold logged.
    destruct (of_name n acc) as [|t ts]; [rewrite HG; reflexivity|]. destruct HG as (u & -> & HS). cbn [dget]. rewrite eqb_refl.
    eexists. split; [reflexivity|exact HS].
  Qed.

  (** any order of arrival *)
  Lemma Forall2_perm {A B} (R : A -> B -> Prop) l l' t t' : (forall a b b', R a b -> R a b' -> b = b') ->
    Permutation l l' -> Forall2 R l t -> Forall2 R l' t' -> Permutation t t'.
  Proof.
    intros Hfun HP. revert t t'. induction HP as [|x l l' HP IH|x y l|l l' l'' HP1 IH1 HP2 IH2]; intros t t' H1 H2.
    - inversion H1; inversion H2; subst. constructor.
    - inversion H1 as [|? a ? r Ha Hr]; inversion H2 as [|? a' ? r' Ha' Hr']; subst. rewrite (Hfun _ _ _ Ha Ha'). constructor. auto.
    - inversion H1 as [|? a ? r Ha Hr]; inversion H2 as [|? a' ? r' Ha' Hr']; subst.
      inversion Hr as [|? b ? q Hb Hq]; inversion Hr' as [|? b' ? q' Hb' Hq']; subst.
      rewrite (Hfun _ _ _ Ha Hb'), (Hfun _ _ _ Hb Ha').
      assert (Eq : q = q'). { clear -Hfun Hq Hq'. revert q' Hq'. induction Hq as [|u v l' q Huv Hq IH]; intros q' Hq'; inversion Hq'; subst; [reflexivity|]. f_equal; eauto. }
      subst. apply perm_swap.
    - assert (exists t1, Forall2 R l' t1) as (t1 & H3).
      { clear -HP1 H1. revert t H1. induction HP1; intros t H1.
        - exists []. constructor.
        - inversion H1; subst. destruct (IHHP1 _ H4) as (u & Hu). eexists. constructor; eassumption.
        - inversion H1 as [|? ? ? ? Ha Hr]; subst. inversion Hr; subst. eexists. repeat (constructor; try eassumption).
        - destruct (IHHP1_1 _ H1) as (u & Hu). exact (IHHP1_2 _ Hu). }
      exact (Permutation_trans (IH1 _ _ H1 H3) (IH2 _ _ H3 H2)).
  Qed.
  Lemma lsum_perm (l l' : list F) : Permutation l l' -> lsum l = lsum l'.
  Proof. intros HP. induction HP; unfold lsum in *; cbn [fold_right]; [reflexivity|rewrite IHHP; reflexivity|ring|congruence]. Qed.
  Lemma arrivals_perm mods names n ds ds' : Permutation ds ds' -> Permutation (@arrivals F mods names n ds) (arrivals mods names n ds').
  Proof.
    intros HP. unfold arrivals. rewrite <- !flat_map_concat_map. apply Permutation_flat_map. exact HP.
  Qed.
  Lemma psg_fun a b b' : psg_is a b -> psg_is a b' -> b = b'.
  Proof. unfold SpecLogger.psg_is. congruence. Qed.
  Lemma gradients_any_order ids ids' mask mask' es es' (x x1 x1' x2 x2' : lx) rest n : reachable x -> begins ids mask x x1 -> begins ids' mask' x x1' ->
    o_grad (x_opt x) = PLog :: rest -> ~ In PLog (o_forward (x_opt x)) -> ~ In PLog (o_backward (x_opt x)) ->
    run_evs es x1 = (x2, Ok tt) -> run_evs es' x1' = (x2', Ok tt) ->
    Permutation (deliveries (x_heap x) [] es) (deliveries (x_heap x) [] es') -> logged x2 n "grad" = logged x2' n "grad".
  Proof.
    intros HR B1 B2 Hg Hf Hb E1 E2 HP.
    destruct (batch_gradients _ _ _ _ _ _ _ n HR B1 Hg Hf Hb E1) as (ts & HF & HL).
    destruct (batch_gradients _ _ _ _ _ _ _ n HR B2 Hg Hf Hb E2) as (ts' & HF' & HL').
    pose proof (Forall2_perm _ _ _ _ _ psg_fun (arrivals_perm (x_mods x) (x_names x) n _ _ HP) HF HF') as HT.
    destruct ts as [|t ts], ts' as [|t' ts'].
    - congruence.
    - apply Permutation_nil in HT. discriminate HT.
    - apply Permutation_sym, Permutation_nil in HT. discriminate HT.
    - destruct HL as (G & -> & HG). destruct HL' as (G' & -> & HG'). f_equal.
      exact (sum_onto_perm (t :: ts) _ _ _ ltac:(discriminate) HT HG HG').
  Qed.

  (** ---- C20 ---- *)
  Lemma times_app m a b : times m (a ++ b) = times m a + times m b.
  Proof. unfold times. rewrite filter_app, app_length. reflexivity. Qed.
  Lemma watch_again ms k (x : lx) : x_mods x = [] ->
    let x' := run_ops kind wsize eigh enc (repeat (XWatch ms) k) x in
    (forall m, times m (x_mods x') = k * times m (map snd ms)) /\ x_opt x' = x_opt x /\ x_heap x' = x_heap x.
  Proof.
    intros E0. cbv zeta. induction k as [|k IH].
    - cbn. rewrite E0. repeat split.
    - replace (repeat (XWatch ms) (S k)) with (repeat (@XWatch F ms) k ++ [XWatch ms]) by (symmetry; apply repeat_cons).
      unfold run_ops. rewrite fold_left_app. fold (run_ops kind wsize eigh enc (repeat (XWatch ms) k) x).
      destruct IH as (IH1 & IH2 & IH3). cbn [fold_left run_op]. destruct (watch wsize ms _) as [y r] eqn:E.
      apply watch_watched in E as (s & sv & ->). cbn [fst x_mods x_opt x_heap with_store with_state with_mods].
      split; [|split; [exact IH2|exact IH3]]. intros m. rewrite times_app, IH1. lia.
  Qed.
  (** every delivery counts [times] *)
  Lemma lsum_app (a b : list F) : lsum (a ++ b) = fadd (lsum a) (lsum b).
  Proof. induction a as [|x a IH]; [unfold lsum; cbn; ring|]. cbn [app]. unfold lsum in *. cbn [fold_right]. rewrite IH. ring. Qed.
  Lemma batch_multiples ids mask es (x x1 x2 : lx) rest n k : reachable x -> begins ids mask x x1 ->
    o_grad (x_opt x) = PLog :: rest -> ~ In PLog (o_forward (x_opt x)) -> ~ In PLog (o_backward (x_opt x)) ->
    run_evs es x1 = (x2, Ok tt) ->
    0 < k -> (forall d, In d (deliveries (x_heap x) [] es) -> name_of (x_names x) (fst d) = n -> times (fst d) (x_mods x) = k) ->
    exists ts, Forall2 psg_is (filter (fun d => String.eqb (name_of (x_names x) (fst d)) n) (deliveries (x_heap x) [] es)) ts /\
      match ts with
      | [] => logged x2 n "grad" = None
      | _ => exists G, logged x2 n "grad" = Some G /\ twf G /\ shape G = shape (hd G ts) /\ Forall (fun t => fits (shape t) (shape G)) ts /\
          forall idx, valid (shape G) idx -> tget G idx = fmul (fnat k) (lsum (map (fun t => tget t (entry_at (shape t) idx)) ts))
      end.
  Proof.
    intros HR HB Hg Hf Hb E Hk HT. destruct (batch_gradients _ _ _ _ _ _ _ n HR HB Hg Hf Hb E) as (ts & HF & HL).
    set (ds := deliveries _ _ _) in *. clearbody ds.
    assert (HX : exists us, Forall2 psg_is (filter (fun d => String.eqb (name_of (x_names x) (fst d)) n) ds) us /\ (us = [] <-> ts = []) /\
      (forall t, In t us -> In t ts) /\ (forall t0, hd t0 us = hd t0 ts) /\ forall v : tensor -> F, lsum (map v ts) = fmul (fnat k) (lsum (map v us))).
    { clear HL. revert ts HF. induction ds as [|d ds IH]; intros ts HF.
      - inversion HF; subst. exists []. repeat split; try constructor; auto. intros v. unfold lsum. cbn. ring.
      - unfold arrivals in HF. cbn [map concat] in HF. apply Forall2_app_inv_l in HF as (t1 & t2 & H1 & H2 & ->).
        destruct (IH ltac:(intros d' Hd'; apply HT; right; exact Hd') t2 H2) as (us & U1 & U2 & U3 & U5 & U4). cbn [filter].
        unfold concerns in H1. destruct (String.eqb_spec (name_of (x_names x) (fst d)) n) as [En|En].
        + rewrite (HT d (or_introl eq_refl) En) in H1.
          assert (Hrep : exists t, psg_is d t /\ t1 = repeat t k).
          { destruct k as [|k]; [lia|]. clear -H1. cbn [repeat] in H1. inversion H1 as [|? t ? r Ht Hr]; subst. exists t. split; [exact Ht|].
            cbn [repeat]. f_equal. clear H1. revert r Hr. induction k as [|k IH]; intros r Hr; inversion Hr as [|? t' ? r' Ht' Hr']; subst; [reflexivity|].
            cbn [repeat]. f_equal; [unfold SpecLogger.psg_is in *; congruence|apply IH; exact Hr']. }
          destruct Hrep as (t & Ht & ->). exists (t :: us). split; [constructor; assumption|]. split; [|split; [|split]].
          * split; intros X; [discriminate X|]. apply app_eq_nil in X as [X _]. destruct k; [lia|discriminate X].
          * intros v [<-|Hv]; apply in_or_app; [left; destruct k; [lia|left; reflexivity]|right; auto].
          * intros t0. destruct k; [lia|reflexivity].
          * intros v. rewrite map_app, lsum_app, U4. unfold lsum at 3. cbn [map fold_right]. fold (lsum (map v us)).
            assert (Er : lsum (map v (repeat t k)) = fmul (fnat k) (v t)).
            { clear. induction k as [|k IH]; [unfold lsum; cbn; ring|]. cbn [repeat map]. unfold lsum in *. cbn [fold_right fnat]. rewrite IH. cbn. ring. }
            rewrite Er. ring.
        + inversion H1; subst. cbn [app]. exists us. auto. }
    destruct HX as (us & U1 & U2 & U3 & U5 & U4). exists us. split; [exact U1|].
    destruct us as [|u us].
    - rewrite (proj1 U2 eq_refl) in HL. exact HL.
    - destruct ts as [|t ts]; [discriminate (proj2 U2 eq_refl)|]. destruct HL as (G & EG & HW & HH & HS & HV). exists G.
      split; [exact EG|]. split; [exact HW|]. split; [rewrite HH, U5; reflexivity|]. split.
      + apply Forall_forall. intros v Hv. rewrite Forall_forall in HS. apply HS. apply U3. exact Hv.
      + intros idx Hi. rewrite (HV idx Hi). apply (U4 (fun t => tget t (entry_at (shape t) idx))).
  Qed.
End P.
