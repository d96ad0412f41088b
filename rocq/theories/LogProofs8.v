(** What the hooks do to the statistics (C21, C63). *)
From Coq Require Import ZArith Permutation.
From Verif Require Import Py Field Tensor ModelGrad Monad ModelState ModelMmap ModelSaver ModelLogger SpecGrad SpecState SpecLogger LogProofs1 LogProofs3 LogProofs6.
Local Open Scope nat_scope.

Section P.
  Context {F : Type} `{OField F}.
  Notation tensor := (tensor F).
  Notation dten := (@dten F).
  Notation uten := (@uten F).
  Notation lx := (@lx F).
  Notation ev := (@ev F).
  Notation lstate := (@lstate F).
  Variable kind : mid -> mkind.
  Variable wsize : mid -> nat.
  Variable eigh : tensor -> res (tensor * tensor).
  Variable enc : dten -> array.
  Notation run_plugin := (run_plugin eigh).
  Notation run_ev := (run_ev kind eigh).
  Notation run_evs := (run_evs kind eigh).
  Notation reachable := (reachable kind wsize eigh enc).

  Lemma run_calls_app a b (s : lstate) : run_calls (a ++ b) s = (run_calls a ;; run_calls b) s.
  Proof. unfold run_calls. rewrite seach_app. reflexivity. Qed.
  Lemma run_calls_ok a b (s s1 s2 : lstate) : run_calls a s = (s1, Ok tt) -> run_calls b s1 = (s2, Ok tt) -> run_calls (a ++ b) s = (s2, Ok tt).
  Proof. intros E1 E2. rewrite run_calls_app. rewrite (sbind_run _ _ _ _ _ E1). exact E2. Qed.

  Section Batch.
  Variable mods : list mid.
  Variable names : dict mid string.
  Variable o : opts.
  Variable mask : option dten.
  Variable off : bool.
  Hypothesis HM : moments_only o.
  Local Notation inst := (concat (map (fun m => hook_triple (m, name_of names m)) mods)).
  Local Notation reaches := (reaches kind mods names mask off).
  Local Notation stat_calls := (stat_calls kind mods names o mask off).

  (** the statistics of one hook run *)
  Definition phase (m : mid) (ps : list plugin) (t : string) (d : dten) : list (@call F) :=
    map (fun st => Call st (BInfo (option_map snd mask) (Node [])) (Some (kind m)) (name_of names m) t (Some d) off) (concat (map stat_of ps)).
  Lemma plugins_calls ps m t r (x x' : lx) : (forall p, In p ps -> p = PMean \/ p = PCovariance) -> x_mask x = mask -> x_offload x = off ->
    seach (fun p => run_plugin p (Some (kind m)) (name_of names m) t (Some r)) ps x = (x', Ok tt) ->
    only_state x x' /\ run_calls (phase m ps t (u_d (deref (x_heap x) r))) (x_state x) = (x_state x', Ok tt).
  Proof.
    intros Hps. revert x. induction ps as [|p ps IH]; intros x Em Eo E; cbn [seach] in E.
    - injection E as <-. split; [apply only_state_refl|reflexivity].
    - apply sbind_ok in E as (y & [] & E1 & E2).
      assert (HO : only_state x y).
      { apply (run_plugin_state eigh p (Some (kind m)) (name_of names m) t (Some r) x y (Ok tt)); [|exact E1].
        destruct (Hps p (or_introl eq_refl)); subst; discriminate. }
      assert (Hy : x_mask y = mask /\ x_offload y = off /\ x_heap y = x_heap x) by (rewrite HO; auto). destruct Hy as (Hy1 & Hy2 & Hy3).
      destruct (IH ltac:(intros q Hq; apply Hps; right; exact Hq) y Hy1 Hy2 E2) as [HO2 HC]. split; [exact (only_state_trans _ _ _ HO HO2)|].
      rewrite Hy3 in HC.
      assert (E1' : exists st, stat_of p = [st] /\ do_call (Call st (BInfo (option_map snd mask) (Node [])) (Some (kind m)) (name_of names m) t (Some (u_d (deref (x_heap x) r))) off) (x_state x) = (x_state y, Ok tt)).
      { destruct (Hps p (or_introl eq_refl)) as [-> | ->]; cbn [ModelLogger.run_plugin] in E1; unfold on_state in E1; cbn [data_of] in E1; rewrite Eo in E1.
        - exists SMean. split; [reflexivity|]. unfold do_call. cbn [k_stat k_b k_mod k_m k_t k_data k_off].
          replace (mean_update (BInfo (option_map snd mask) (Node [])) (Some (kind m)) (name_of names m) t (Some (u_d (deref (x_heap x) r))) off (x_state x))
            with (mean_update (binfo_of x) (Some (kind m)) (name_of names m) t (Some (u_d (deref (x_heap x) r))) off (x_state x)).
          + destruct (mean_update _ _ _ _ _ _ _) as [s' q]. injection E1 as <- ->. reflexivity.
          + unfold mean_update, accumulate, binfo_of, count_of. rewrite Em. cbn [b_mask get_data]. destruct mask; reflexivity.
        - exists SCov. split; [reflexivity|]. unfold do_call. cbn [k_stat k_b k_mod k_m k_t k_data k_off].
          replace (covariance_update (BInfo (option_map snd mask) (Node [])) (Some (kind m)) (name_of names m) t (Some (u_d (deref (x_heap x) r))) off (x_state x))
            with (covariance_update (binfo_of x) (Some (kind m)) (name_of names m) t (Some (u_d (deref (x_heap x) r))) off (x_state x)).
          + destruct (covariance_update _ _ _ _ _ _ _) as [s' q]. injection E1 as <- ->. reflexivity.
          + unfold covariance_update, accumulate, binfo_of, count_of. rewrite Em. cbn [b_mask get_data]. destruct mask; reflexivity. }
      destruct E1' as (st & Est & E1'). unfold phase in *. cbn [map concat]. rewrite Est. cbn [app map].
      apply (run_calls_ok [_] _ _ (x_state y)); [|exact HC]. unfold run_calls. cbn [seach]. rewrite (sbind_run _ _ _ _ _ E1'). reflexivity.
  Qed.
  Lemma hooks_calls (f : SM lx unit) m ps t d k (x x' : lx) : x_opt x = o -> x_mask x = mask -> x_offload x = off ->
    (forall y y', only_state x y -> f y = (y', Ok tt) -> only_state y y' /\ run_calls (phase m ps t d) (x_state y) = (x_state y', Ok tt)) ->
    seach (fun _ : string => f) (repeat (name_of names m) k) x = (x', Ok tt) ->
    only_state x x' /\ run_calls (concat (repeat (phase m ps t d) k)) (x_state x) = (x_state x', Ok tt).
  Proof.
    intros Eo Em Ef Hf. assert (HX : forall y, only_state x y -> seach (fun _ : string => f) (repeat (name_of names m) k) y = (x', Ok tt) ->
      only_state y x' /\ run_calls (concat (repeat (phase m ps t d) k)) (x_state y) = (x_state x', Ok tt)).
    { induction k as [|k IH]; intros y Hy E; cbn [repeat seach] in E.
      - injection E as <-. split; [apply only_state_refl|reflexivity].
      - apply sbind_ok in E as (z & [] & E1 & E2). destruct (Hf _ _ Hy E1) as [H1 C1].
        destruct (IH z (only_state_trans _ _ _ Hy H1) E2) as [H2 C2]. split; [exact (only_state_trans _ _ _ H1 H2)|].
        cbn [repeat concat]. exact (run_calls_ok _ _ _ _ _ C1 C2). }
    intros E. exact (HX x (only_state_refl x) E).
  Qed.
  Lemma forward_calls gm m i k (x x' : lx) : x_opt x = o -> x_mask x = mask -> x_offload x = off ->
    seach (fun n => forward_hook kind eigh gm m n [i]) (repeat (name_of names m) k) x = (x', Ok tt) ->
    only_state x x' /\ run_calls (concat (repeat (phase m (o_forward o) "forward" (seen mask (mem_get (x_heap x) i))) k)) (x_state x) = (x_state x', Ok tt).
  Proof.
    intros Eo Em Ef E.
    assert (E' : seach (fun _ : string => forward_hook kind eigh gm m (name_of names m) [i]) (repeat (name_of names m) k) x = (x', Ok tt)).
    { rewrite <- E. clear. revert x. induction k as [|k IH]; intros x; cbn [repeat seach]; [reflexivity|]. unfold sbind.
      destruct (forward_hook _ _ _ _ _ _ x) as [y [u|e]]; [apply IH|reflexivity]. }
    apply (hooks_calls (forward_hook kind eigh gm m (name_of names m) [i]) m (o_forward o) "forward" _ k x x' Eo Em Ef); [|exact E'].
    intros y y' HO E1. unfold forward_hook in E1. apply sbind_ok in E1 as (z & act & E1 & E2).
    assert (Hy : x_opt y = o /\ x_mask y = mask /\ x_offload y = off /\ x_heap y = x_heap x) by (rewrite HO; auto).
    destruct Hy as (Hy1 & Hy2 & Hy3 & Hy4). unfold lift in E1. injection E1 as <- E1. rewrite Hy1 in E2.
    destruct (plugins_calls (o_forward o) m "forward" act y y' ltac:(intros p Hp; apply HM; auto) Hy2 Hy3 E2) as [H1 H2].
    split; [exact H1|]. replace (seen mask (mem_get (x_heap x) i)) with (u_d (deref (x_heap y) act)); [exact H2|].
    rewrite Hy2 in E1. unfold seen, mem_get. rewrite <- Hy4. destruct mask as [mk|].
    - destruct (apply_mask mk (u_d (uget (x_heap y) i))) as [[r|]|]; cbn [bind] in E1; [| |discriminate E1]; injection E1 as <-; reflexivity.
    - injection E1 as <-. reflexivity.
  Qed.
  Lemma backward_calls m g k (x x' : lx) : x_opt x = o -> x_mask x = mask -> x_offload x = off ->
    seach (fun h => match h with HBack m n => backward_hook kind eigh m n [g] | _ => sret tt end) (repeat (HBack m (name_of names m)) k) x = (x', Ok tt) ->
    only_state x x' /\ run_calls (concat (repeat (phase m (o_backward o) "backward" (mem_get (x_heap x) g)) k)) (x_state x) = (x_state x', Ok tt).
  Proof.
    intros Eo Em Ef E.
    assert (E' : seach (fun _ : string => backward_hook kind eigh m (name_of names m) [g]) (repeat (name_of names m) k) x = (x', Ok tt)).
    { rewrite <- E. clear. revert x. induction k as [|k IH]; intros x; cbn [repeat seach]; [reflexivity|]. unfold sbind.
      destruct (backward_hook _ _ _ _ _ x) as [y [u|e]]; [apply IH|reflexivity]. }
    apply (hooks_calls (backward_hook kind eigh m (name_of names m) [g]) m (o_backward o) "backward" _ k x x' Eo Em Ef); [|exact E'].
    intros y y' HO E1. unfold backward_hook in E1.
    assert (Hy : x_opt y = o /\ x_mask y = mask /\ x_offload y = off /\ x_heap y = x_heap x) by (rewrite HO; auto).
    destruct Hy as (Hy1 & Hy2 & Hy3 & Hy4). rewrite Hy1 in E1.
    destruct (plugins_calls (o_backward o) m "backward" (Ref g) y y' ltac:(intros p Hp; apply HM; auto) Hy2 Hy3 E1) as [H1 H2].
    split; [exact H1|]. cbn [deref] in H2. rewrite Hy4 in H2. exact H2.
  Qed.

  (** what stays between the events *)
  Definition sinv (h : @heap F) (cs : dict nat mid) (x : lx) : Prop :=
    x_opt x = o /\ x_mask x = mask /\ x_offload x = off /\ x_heap x = h /\
    (exists outs, x_reg x = inst ++ grad_hooks mods names outs) /\
    (forall c m, dget c cs = Some m -> dget c (x_calls x) = Some (repeat (HBack m (name_of names m)) (times m mods))).
  Lemma sinv_state h cs x x' : only_state x x' -> sinv h cs x -> sinv h cs x'.
  Proof. intros -> HB. exact HB. Qed.
  Lemma back_inst m outs : back_of m (inst ++ grad_hooks mods names outs) = repeat (HBack m (name_of names m)) (times m mods).
  Proof.
    unfold back_of. rewrite filter_app. match goal with |- _ ++ ?b = _ => assert (Eb : b = []) end.
    { pose proof (grad_hooks_in mods names) as HI. induction (grad_hooks mods names outs) as [|h r IH] eqn:Eg; [reflexivity|].
      cbn [filter]. destruct (HI h outs ltac:(rewrite Eg; left; reflexivity)) as (t & m' & n & i & ->).
      clear -IH Eg HI. assert (HR : forall k, In k r -> exists o m n i, k = HGradT o m n i). { intros k Hk. apply (HI k outs). rewrite Eg. right. exact Hk. }
      clear -HR. induction r as [|k r IH]; [reflexivity|]. cbn [filter]. destruct (HR k (or_introl eq_refl)) as (a & b & c & d & ->). apply IH. intros k Hk. apply HR. right. exact Hk. }
    rewrite Eb, app_nil_r. clear Eb. induction mods as [|a l IH]; [reflexivity|].
    rewrite times_cons. cbn [map concat hook_triple app fst snd filter]. destruct (Nat.eqb_spec m a) as [->|]; cbn [app plus repeat]; rewrite IH; reflexivity.
  Qed.
  Definition nolog (x x' : lx) : Prop := exists l, x' = with_log x l.
  Lemma nolog_refl x : nolog x x.
  Proof. exists (x_log x). destruct x; reflexivity. Qed.
  Lemma nolog_trans x y z : nolog x y -> nolog y z -> nolog x z.
  Proof. intros (l & ->) (l' & ->). exists l'. destruct x; reflexivity. Qed.
  (** the gradient hooks only touch the log, whose gradients are the log's own *)
  Definition own_grads (x : lx) : Prop := forall n l r, dget n (x_log x) = Some l -> dget "grad"%string l = Some r -> exists u, r = Own u.
  Lemma log_put_own n u (x x' : lx) : own_grads x -> log_put n "grad" (Own u) x = (x', Ok tt) -> nolog x x' /\ own_grads x'.
  Proof.
    intros HO. unfold log_put. destruct (dget n (x_log x)) as [l|] eqn:En.
    - destruct (dget "grad"%string l) as [r|] eqn:Eg.
      + destruct (HO n l r En Eg) as (v & ->). destruct (iadd_ _ _); [|discriminate]. intros [= <-]. split; [eexists; reflexivity|].
        intros n' l' r'. cbn [x_log with_log with_batch]. destruct (String.eqb_spec n n') as [<-|N].
        * rewrite dget_dset_eq. intros [= <-]. rewrite dget_dset_eq. intros [= <-]. eauto.
        * rewrite dget_dset_neq by congruence. apply HO.
      + intros [= <-]. split; [eexists; reflexivity|]. intros n' l' r'. cbn [x_log with_log with_batch]. destruct (String.eqb_spec n n') as [<-|N].
        * rewrite dget_dset_eq. intros [= <-]. rewrite dget_dset_eq. intros [= <-]. eauto.
        * rewrite dget_dset_neq by congruence. apply HO.
    - cbn [dget]. intros [= <-]. split; [eexists; reflexivity|]. intros n' l' r'. cbn [x_log with_log with_batch]. destruct (String.eqb_spec n n') as [<-|N].
      * rewrite dget_dset_eq. intros [= <-]. cbn [dset dget]. rewrite eqb_refl. intros [= <-]. eauto.
      * rewrite dget_dset_neq by congruence. apply HO.
  Qed.
  Lemma grad_hook_own m n i g (x x' : lx) : own_grads x -> grad_tensor_hook kind eigh m n i g x = (x', Ok tt) -> nolog x x' /\ own_grads x'.
  Proof.
    intros HO E. unfold grad_tensor_hook in E. destruct (o_grad (x_opt x)) as [|p ps]; [injection E as <-; split; [apply nolog_refl|exact HO]|].
    destruct p; cbn [plugin_eqb] in E; try discriminate E. cbn [firstn] in E. apply sbind_ok in E as (y & psg & E1 & E). unfold lift in E1. injection E1 as <- _.
    cbn [seach] in E. apply sbind_ok in E as (z & [] & E & E2). injection E2 as <-. exact (log_put_own _ _ _ _ HO E).
  Qed.
  Lemma grad_hooks_own g outs (x x' : lx) : own_grads x ->
    seach (fun h => match h with
                    | HGradT _ m n i => grad_tensor_hook kind eigh m n i g
                    | HActT _ n => tensor_backward_hook eigh n g
                    | _ => sret tt
                    end) (grad_hooks mods names outs) x = (x', Ok tt) -> nolog x x' /\ own_grads x'.
  Proof.
    pose proof (grad_hooks_in mods names) as HI.
    assert (HR : forall k, In k (grad_hooks mods names outs) -> exists o m n i, k = HGradT o m n i) by (intros k; apply HI).
    revert x HR. induction (grad_hooks mods names outs) as [|k r IH]; intros x HR HO E; cbn [seach] in E.
    - injection E as <-. split; [apply nolog_refl|exact HO].
    - apply sbind_ok in E as (y & [] & E1 & E2). destruct (HR k (or_introl eq_refl)) as (a & b & c & d & ->).
      destruct (grad_hook_own _ _ _ _ _ _ HO E1) as [N1 O1]. destruct (IH y ltac:(intros q Hq; apply HR; right; exact Hq) O1 E2) as [N2 O2].
      split; [exact (nolog_trans _ _ _ N1 N2)|exact O2].
  Qed.

  Lemma stats_run es : forall h cs (x x' : lx), sinv h cs x -> own_grads x -> own_backward (dkeys cs) es -> run_evs es x = (x', Ok tt) ->
    run_calls (stat_calls h cs es) (x_state x) = (x_state x', Ok tt) /\ own_grads x' /\ exists cs', sinv (heap_after h es) cs' x'.
  Proof.
    induction es as [|e es IH]; intros h cs x x' HB HG HW E.
    - injection E as <-. split; [reflexivity|]. split; [exact HG|]. exists cs. exact HB.
    - unfold ModelLogger.run_evs in E. cbn [seach] in E. apply sbind_ok in E as (y & [] & E1 & E2).
      change (run_evs es y = (x', Ok tt)) in E2.
      destruct HB as (Eo & Em & Ef & Eh & (outs & Er) & Ec).
      destruct e as [t u|c m ins out gm|t g|c gs|e]; cbn [ModelLogger.run_ev] in E1.
      + injection E1 as <-. cbn [SpecLogger.stat_calls heap_after]. cbn [own_backward] in HW.
        refine (IH (dset t u h) cs _ x' _ _ HW E2); [|exact HG]. repeat split; try assumption; [cbn; rewrite Eh; reflexivity|exists outs; exact Er].
      + erewrite sbind_run in E1 by reflexivity. rewrite (sbind_run sget _ _ _ _ eq_refl) in E1.
        set (x0 := with_calls x _) in E1. cbn [x_reg with_calls x0] in E1. rewrite Er, pre_inst in E1. apply sbind_ok in E1 as (z & [] & E1 & E3).
        cbn [own_backward] in HW.
        assert (HX0 : sinv h (dset c m cs) x0).
        { repeat split; try assumption; [exists outs; exact Er|]. unfold x0. cbn [x_calls with_calls]. intros c' m'.
          destruct (Nat.eq_dec c c') as [<-|N].
          - rewrite !dget_dset_eq. intros [= <-]. rewrite Er, back_inst. reflexivity.
          - rewrite !dget_dset_neq by congruence. apply Ec. }
        assert (HZ : only_state x0 z /\ run_calls (match ins with [i] => reaches m (o_forward o) "forward" (seen mask (mem_get h i)) | _ => [] end) (x_state x) = (x_state z, Ok tt)).
        { destruct ins as [|i [|i' r]].
          - destruct (times m mods) as [|k]; [|discriminate E1]. injection E1 as <-. split; [apply only_state_refl|reflexivity].
          - destruct (forward_calls gm m i (times m mods) x0 z Eo Em Ef E1) as [H1 H2]. cbn [x_heap x0 with_calls] in H2. rewrite Eh in H2. split; [exact H1|exact H2].
          - destruct (times m mods) as [|k]; [|discriminate E1]. injection E1 as <-. split; [apply only_state_refl|reflexivity]. }
        destruct HZ as [HZ HC]. pose proof (sinv_state _ _ _ _ HZ HX0) as (Eo' & Em' & Ef' & Eh' & (outs' & Er') & Ec').
        assert (HGz : own_grads z) by (rewrite HZ; exact HG).
        assert (HW' : own_backward (dkeys (dset c m cs)) es).
        { clear -HW. assert (HS : forall es (a b : list nat), (forall q, In q a -> In q b) -> @own_backward F a es -> own_backward b es).
          { clear. induction es as [|e es IH]; intros a b Hab; [auto|]. destruct e; cbn [own_backward]; try (apply IH; exact Hab).
            - apply IH. intros q [<-|Hq]; [left; reflexivity|right; auto].
            - intros [Hi Hw]. split; [auto|exact (IH a b Hab Hw)]. }
          refine (HS es _ _ _ HW). intros q. cbn [In]. destruct (in_dec Nat.eq_dec c (dkeys cs)) as [Hi|Hi].
          - rewrite dkeys_dset_in by exact Hi. intros [<-|Hq]; assumption.
          - rewrite dkeys_dset_notin by exact Hi. intros [<-|Hq]; apply in_or_app; [right; left; reflexivity|left; exact Hq]. }
        cbn [SpecLogger.stat_calls].
        assert (Key : forall w, sinv (match out with OutTensor t u => dset t u h | _ => h end) (dset c m cs) w -> own_grads w -> x_state w = x_state z ->
          run_evs es w = (x', Ok tt) ->
          run_calls ((match ins with [i] => reaches m (o_forward o) "forward" (seen mask (mem_get h i)) | _ => [] end) ++
             stat_calls (match out with OutTensor t u => dset t u h | _ => h end) (dset c m cs) es) (x_state x) = (x_state x', Ok tt) /\
          own_grads x' /\ exists cs', sinv (heap_after (match out with OutTensor t u => dset t u h | _ => h end) es) cs' x').
        { intros w Hw HGw Esw Ew. destruct (IH _ _ _ _ Hw HGw HW' Ew) as (C2 & G2 & S2). rewrite Esw in C2. split; [exact (run_calls_ok _ _ _ _ _ HC C2)|]. split; [exact G2|exact S2]. }
        destruct out as [t u| |e].
        * erewrite sbind_run in E3 by reflexivity. rewrite (sbind_run sget _ _ _ _ eq_refl) in E3. cbn [x_reg with_heap] in E3.
          rewrite Er', fwd_inst in E3. cbn [heap_after].
          assert (HQ : x_opt y = o /\ x_mask y = mask /\ x_offload y = off /\ x_heap y = dset t u h /\ (exists outs, x_reg y = inst ++ grad_hooks mods names outs) /\
             x_calls y = x_calls z /\ x_log y = x_log z /\ x_state y = x_state z).
          { destruct ins as [|i [|i' r]].
            - destruct (times m mods) as [|k]; [|discriminate E3]. injection E3 as <-. cbn. rewrite Eh'. repeat split; try assumption. exists outs'. exact Er'.
            - clear -E3 Eo' Em' Ef' Eh' Er'.
              assert (HQ : forall k (w : lx), seach (fun n => grad_hook m n [i] (OutTensor t u)) (repeat (name_of names m) k) w = (y, Ok tt) ->
                 x_opt y = x_opt w /\ x_mask y = x_mask w /\ x_offload y = x_offload w /\ x_heap y = x_heap w /\
                 x_reg y = x_reg w ++ repeat (HGradT t m (name_of names m) i) k /\ x_calls y = x_calls w /\ x_log y = x_log w /\ x_state y = x_state w).
              { induction k as [|k IHk]; intros w Ew; cbn [repeat seach] in Ew.
                - injection Ew as <-. cbn [repeat]. rewrite app_nil_r. repeat split.
                - apply sbind_ok in Ew as (v & [] & Ew1 & Ew2). unfold grad_hook, register_tensor_hook in Ew1. destruct (u_req u); [|discriminate Ew1].
                  injection Ew1 as <-. apply IHk in Ew2 as (-> & -> & -> & -> & -> & -> & -> & ->). cbn. rewrite <- app_assoc. repeat split. }
              apply HQ in E3 as (H1 & H2 & H3 & H4 & H5 & H6 & H7 & H8). cbn in H1, H2, H3, H4, H5, H6, H7, H8.
              repeat split; try congruence. exists (outs' ++ [(t, (m, i))]). rewrite H5, Er', grad_hooks_app, app_assoc. unfold grad_hooks at 3. cbn [map concat fst snd].
              rewrite app_nil_r. reflexivity.
            - destruct (times m mods) as [|k]; [|discriminate E3]. injection E3 as <-. cbn. rewrite Eh'. repeat split; try assumption. exists outs'. exact Er'. }
          destruct HQ as (Q1 & Q2 & Q3 & Q4 & Q5 & Q6 & Q7 & Q8).
          apply (Key y); [repeat split; try assumption; rewrite Q6; exact Ec'| |exact Q8|exact E2]. unfold own_grads. rewrite Q7. exact HGz.
        * rewrite (sbind_run sget _ _ _ _ eq_refl) in E3. rewrite Er', fwd_inst in E3. cbn [heap_after].
          destruct (times m mods) as [|k]; [|destruct ins as [|i [|i' r]]; discriminate E3]. injection E3 as <-.
          apply (Key z); [repeat split; try assumption; exists outs'; exact Er'|exact HGz|reflexivity|exact E2].
        * discriminate E3.
      + rewrite (sbind_run sget _ _ _ _ eq_refl) in E1. rewrite Er, on_tensor_inst in E1. cbn [own_backward SpecLogger.stat_calls heap_after] in *.
        destruct (grad_hooks_own _ _ _ _ HG E1) as [(l & ->) HG1].
        refine (IH h cs (with_log x l) x' _ HG1 HW E2). repeat split; try assumption. exists outs. exact Er.
      + rewrite (sbind_run sget _ _ _ _ eq_refl) in E1. cbn [own_backward SpecLogger.stat_calls heap_after] in *. destruct HW as [Hc HW].
        destruct (dget c cs) as [m|] eqn:Ed; [|exfalso; apply dget_None_keys in Ed; contradiction]. rewrite (Ec c m Ed) in E1.
        assert (HZ : only_state x y /\ run_calls (match gs with [g] => reaches m (o_backward o) "backward" (mem_get h g) | _ => [] end) (x_state x) = (x_state y, Ok tt)).
        { destruct gs as [|g [|g' r]].
          - destruct (times m mods) as [|k]; [|discriminate E1]. injection E1 as <-. split; [apply only_state_refl|reflexivity].
          - destruct (backward_calls m g (times m mods) x y Eo Em Ef E1) as [H1 H2]. rewrite Eh in H2. split; [exact H1|exact H2].
          - destruct (times m mods) as [|k]; [|discriminate E1]. injection E1 as <-. split; [apply only_state_refl|reflexivity]. }
        destruct HZ as [HZ HC].
        assert (HY : sinv h cs y) by (apply (sinv_state _ _ _ _ HZ); repeat split; try assumption; exists outs; exact Er).
        assert (HGy : own_grads y) by (rewrite HZ; exact HG).
        destruct (IH h cs y x' HY HGy HW E2) as (C2 & G2 & S2). split; [exact (run_calls_ok _ _ _ _ _ HC C2)|]. split; [exact G2|exact S2].
      + discriminate E1.
  Qed.
  End Batch.

  Lemma batch_statistics ids mask es (x x1 x2 : lx) : reachable x -> begins ids mask x x1 -> moments_only (x_opt x) ->
    run_evs es x1 = (x2, Ok tt) -> own_backward [] es ->
    run_calls (stat_calls kind (x_mods x) (x_names x) (x_opt x) mask (x_offload x) (x_heap x) [] es) (x_state x) = (x_state x2, Ok tt) /\
    x_heap x2 = heap_after (x_heap x) es.
  Proof.
    intros HR HB HM E HW. destruct (begins_fresh _ _ _ _ _ _ _ _ HR HB) as (El & _ & Em & Er & _ & Es & Eo & _ & _ & Eh & Ef).
    destruct (stats_run (x_mods x) (x_names x) (x_opt x) mask (x_offload x) HM es (x_heap x) [] x1 x2) as (HC & _ & cs & HS); try assumption.
    - repeat split; try assumption; [|discriminate]. exists []. unfold grad_hooks. cbn [map concat]. rewrite app_nil_r. exact Er.
    - intros n l r. rewrite El. discriminate.
    - rewrite Es in HC. split; [exact HC|]. apply HS.
  Qed.
  (** ---- C21: after the batch has ended ---- *)
  Lemma after_end_statistics ids mask es es2 (x x1 x2 x3 x4 : lx) sv : reachable x -> begins ids mask x x1 -> moments_only (x_opt x) ->
    run_evs es x1 = (x2, Ok tt) -> own_backward [] es -> update eigh enc sv x2 = (x3, Ok tt) ->
    own_backward [] es2 -> run_evs es2 x3 = (x4, Ok tt) ->
    run_calls (stat_calls kind (x_mods x) (x_names x) (x_opt x) mask (x_offload x) (heap_after (x_heap x) es) [] es2) (x_state x3) = (x_state x4, Ok tt).
  Proof.
    intros HR HB HM E HW EU HW2 E2. destruct (begins_fresh _ _ _ _ _ _ _ _ HR HB) as (El & _ & Em & Er & _ & Es & Eo & _ & _ & Eh & Ef).
    destruct (stats_run (x_mods x) (x_names x) (x_opt x) mask (x_offload x) HM es (x_heap x) [] x1 x2) as (HC & HG & cs & HS); try assumption.
    - repeat split; try assumption; [|discriminate]. exists []. unfold grad_hooks. cbn [map concat]. rewrite app_nil_r. exact Er.
    - intros n l r. rewrite El. discriminate.
    - apply update_stores in EU as (s & sv' & d & vs & ->).
      destruct (stats_run (x_mods x) (x_names x) (x_opt x) mask (x_offload x) HM es2 (heap_after (x_heap x) es) [] (with_views (with_store (with_state x2 s) sv' d (x_disk x2)) vs) x4) as (HC2 & _); try assumption.
      destruct HS as (H1 & H2 & H3 & H4 & H5 & _). repeat split; try assumption. discriminate.
  Qed.
End P.
