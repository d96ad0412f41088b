(** What a batch logs and collects with a data type (C93). *)
From Coq Require Import ZArith Permutation Sorting.Sorted.
From Verif Require Import BcastProofs Py Field Tensor ModelGrad Monad ModelState ModelMmap ModelSaver ModelLogger ModelDtype SpecGrad SpecState SpecLogger SpecDtype LogProofs1 LogProofs2 LogProofs6 LogProofs8 DtypeProofs.
Local Open Scope nat_scope.

Section P.
  Context {F : Type} `{OField F}.
  Notation tensor := (tensor F).
  Notation dten := (@dten F).
  Notation uten := (@uten F).
  Notation lx := (@lx F).
  Notation ev := (@ev F).
  Notation lstate := (@lstate F).
  Notation handed := (@handed F).
  Variable kind : mid -> mkind.
  Variable wsize : mid -> nat.
  Variable eigh : tensor -> res (tensor * tensor).
  Variable enc : dten -> array.
  Variable c : @dcast F.
  Hypothesis Hcast : forall d, twf (snd d) -> twf (snd (dc_cast c d)).
  Notation run_plugin := (run_plugin eigh).
  Notation run_ev := (run_ev_dt kind eigh (Some c)).
  Notation run_evs := (run_evs_dt kind eigh (Some c)).

  (** ---- the log ---- *)
  Definition item := ((string * string) * tensor)%type.
  Definition of_key (n ty : string) (acc : list item) : list tensor :=
    map snd (filter (fun p => String.eqb (fst (fst p)) n && String.eqb (snd (fst p)) ty) acc).
  Definition entry (l : @blog F) (n ty : string) : option lref := match dget n l with Some q => dget ty q | None => None end.
  Definition sums (l : @blog F) (acc : list item) : Prop :=
    forall n ty, match of_key n ty acc with
                 | [] => entry l n ty = None
                 | ts => exists u, entry l n ty = Some (Own u) /\ sum_onto ts (snd (u_d u))
                 end.
  Lemma of_key_app n ty a b : of_key n ty (a ++ b) = of_key n ty a ++ of_key n ty b.
  Proof. unfold of_key. rewrite filter_app, map_app. reflexivity. Qed.
  Lemma entry_put l n ty r n' ty' :
    entry (dset n (dset ty r (match dget n l with Some q => q | None => [] end)) l) n' ty' =
    if String.eqb n n' && String.eqb ty ty' then Some r else entry l n' ty'.
  Proof.
    unfold entry. destruct (String.eqb_spec n n') as [<-|N]; cbn [andb].
    - rewrite dget_dset_eq. destruct (String.eqb_spec ty ty') as [<-|N']; [apply dget_dset_eq|]. rewrite dget_dset_neq by congruence. destruct (dget n l); reflexivity.
    - rewrite dget_dset_neq by congruence. reflexivity.
  Qed.
  Lemma sums_put n ty d t q lf (x x' : lx) acc : twf t -> sums (x_log x) acc -> log_put n ty (Own (UT (d, t) q lf)) x = (x', Ok tt) ->
    (exists l, x' = with_log x l) /\ sums (x_log x') (acc ++ [((n, ty), t)]).
  Proof.
    intros HW HG E. pose proof (HG n ty) as Hn. unfold log_put in E. fold (entry (x_log x) n ty) in Hn.
    assert (Ee : dget ty (match dget n (x_log x) with Some l => l | None => [] end) = entry (x_log x) n ty) by (unfold entry; destruct (dget n (x_log x)); reflexivity).
    rewrite Ee in E. clear Ee.
    destruct (of_key n ty acc) as [|t0 ts0] eqn:En.
    - rewrite Hn in E. injection E as <-. split; [eexists; reflexivity|].
      intros n' ty'. rewrite of_key_app. cbn [x_log with_log with_batch]. rewrite entry_put. unfold of_key at 2. cbn [filter fst snd].
      destruct (String.eqb_spec n n') as [<-|N]; [destruct (String.eqb_spec ty ty') as [<-|N']|]; cbn [andb].
      + rewrite En. cbn [app map snd]. eexists. split; [reflexivity|]. exact (sum_onto_one t HW).
      + cbn [map]. rewrite app_nil_r. exact (HG n ty').
      + cbn [map]. rewrite app_nil_r. exact (HG n' ty').
    - destruct Hn as (u & Ed & HS). rewrite Ed in E. cbn [deref u_d] in E.
      destruct (u_d u) as [d0 t1] eqn:Eu. cbn [snd] in HS.
      destruct (iadd_ (d0, t1) (d, t)) as [s|] eqn:Ea; [|discriminate E]. injection E as <-.
      split; [eexists; reflexivity|]. intros n' ty'. rewrite of_key_app. cbn [x_log with_log with_batch]. rewrite entry_put. unfold of_key at 2. cbn [filter fst snd].
      destruct (String.eqb_spec n n') as [<-|N]; [destruct (String.eqb_spec ty ty') as [<-|N']|]; cbn [andb].
      + rewrite En. cbn [app map snd]. eexists. split; [reflexivity|]. cbn [u_d snd].
        exact (sum_onto_snoc (t0 :: ts0) _ _ _ _ _ ltac:(discriminate) HS HW Ea).
      + cbn [map]. rewrite app_nil_r. exact (HG n ty').
      + cbn [map]. rewrite app_nil_r. exact (HG n' ty').
  Qed.

  (** statistics and log change, nothing else *)
  Definition sl (x x' : lx) : Prop := exists s l, x' = with_log (with_state x s) l.
  Lemma sl_refl x : sl x x.
  Proof. exists (x_state x), (x_log x). destruct x; reflexivity. Qed.
  Lemma sl_trans x y z : sl x y -> sl y z -> sl x z.
  Proof. intros (s & l & ->) (s' & l' & ->). exists s', l'. destruct x; reflexivity. Qed.
  Lemma only_state_sl x x' : only_state x x' -> sl x x'.
  Proof. intros ->. exists (x_state x'), (x_log x). destruct x; reflexivity. Qed.
  Lemma only_state_log x x' : @only_state F x x' -> x_log x' = x_log x.
  Proof. intros ->. reflexivity. Qed.

  Section Batch.
  Variable mods : list mid.
  Variable names : dict mid string.
  Variable o : opts.
  Variable mask : option dten.
  Variable off : bool.
  Hypothesis HO : ordered o.
  Hypothesis HM : logs_and_moments o.
  Local Notation inst := (concat (map (fun m => hook_triple (m, name_of names m)) mods)).
  Local Notation conv_calls := (map (converted c)).
  Local Notation reaches := (reaches kind mods names mask off).
  Local Notation stat_calls := (stat_calls kind mods names o mask off).
  Local Notation phase := (phase kind names mask off).

  Lemma log_first p ps : in_order (p :: ps) -> ~ In PLog ps.
  Proof.
    intros HI. apply StronglySorted_inv in HI as [_ HF]. rewrite Forall_forall in HF. intros Hp. specialize (HF _ Hp). cbn in HF. lia.
  Qed.
  (** the plugins of a phase *)
  Lemma plugins_dt ps m ty u (x x' : lx) acc : in_order ps -> (forall p, In p ps -> p = PLog \/ p = PMean \/ p = PCovariance) ->
    x_mask x = mask -> x_offload x = off -> (logs ps = true -> twf (snd (u_d u))) -> sums (x_log x) acc ->
    seach (fun p => run_plugin p (Some (kind m)) (name_of names m) ty (Some (Own u))) ps x = (x', Ok tt) ->
    sl x x' /\ sums (x_log x') (acc ++ (if logs ps then [((name_of names m, ty), snd (u_d u))] else [])) /\
    run_calls (phase m ps ty (u_d u)) (x_state x) = (x_state x', Ok tt).
  Proof.
    intros HI HP Em Ef HW HG E. destruct ps as [|p ps].
    - injection E as <-. cbn [logs existsb]. rewrite app_nil_r. split; [apply sl_refl|]. split; [exact HG|reflexivity].
    - pose proof (log_first _ _ HI) as N.
      assert (HQ : forall q, In q ps -> q = PMean \/ q = PCovariance).
      { intros q Hq. destruct (HP q (or_intror Hq)) as [->|Hm]; [contradiction|exact Hm]. }
      assert (EL : logs ps = false).
      { unfold logs. apply not_true_is_false. intros Et. apply existsb_exists in Et as (q & Hq & E2). destruct q; try discriminate E2. contradiction. }
      destruct (plugin_eqb PLog p) eqn:Ep.
      + destruct p; try discriminate Ep. cbn [seach] in E. apply sbind_ok in E as (y & [] & E1 & E2). cbn [ModelLogger.run_plugin] in E1.
        destruct u as [[d t] q lf]. cbn [u_d snd] in *. destruct (sums_put _ _ _ _ _ _ _ _ _ (HW eq_refl) HG E1) as ((l & ->) & HG').
        destruct (plugins_calls kind eigh names mask off ps m ty (Own (UT (d, t) q lf)) (with_log x l) x' HQ Em Ef E2) as [H1 H2].
        split; [apply (sl_trans _ (with_log x l)); [exists (x_state x), l; destruct x; reflexivity|apply only_state_sl; exact H1]|].
        cbn [logs existsb plugin_eqb orb]. rewrite (only_state_log _ _ H1). split; [exact HG'|exact H2].
      + assert (HQ' : forall q, In q (p :: ps) -> q = PMean \/ q = PCovariance).
        { intros q [<-|Hq]; [|auto]. destruct (HP p (or_introl eq_refl)) as [->|Hm]; [discriminate Ep|exact Hm]. }
        destruct (plugins_calls kind eigh names mask off (p :: ps) m ty (Own u) x x' HQ' Em Ef E) as [H1 H2].
        split; [apply only_state_sl; exact H1|]. unfold logs in *. cbn [existsb]. rewrite Ep, EL. cbn [orb]. rewrite app_nil_r, (only_state_log _ _ H1). split; [exact HG|exact H2].
  Qed.

  (** what stays between the events *)
  Definition dinv (h : @heap F) (outs : list (tid * (mid * tid))) (cs : dict nat mid) (x : lx) : Prop :=
    x_opt x = o /\ x_mask x = mask /\ x_offload x = off /\ x_heap x = h /\ x_reg x = inst ++ grad_hooks mods names outs /\
    (forall q m, dget q cs = Some m -> dget q (x_calls x) = Some (repeat (HBack m (name_of names m)) (times m mods))).
  Lemma dinv_sl h outs cs x x' : sl x x' -> dinv h outs cs x -> dinv h outs cs x'.
  Proof. intros (s & l & ->) HB. exact HB. Qed.
  (** items made of what was handed *)
  Definition made (es : list handed) (acc : list item) : Prop :=
    Forall2 (fun e (p : item) => fst p = (name_of names (hand_mod e), hand_type e) /\ becomes kind c mask e (snd p)) es acc.
  (** one hook run several times *)
  Lemma repeat_hook {A} (f : SM lx unit) (e : list handed) (cl : list (@call F)) (k : nat) (a : A) (P : lx -> Prop) :
    (forall x x', sl x x' -> P x -> P x') ->
    (forall x x' acc, P x -> sums (x_log x) acc -> f x = (x', Ok tt) ->
       sl x x' /\ (exists its, made e its /\ sums (x_log x') (acc ++ its)) /\ run_calls cl (x_state x) = (x_state x', Ok tt)) ->
    forall x x' acc, P x -> sums (x_log x) acc -> seach (fun _ : A => f) (repeat a k) x = (x', Ok tt) ->
      sl x x' /\ (exists its, made (concat (repeat e k)) its /\ sums (x_log x') (acc ++ its)) /\ run_calls (concat (repeat cl k)) (x_state x) = (x_state x', Ok tt).
  Proof.
    intros HP Hf. induction k as [|k IH]; intros x x' acc HX HG E; cbn [repeat seach concat] in *.
    - injection E as <-. split; [apply sl_refl|]. split; [exists []; rewrite app_nil_r; split; [constructor|exact HG]|reflexivity].
    - apply sbind_ok in E as (y & [] & E1 & E2). destruct (Hf _ _ _ HX HG E1) as (S1 & (i1 & M1 & G1) & C1).
      destruct (IH _ _ _ (HP _ _ S1 HX) G1 E2) as (S2 & (i2 & M2 & G2) & C2).
      split; [exact (sl_trans _ _ _ S1 S2)|]. split; [|exact (run_calls_ok _ _ _ _ _ C1 C2)].
      exists (i1 ++ i2). rewrite app_assoc. split; [apply Forall2_app; assumption|exact G2].
  Qed.
  Lemma repeat_name (f : string -> SM lx unit) n k x : seach f (repeat n k) x = seach (fun _ : string => f n) (repeat n k) x.
  Proof. revert x. induction k as [|k IH]; intros x; cbn [repeat seach]; [reflexivity|]. unfold sbind. destruct (f n x) as [y [u|e]]; [apply IH|reflexivity]. Qed.

  Lemma bmul_twf (a b r : dten) : bmul a b = Ok r -> twf (snd r).
  Proof. unfold bmul. destruct (dev_eqb _ _); [|discriminate]. destruct (bshape _ _); [|discriminate]. cbn [bind]. intros [= <-]. apply tgen_wf. Qed.
  Lemma apply_mask_twf mk d r : apply_mask mk d = Ok (Some r) -> twf (snd r).
  Proof.
    unfold apply_mask. intros E. destruct (negb _); [destruct (S _ =? _); [|discriminate E]|].
    - destruct (size_m1 (snd mk)); [|discriminate E]. cbn [bind] in E. destruct (size_m2 (snd d)); [|discriminate E]. cbn [bind] in E.
      destruct (_ =? _); [|discriminate E]. destruct (bmul _ _) eqn:Eb; [|discriminate E]. injection E as <-. exact (bmul_twf _ _ _ Eb).
    - destruct (size_m1 (snd mk)); [|discriminate E]. cbn [bind] in E. destruct (size_m1 (snd d)); [|discriminate E]. cbn [bind] in E.
      destruct (_ =? _); [|discriminate E]. destruct (bmul _ _) eqn:Eb; [|discriminate E]. injection E as <-. exact (bmul_twf _ _ _ Eb).
  Qed.
  Lemma map_rep {A B} (f : A -> B) a k : map f (repeat a k) = repeat (f a) k.
  Proof. induction k as [|k IH]; cbn [repeat map]; [reflexivity|rewrite IH; reflexivity]. Qed.
  Lemma conv_reaches m ps ty d : conv_calls (reaches m ps ty d) = concat (repeat (phase m ps ty (dc_cast c d)) (times m mods)).
  Proof. unfold SpecLogger.reaches, LogProofs8.phase. rewrite concat_map, map_rep, map_map. reflexivity. Qed.
  Lemma concat_repeat_one {A} (b : bool) (a : A) k : concat (repeat (if b then [a] else []) k) = if b then repeat a k else [].
  Proof. destruct b; induction k as [|k IH]; cbn [repeat concat app]; [reflexivity|rewrite IH; reflexivity|reflexivity|exact IH]. Qed.
  Definition keeps_ctx (h : @heap F) (x : lx) : Prop := x_opt x = o /\ x_mask x = mask /\ x_offload x = off /\ x_heap x = h.
  Lemma keeps_sl h x x' : sl x x' -> keeps_ctx h x -> keeps_ctx h x'.
  Proof. intros (s & l & ->) HK. exact HK. Qed.
  (** the inputs and gradients the hooks see *)
  Lemma forward_dt gm m i h (x x' : lx) acc : keeps_ctx h x -> dc_has c i = false ->
    (logs (o_forward o) = true -> twf (snd (mem_get h i))) -> sums (x_log x) acc ->
    seach (fun n => forward_hook_dt kind eigh (Some c) gm m n [i]) (repeat (name_of names m) (times m mods)) x = (x', Ok tt) ->
    sl x x' /\ (exists its, made (if logs (o_forward o) then repeat (HIn m (mem_get h i)) (times m mods) else []) its /\ sums (x_log x') (acc ++ its)) /\
    run_calls (conv_calls (reaches m (o_forward o) "forward" (seen mask (mem_get h i)))) (x_state x) = (x_state x', Ok tt).
  Proof.
    intros HK Hh HW HG E. rewrite repeat_name in E. rewrite conv_reaches, <- concat_repeat_one.
    refine (repeat_hook _ _ _ _ _ (keeps_ctx h) (keeps_sl h) _ x x' acc HK HG E). clear E HG acc HK x x'.
    intros x x' acc (Eo & Em & Ef & Eh) HG E. unfold forward_hook_dt in E. apply sbind_ok in E as (z & act & E1 & E2).
    unfold lift in E1. injection E1 as <- E1. rewrite Em in E1.
    assert (HA : exists u, to_dtype (Some c) gm (x_heap x) act = Own u /\ u_d u = dc_cast c (seen mask (mem_get h i)) /\ (logs (o_forward o) = true -> twf (snd (seen mask (mem_get h i))))).
    { unfold mem_get in *. rewrite <- Eh in *. unfold seen. destruct mask as [mk|].
      - destruct (apply_mask mk (u_d (uget (x_heap x) i))) as [[r|]|] eqn:Ea; cbn [bind] in E1; [| |discriminate E1]; injection E1 as <-; cbn [to_dtype].
        + eexists. split; [reflexivity|]. cbn [u_d]. split; [reflexivity|]. intros _. exact (apply_mask_twf _ _ _ Ea).
        + rewrite Hh. eexists. split; [reflexivity|]. split; [reflexivity|exact HW].
      - injection E1 as <-. cbn [to_dtype]. rewrite Hh. eexists. split; [reflexivity|]. split; [reflexivity|exact HW]. }
    destruct HA as (u & Eu & Ed & HW'). rewrite Eu, Eo in E2.
    destruct (plugins_dt (o_forward o) m "forward" u x x' acc (proj1 HO) ltac:(intros p Hp; apply HM; auto) Em Ef ltac:(intros El; rewrite Ed; apply Hcast; auto) HG E2) as (H1 & H2 & H3).
    split; [exact H1|]. rewrite Ed in H2, H3. split; [|exact H3]. eexists. split; [|exact H2].
    destruct (logs (o_forward o)); [|constructor]. constructor; [|constructor]. split; reflexivity.
  Qed.
  Lemma backward_dt m g h (x x' : lx) acc : keeps_ctx h x -> dc_has c g = false ->
    (logs (o_backward o) = true -> twf (snd (mem_get h g))) -> sums (x_log x) acc ->
    seach (fun k => match k with HBack m n => backward_hook_dt kind eigh (Some c) m n [g] | _ => sret tt end) (repeat (HBack m (name_of names m)) (times m mods)) x = (x', Ok tt) ->
    sl x x' /\ (exists its, made (if logs (o_backward o) then repeat (HOut m (mem_get h g)) (times m mods) else []) its /\ sums (x_log x') (acc ++ its)) /\
    run_calls (conv_calls (reaches m (o_backward o) "backward" (mem_get h g))) (x_state x) = (x_state x', Ok tt).
  Proof.
    intros HK Hh HW HG E.
    assert (E' : seach (fun _ : hook => backward_hook_dt kind eigh (Some c) m (name_of names m) [g]) (repeat (HBack m (name_of names m)) (times m mods)) x = (x', Ok tt)).
    { rewrite <- E. clear. generalize (times m mods). intros k. revert x. induction k as [|k IH]; intros x; cbn [repeat seach]; [reflexivity|]. unfold sbind.
      destruct (backward_hook_dt _ _ _ _ _ _ x) as [y [u|e]]; [apply IH|reflexivity]. }
    clear E. rename E' into E. rewrite conv_reaches, <- concat_repeat_one.
    refine (repeat_hook _ _ _ _ _ (keeps_ctx h) (keeps_sl h) _ x x' acc HK HG E). clear E HG acc HK x x'.
    intros x x' acc (Eo & Em & Ef & Eh) HG E. unfold backward_hook_dt in E. cbn [to_dtype] in E. rewrite Hh, Eo in E. fold (mem_get (x_heap x) g) in E. rewrite Eh in E.
    match type of E with context [Own ?v] => set (u := v) in E; assert (Ed : u_d u = dc_cast c (mem_get h g)) by reflexivity; clearbody u end.
    destruct (plugins_dt (o_backward o) m "backward" u x x' acc (proj1 (proj2 HO)) ltac:(intros p Hp; apply HM; auto) Em Ef ltac:(intros El; rewrite Ed; apply Hcast; auto) HG E) as (H1 & H2 & H3).
    split; [exact H1|]. rewrite Ed in H2, H3. split; [|exact H3]. eexists. split; [|exact H2].
    destruct (logs (o_backward o)); [|constructor]. constructor; [|constructor]. split; reflexivity.
  Qed.
  Lemma grad_dt g h outs (x x' : lx) acc : keeps_ctx h x -> sums (x_log x) acc ->
    seach (fun k => match k with
                    | HGradT _ m n i => grad_tensor_hook_dt kind eigh (Some c) m n i g
                    | HActT _ n => tensor_backward_hook_dt eigh (Some c) n g
                    | _ => sret tt
                    end) (grad_hooks mods names outs) x = (x', Ok tt) ->
    sl x x' /\ (exists its, made (concat (map (fun p => if logs (o_grad o) then repeat (HGr (fst (snd p)) (mem_get h (snd (snd p))) (mem_get h g)) (times (fst (snd p)) mods) else []) outs)) its /\ sums (x_log x') (acc ++ its)) /\
    x_state x' = x_state x.
  Proof.
    revert x acc. induction outs as [|[t [m i]] r IH]; intros x acc HK HG E.
    - injection E as <-. split; [apply sl_refl|]. split; [|reflexivity]. exists []. rewrite app_nil_r. split; [constructor|exact HG].
    - change (grad_hooks mods names ((t, (m, i)) :: r)) with (repeat (HGradT t m (name_of names m) i) (times m mods) ++ grad_hooks mods names r) in E.
      rewrite seach_app in E. apply sbind_ok in E as (y & [] & E1 & E2).
      assert (E' : seach (fun _ : hook => grad_tensor_hook_dt kind eigh (Some c) m (name_of names m) i g) (repeat (HGradT t m (name_of names m) i) (times m mods)) x = (y, Ok tt)).
      { rewrite <- E1. clear. generalize (times m mods). intros k. revert x. induction k as [|k IH]; intros x; cbn [repeat seach]; [reflexivity|]. unfold sbind.
        destruct (grad_tensor_hook_dt _ _ _ _ _ _ _ x) as [y [u|e]]; [apply IH|reflexivity]. }
      assert (HS : sl x y /\ (exists its, made (concat (repeat (if logs (o_grad o) then [HGr m (mem_get h i) (mem_get h g)] else []) (times m mods))) its /\ sums (x_log y) (acc ++ its)) /\ run_calls (concat (repeat [] (times m mods))) (x_state x) = (x_state y, Ok tt)).
      { refine (repeat_hook _ _ _ _ _ (keeps_ctx h) (keeps_sl h) _ x y acc HK HG E'). clear -HO Hcast.
        intros x x' acc (Eo & Em & Ef & Eh) HG E. unfold grad_tensor_hook_dt in E. rewrite Eo, Eh in E. pose proof (proj2 (proj2 HO)) as Ho.
        destruct (o_grad o) as [|p ps]; [injection E as <-; split; [apply sl_refl|]; cbn [logs existsb]; split; [|reflexivity]; exists []; rewrite app_nil_r; split; [constructor|exact HG]|].
        destruct (plugin_eqb p PLog) eqn:Ep; [|discriminate E]. destruct p; try discriminate Ep. clear Ep.
        apply sbind_ok in E as (z & psg & E1 & E). unfold lift in E1. injection E1 as <- E1. destruct (dev_eqb _ _); [|discriminate E1].
        cbn [firstn seach] in E. apply sbind_ok in E as (z & [] & E & E2). injection E2 as <-. cbn [ModelLogger.run_plugin to_dtype u_d] in E.
        destruct (dc_cast c (fst (u_d (uget h i)), psg)) as [d q] eqn:Ec.
        assert (HW : twf q). { replace q with (snd (dc_cast c (fst (u_d (uget h i)), psg))) by (rewrite Ec; reflexivity). apply Hcast. exact (psg_twf _ _ _ _ E1). }
        destruct (sums_put _ _ _ _ _ _ _ _ _ HW HG E) as ((l & ->) & HG'). split; [exists (x_state x), l; destruct x; reflexivity|]. split; [|reflexivity].
        eexists. split; [|exact HG']. cbn [logs existsb plugin_eqb orb]. constructor; [|constructor]. split; [reflexivity|]. cbn [becomes hand_type snd].
        exists psg. split; [exact E1|]. unfold mem_get. rewrite Ec. reflexivity. }
      destruct HS as (S1 & (i1 & M1 & G1) & C1).
      assert (C1' : x_state y = x_state x).
      { revert C1. replace (concat (repeat [] (times m mods))) with (@nil (@call F)) by (generalize (times m mods); intros k; induction k; [reflexivity|assumption]). intros [= ->]. reflexivity. }
      destruct (IH y _ (keeps_sl _ _ _ S1 HK) G1 E2) as (S2 & (i2 & M2 & G2) & C2).
      split; [exact (sl_trans _ _ _ S1 S2)|]. split; [|congruence]. exists (i1 ++ i2). rewrite app_assoc. split; [|exact G2].
      cbn [map concat fst snd]. apply Forall2_app; [rewrite concat_repeat_one in M1; exact M1|exact M2].
  Qed.
  Lemma register_dt m i t u k : forall (w y : lx), seach (fun n => grad_hook m n [i] (OutTensor t u)) (repeat (name_of names m) k) w = (y, Ok tt) ->
     x_opt y = x_opt w /\ x_mask y = x_mask w /\ x_offload y = x_offload w /\ x_heap y = x_heap w /\
     x_reg y = x_reg w ++ repeat (HGradT t m (name_of names m) i) k /\ x_calls y = x_calls w /\ x_log y = x_log w /\ x_state y = x_state w.
  Proof.
    induction k as [|k IHk]; intros w y Ew; cbn [repeat seach] in Ew.
    - injection Ew as <-. cbn [repeat]. rewrite app_nil_r. repeat split.
    - apply sbind_ok in Ew as (v & [] & Ew1 & Ew2). unfold grad_hook, register_tensor_hook in Ew1. destruct (u_req u); [|discriminate Ew1].
      injection Ew1 as <-. apply IHk in Ew2 as (-> & -> & -> & -> & -> & -> & -> & ->). cbn. rewrite <- app_assoc. repeat split.
  Qed.

  (** all of it, once per watch *)
  Definition spread (es : list handed) : list handed := concat (map (fun e => repeat e (times (hand_mod e) mods)) es).
  Lemma spread_app a b : spread (a ++ b) = spread a ++ spread b.
  Proof. unfold spread. rewrite map_app, concat_app. reflexivity. Qed.
  Lemma own_more es : forall a b : list nat, (forall q, In q a -> In q b) -> @own_backward F a es -> own_backward b es.
  Proof.
    induction es as [|e es IH]; intros a b Hab; [auto|]. destruct e; cbn [own_backward]; try (apply IH; exact Hab).
    - apply IH. intros q [<-|Hq]; [left; reflexivity|right; auto].
    - intros [Hi Hw]. split; [auto|exact (IH a b Hab Hw)].
  Qed.
  Lemma own_dset cs q (m : mid) es : @own_backward F (q :: dkeys cs) es -> own_backward (dkeys (dset q m cs)) es.
  Proof.
    apply own_more. intros k. cbn [In]. destruct (in_dec Nat.eq_dec q (dkeys cs)) as [Hi|Hi].
    - rewrite dkeys_dset_in by exact Hi. intros [<-|Hq]; assumption.
    - rewrite dkeys_dset_notin by exact Hi. intros [<-|Hq]; apply in_or_app; [right; left; reflexivity|left; exact Hq].
  Qed.
  Lemma run_dt es : forall h outs cs acc (x x' : lx), dinv h outs cs x -> sums (x_log x) acc -> own_backward (dkeys cs) es -> Forall (foreign c) es ->
    Forall hand_wf (hands o h outs cs es) -> run_evs es x = (x', Ok tt) ->
    x_heap x' = heap_after h es /\ (exists its, made (spread (hands o h outs cs es)) its /\ sums (x_log x') (acc ++ its)) /\
    run_calls (conv_calls (stat_calls h cs es)) (x_state x) = (x_state x', Ok tt).
  Proof.
    induction es as [|e es IH]; intros h outs cs acc x x' HB HG HW HF HH E.
    - injection E as <-. split; [apply HB|]. split; [|reflexivity]. exists []. rewrite app_nil_r. split; [constructor|exact HG].
    - unfold run_evs_dt in E. cbn [seach] in E. apply sbind_ok in E as (y & [] & E1 & E2).
      change (run_evs es y = (x', Ok tt)) in E2. pose proof (Forall_inv HF) as HF1. pose proof (Forall_inv_tail HF) as HF2.
      destruct HB as (Eo & Em & Ef & Eh & Er & Ec).
      destruct e as [t u|k m ins out gm|t g|k gs|e]; cbn [run_ev_dt] in E1.
      + injection E1 as <-. cbn [hands SpecLogger.stat_calls heap_after own_backward] in *.
        refine (IH (dset t u h) outs cs acc (with_heap x (dset t u (x_heap x))) x' _ HG HW HF2 HH E2). repeat split; try assumption. cbn. rewrite Eh. reflexivity.
      + erewrite sbind_run in E1 by reflexivity. rewrite (sbind_run sget _ _ _ _ eq_refl) in E1.
        set (x0 := with_calls x _) in E1. cbn [x_reg with_calls x0] in E1. rewrite Er, pre_inst in E1. apply sbind_ok in E1 as (z & [] & E1 & E3).
        cbn [own_backward] in HW. apply (own_dset cs k m) in HW.
        assert (HX0 : dinv h outs (dset k m cs) x0).
        { repeat split; try assumption. unfold x0. cbn [x_calls with_calls]. intros c' m'. destruct (Nat.eq_dec k c') as [<-|N].
          - rewrite !dget_dset_eq. intros [= <-]. rewrite Er, back_inst. reflexivity.
          - rewrite !dget_dset_neq by congruence. apply Ec. }
        cbn [hands] in HH. rewrite Forall_app in HH. destruct HH as [HH1 HH2].
        assert (HZ : sl x0 z /\ (exists its, made (spread (match ins with [i] => if logs (o_forward o) then [HIn m (mem_get h i)] else [] | _ => [] end)) its /\ sums (x_log z) (acc ++ its)) /\
          run_calls (conv_calls (match ins with [i] => reaches m (o_forward o) "forward" (seen mask (mem_get h i)) | _ => [] end)) (x_state x) = (x_state z, Ok tt)).
        { assert (Nil : times m mods = 0 -> x0 = z -> sl x0 z /\ (exists its, made (spread []) its /\ sums (x_log z) (acc ++ its)) /\ run_calls (conv_calls []) (x_state x) = (x_state z, Ok tt)).
          { intros _ <-. split; [apply sl_refl|]. split; [|reflexivity]. exists []. rewrite app_nil_r. split; [constructor|exact HG]. }
          destruct ins as [|i [|i' r]].
          - destruct (times m mods) as [|j]; [|discriminate E1]. injection E1 as Ez. exact (Nil eq_refl Ez).
          - clear Nil. cbn [foreign] in HF1. pose proof (Forall_inv HF1) as Hi.
            assert (HWi : logs (o_forward o) = true -> twf (snd (mem_get h i))) by (intros El; rewrite El in HH1; inversion HH1; assumption).
            destruct (forward_dt gm m i h x0 z acc ltac:(repeat split; assumption) Hi HWi HG E1) as (S1 & (its & M1 & G1) & C1).
            split; [exact S1|]. split; [|exact C1]. exists its. split; [|exact G1]. destruct (logs (o_forward o)); [|exact M1].
            unfold spread. cbn [map concat hand_mod]. rewrite app_nil_r. exact M1.
          - destruct (times m mods) as [|j]; [|discriminate E1]. injection E1 as Ez. exact (Nil eq_refl Ez). }
        destruct HZ as (S1 & (i1 & M1 & G1) & C1). pose proof (dinv_sl _ _ _ _ _ S1 HX0) as (Eo' & Em' & Ef' & Eh' & Er' & Ec').
        set (h' := match out with OutTensor t u => dset t u h | _ => h end) in *.
        set (outs' := match ins, out with [i], OutTensor t _ => outs ++ [(t, (m, i))] | _, _ => outs end) in *.
        assert (Ha : heap_after h (MCall k m ins out gm :: es) = heap_after h' es) by (unfold h'; destruct out; reflexivity). rewrite Ha.
        cbn [hands SpecLogger.stat_calls]. fold h'. fold outs'. rewrite map_app, spread_app.
        assert (Key : dinv h' outs' (dset k m cs) y /\ x_log y = x_log z /\ x_state y = x_state z).
        { unfold h', outs'. destruct out as [t u| |e].
          * erewrite sbind_run in E3 by reflexivity. rewrite (sbind_run sget _ _ _ _ eq_refl) in E3. cbn [x_reg with_heap] in E3. rewrite Er', fwd_inst in E3.
            destruct ins as [|i [|i' r]].
            - destruct (times m mods) as [|j]; [|discriminate E3]. injection E3 as <-. cbn. repeat split; try assumption. rewrite Eh'. reflexivity.
            - apply register_dt in E3 as (R1 & R2 & R3 & R4 & R5 & R6 & R7 & R8). cbn in R1, R2, R3, R4, R5, R6, R7, R8. split; [|split; [exact R7|exact R8]].
              repeat split; try congruence; [|rewrite R6; exact Ec']. rewrite R5, Er', grad_hooks_app, app_assoc. unfold grad_hooks at 3. cbn [map concat fst snd]. rewrite app_nil_r. reflexivity.
            - destruct (times m mods) as [|j]; [|discriminate E3]. injection E3 as <-. cbn. repeat split; try assumption. rewrite Eh'. reflexivity.
          * rewrite (sbind_run sget _ _ _ _ eq_refl) in E3. rewrite Er', fwd_inst in E3.
            destruct (times m mods) as [|j] eqn:Et; [|destruct ins as [|i [|i' r]]; discriminate E3]. injection E3 as <-. destruct ins as [|i [|i' r]]; (split; [repeat split; assumption|split; reflexivity]).
          * discriminate E3. }
        destruct Key as (K1 & K2 & K3). rewrite <- K2 in G1.
        destruct (IH _ _ _ _ _ _ K1 G1 HW HF2 HH2 E2) as (A2 & (i2 & M2 & G2) & C2). split; [exact A2|]. split.
        * exists (i1 ++ i2). rewrite app_assoc. split; [apply Forall2_app; assumption|exact G2].
        * rewrite K3 in C2. exact (run_calls_ok _ _ _ _ _ C1 C2).
      + rewrite (sbind_run sget _ _ _ _ eq_refl) in E1. rewrite Er, on_tensor_inst in E1. cbn [own_backward SpecLogger.stat_calls heap_after hands] in *.
        rewrite Forall_app in HH. destruct HH as [HH1 HH2].
        destruct (grad_dt g h (filter (fun p => t =? fst p) outs) x y acc ltac:(repeat split; assumption) HG E1) as (S1 & (i1 & M1 & G1) & C1).
        assert (HB : dinv h outs cs y) by (apply (dinv_sl _ _ _ _ _ S1); repeat split; assumption).
        destruct (IH _ _ _ _ _ _ HB G1 HW HF2 HH2 E2) as (A2 & (i2 & M2 & G2) & C2). split; [exact A2|]. split; [|rewrite <- C1; exact C2].
        exists (i1 ++ i2). rewrite app_assoc, spread_app. split; [|exact G2]. apply Forall2_app; [|exact M2].
        revert M1. generalize (filter (fun p => t =? fst p) outs). intros l M1. destruct (logs (o_grad o)).
        * unfold spread. rewrite map_map. exact M1.
        * replace (spread []) with (@nil handed) by reflexivity. revert M1. replace (concat (map (fun _ : tid * (mid * tid) => @nil handed) l)) with (@nil handed); [auto|].
          clear. induction l; [reflexivity|assumption].
      + rewrite (sbind_run sget _ _ _ _ eq_refl) in E1. cbn [own_backward SpecLogger.stat_calls heap_after hands] in *. destruct HW as [Hc HW].
        rewrite Forall_app in HH. destruct HH as [HH1 HH2].
        destruct (dget k cs) as [m|] eqn:Ed; [|exfalso; apply dget_None_keys in Ed; contradiction]. rewrite (Ec k m Ed) in E1.
        assert (HZ : sl x y /\ (exists its, made (spread (match gs with [g] => if logs (o_backward o) then [HOut m (mem_get h g)] else [] | _ => [] end)) its /\ sums (x_log y) (acc ++ its)) /\
          run_calls (conv_calls (match gs with [g] => reaches m (o_backward o) "backward" (mem_get h g) | _ => [] end)) (x_state x) = (x_state y, Ok tt)).
        { assert (Nil : times m mods = 0 -> x = y -> sl x y /\ (exists its, made (spread []) its /\ sums (x_log y) (acc ++ its)) /\ run_calls (conv_calls []) (x_state x) = (x_state y, Ok tt)).
          { intros _ <-. split; [apply sl_refl|]. split; [|reflexivity]. exists []. rewrite app_nil_r. split; [constructor|exact HG]. }
          destruct gs as [|g [|g' r]].
          - destruct (times m mods) as [|j]; [|discriminate E1]. injection E1 as Ez. exact (Nil eq_refl Ez).
          - clear Nil. cbn [foreign] in HF1. pose proof (Forall_inv HF1) as Hi.
            assert (HWi : logs (o_backward o) = true -> twf (snd (mem_get h g))) by (intros El; rewrite El in HH1; inversion HH1; assumption).
            destruct (backward_dt m g h x y acc ltac:(repeat split; assumption) Hi HWi HG E1) as (S1 & (its & M1 & G1) & C1).
            split; [exact S1|]. split; [|exact C1]. exists its. split; [|exact G1]. destruct (logs (o_backward o)); [|exact M1].
            unfold spread. cbn [map concat hand_mod]. rewrite app_nil_r. exact M1.
          - destruct (times m mods) as [|j]; [|discriminate E1]. injection E1 as Ez. exact (Nil eq_refl Ez). }
        destruct HZ as (S1 & (i1 & M1 & G1) & C1).
        assert (HB : dinv h outs cs y) by (apply (dinv_sl _ _ _ _ _ S1); repeat split; assumption).
        destruct (IH _ _ _ _ _ _ HB G1 HW HF2 HH2 E2) as (A2 & (i2 & M2 & G2) & C2). split; [exact A2|]. rewrite map_app, spread_app. split.
        * exists (i1 ++ i2). rewrite app_assoc. split; [apply Forall2_app; assumption|exact G2].
        * exact (run_calls_ok _ _ _ _ _ C1 C2).
      + discriminate E1.
  Qed.
  Lemma made_arriving es its n ty : made (spread es) its -> Forall2 (becomes kind c mask) (arriving mods names n ty es) (of_key n ty its).
  Proof.
    revert its. induction es as [|e es IH]; intros its HN.
    - inversion HN. constructor.
    - unfold spread in HN. cbn [map concat] in HN. apply Forall2_app_inv_l in HN as (a1 & a2 & H1 & H2 & ->).
      unfold arriving. cbn [map concat]. rewrite of_key_app. apply Forall2_app; [|apply IH; exact H2]. clear IH H2.
      revert a1 H1. generalize (times (hand_mod e) mods). intros k. induction k as [|k IHk]; intros a1 H1; inversion H1 as [|? p ? a' [Ep Hp] Hr]; subst; cbn [repeat].
      + destruct (_ && _); constructor.
      + unfold of_key. cbn [filter]. rewrite Ep. cbn [fst snd]. specialize (IHk _ Hr). destruct (_ && _).
        * cbn [map]. constructor; [exact Hp|exact IHk].
        * exact IHk.
  Qed.
  End Batch.

  Lemma dtype_batch ids mask es (x x1 x2 : lx) : reachable_dt kind wsize eigh enc (Some c) x -> begins ids mask x x1 -> logs_and_moments (x_opt x) ->
    own_backward [] es -> Forall (foreign c) es -> Forall hand_wf (hands (x_opt x) (x_heap x) [] [] es) -> run_evs es x1 = (x2, Ok tt) ->
    x_heap x2 = heap_after (x_heap x) es /\
    (forall n ty, exists ts, Forall2 (becomes kind c mask) (arriving (x_mods x) (x_names x) n ty (hands (x_opt x) (x_heap x) [] [] es)) ts /\
       match ts with
       | [] => logged x2 n ty = None
       | _ => exists G, logged x2 n ty = Some G /\ sum_onto ts G
       end) /\
    run_calls (map (converted c) (stat_calls kind (x_mods x) (x_names x) (x_opt x) mask (x_offload x) (x_heap x) [] es)) (x_state x) = (x_state x2, Ok tt).
  Proof.
    intros HR HB HM HW HF HH E. destruct (begins_dt_fresh _ _ _ _ _ _ _ _ _ HR HB) as (El & Em & Er & Es & Eo & Eh & Ef).
    destruct (reachable_dt_inv _ _ _ _ _ _ HR) as [_ HO].
    assert (HI : dinv (x_mods x) (x_names x) (x_opt x) mask (x_offload x) (x_heap x) [] [] x1).
    { repeat split; try assumption; [|discriminate]. rewrite Er. unfold grad_hooks. cbn [map concat]. rewrite app_nil_r. reflexivity. }
    assert (HG : sums (x_log x1) []). { intros n ty. cbn. rewrite El. reflexivity. }
    destruct (run_dt (x_mods x) (x_names x) (x_opt x) mask (x_offload x) HO HM es _ _ _ _ _ _ HI HG HW HF HH E) as (A & (its & M & G) & C).
    split; [exact A|]. split; [|rewrite <- Es; exact C]. intros n ty. exists (of_key n ty its). split; [exact (made_arriving _ _ _ _ _ _ _ M)|].
    specialize (G n ty). cbn [app] in G. unfold logged. unfold entry in G. destruct (of_key n ty its) as [|t ts].
    - destruct (dget n (x_log x2)) as [l|]; [rewrite G|]; reflexivity.
    - destruct G as (u & Eu & HS). destruct (dget n (x_log x2)) as [l|]; [|discriminate Eu]. rewrite Eu. eexists. split; [reflexivity|exact HS].
  Qed.
End P.
