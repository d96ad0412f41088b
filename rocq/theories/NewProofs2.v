(** Newly created Lightning modules. *)
From Verif Require Import Py PyStr Field Tensor ModelGrad Monad ModelState ModelMmap ModelSaver ModelLogger ModelModules ModelLora ModelScheduler ModelInfluence ModelUtils ModelTrainer ModelLightning SpecLora SpecWatch SpecScheduler SpecNew SchedProofs WatchProofs3 LoraProofs2 LoraProofs5 LoraProofs7 LoraProofs8 LoraProofs9 LoraProofs11 LoraProofs16 LoraProofs17 LoraProofs18 LoraProofs19 NewProofs.
Local Open Scope string_scope.
Local Open Scope list_scope.
Local Open Scope nat_scope.

Section P.
  Context {F : Type} `{OField F} {X : Type}.
  Notation lm := (@lm F).
  Notation pl := (@pl F X).
  Context (rnd : mid -> list nat -> F) (svd : tensor F -> res (tensor F)).
  Notation new_module := (ModelLightning.new_module rnd svd).

  Lemma pl_new hessian save (s : lm) (e : X) : good "none" hessian save ->
    exists c, new_sched "none" hessian save = Ok c /\ new_pl hessian save s e = Ok (PL (TR c s [] [] None "log" [] None None) e 0 false) /\ length (sc_all c) = epochs "none" hessian.
  Proof. intros G. destruct (sched_good _ _ _ G) as (c & Ec & L). exists c. split; [exact Ec|]. split; [|exact L]. unfold new_pl. rewrite Ec. reflexivity. Qed.
  Lemma pl_refused hessian save (s : lm) (e : X) :
    (~ In hessian ["none"; "raw"; "kfac"; "ekfac"] -> new_pl hessian save s e = Err AssertionError) /\
    (In hessian ["none"; "raw"; "kfac"; "ekfac"] -> ~ In save ["none"; "forward"; "backward"; "grad"] -> new_pl hessian save s e = Err KeyError).
  Proof.
    destruct (sched_bad "none" hessian save) as [B1 B2]. unfold new_pl. split.
    - intros N. rewrite B1 by auto. reflexivity.
    - intros N1 N2. rewrite B2; [reflexivity|left; reflexivity|exact N1|exact N2].
  Qed.
  Definition pl_put (q : pl) (s : lm) : pl := PL (tr_set_lm (pl_t q) (tr_sched (pl_t q)) s) (pl_ext q) (pl_epoch q) (pl_stop q).
  Lemma on_pl_run {A} (m : SM lm A) (q : pl) : on_t (on_tlm m) q = (pl_put q (fst (m (pl_lm q))), snd (m (pl_lm q))).
  Proof. unfold on_t. rewrite on_tlm_run. reflexivity. Qed.
  Lemma put_put (q : pl) s s' : pl_put (pl_put q s) s' = pl_put q s'.
  Proof. reflexivity. Qed.
  Definition prepare (a : @plargs F) (root : mtree) : SM lm unit :=
    lm_watch root (Some (pa_tf a)) (Some (pa_nf a)) ;; (if pa_lora a then lm_add_lora rnd svd true true None None None None else sret tt).
  Lemma module_run a root (q : pl) : new_module a root q =
    let (s1, o) := prepare a root (pl_lm q) in
    match o with
    | Err e => (pl_put q s1, Err e)
    | Ok _ => if pa_init a then let (s2, o2) := init_from_log rnd svd s1 in (pl_put q s2, o2) else (pl_put q s1, Ok tt)
    end.
  Proof.
    unfold ModelLightning.new_module, prepare. unfold sbind at 1. unfold sbind at 2. rewrite on_pl_run. destruct (lm_watch root _ _ (pl_lm q)) as [s1 [[]|e]]; cbn [fst snd]; [|reflexivity].
    unfold sbind at 1. destruct (pa_lora a).
    - rewrite on_pl_run. change (pl_lm (pl_put q s1)) with s1. destruct (lm_add_lora _ _ _ _ _ _ _ _ s1) as [s2 [[]|e]]; cbn [fst snd]; [|reflexivity].
      rewrite put_put. destruct (pa_init a); [|reflexivity]. rewrite on_pl_run. change (pl_lm (pl_put q s2)) with s2. destruct (init_from_log rnd svd s2). reflexivity.
    - unfold sret. cbn [fst snd]. destruct (pa_init a); [|reflexivity]. rewrite on_pl_run. change (pl_lm (pl_put q s1)) with s1. destruct (init_from_log rnd svd s1) as [s2 o2]. reflexivity.
  Qed.
  Lemma module_frame a root (q q' : pl) o : new_module a root q = (q', o) -> exists s', q' = PL (tr_set_lm (pl_t q) (tr_sched (pl_t q)) s') (pl_ext q) (pl_epoch q) (pl_stop q).
  Proof.
    rewrite module_run. destruct (prepare a root (pl_lm q)) as [s1 [[]|e]]; [destruct (pa_init a); [destruct (init_from_log rnd svd s1) as [s2 o2]|]|]; intros [= <- _]; eexists; reflexivity.
  Qed.
  Lemma module_watching a root n (q q' : pl) o : pa_lora a = false -> pa_init a = false -> tree_ok root n -> new_module a root q = (q', o) ->
    watching (chosen (Some (pa_tf a)) (lm_tf (pl_lm q))) (chosen (Some (pa_nf a)) (lm_nf (pl_lm q))) root (pl_lm q) (pl_lm q').
  Proof.
    intros L N OK. rewrite module_run, N. unfold prepare, sbind. rewrite L. destruct (lm_watch root _ _ (pl_lm q)) as [s1 [[]|e]] eqn:E1; intros [= <- _]; exact (watch_watching _ _ _ _ _ _ _ OK E1).
  Qed.
  Lemma prepare_lora a root (s s1 : lm) : pa_lora a = true -> prepare a root s = (s1, Ok tt) ->
    exists s0, lm_watch root (Some (pa_tf a)) (Some (pa_nf a)) s = (s0, Ok tt) /\ lm_add_lora rnd svd true true None None None None s0 = (s1, Ok tt).
  Proof. intros L E. unfold prepare in E. rewrite L in E. apply sbind_ok in E as (s0 & [] & E1 & E2). exists s0. auto. Qed.
  Lemma module_compressed a root (q q' : pl) : pa_lora a = true -> pa_init a = false -> tree_ok root (lm_next (pl_lm q)) -> t_kids root <> [] -> plain root ->
    let tf := chosen (Some (pa_tf a)) (lm_tf (pl_lm q)) in let nf := chosen (Some (pa_nf a)) (lm_nf (pl_lm q)) in
    (exists i, selected tf nf root i) -> new_module a root q = (q', Ok tt) ->
    compressed (in_use (lm_handler (pl_lm q)) None (lm_cfg (pl_lm q))) tf nf root (pl_lm q) (pl_lm q').
  Proof.
    intros L N OK Kr PL tf nf EX. rewrite module_run, N. destruct (prepare a root (pl_lm q)) as [s1 [[]|e]] eqn:E; [|discriminate]. intros [= <-].
    destruct (prepare_lora _ _ _ _ L E) as (s0 & E1 & E2). exact (add_compressed rnd svd _ _ _ _ _ _ _ OK Kr PL E1 EX E2).
  Qed.
  Lemma prepare_conf a root (s s' : lm) o : prepare a root s = (s', o) -> lm_conf s' = lm_conf s.
  Proof.
    intros E. change s' with (fst (s', o)). rewrite <- E. unfold prepare. apply kc_bind; [apply kc_watch|]. intros _. destruct (pa_lora a); [apply kc_add|apply kc_ret].
  Qed.
  (** without the configuration of an earlier run *)
  Lemma module_init_missing a root (q q1 : pl) : pa_init a = true -> lm_conf (pl_lm q) = None -> new_module (without_init a) root q = (q1, Ok tt) -> new_module a root q = (q1, Err AssertionError).
  Proof.
    intros Ei Ec. rewrite !module_run. cbn [without_init pa_init]. rewrite Ei. change (prepare (without_init a) root) with (prepare a root). destruct (prepare a root (pl_lm q)) as [s1 [[]|e]] eqn:E; [|discriminate].
    intros [= <-]. apply prepare_conf in E. unfold init_from_log. rewrite init_missing by congruence. reflexivity.
  Qed.
  Lemma init_same (s s' : lm) c o : lm_conf s = Some c -> lora_from_log rnd svd None (lm_set_lora s c (lm_handler s)) = (lm_set_lora s c (lm_handler s), Ok tt) -> init_from_log rnd svd s = (s', o) ->
    lm_root s' = lm_root s /\ lm_w s' = lm_w s /\ lm_file s' = lm_file s /\ lm_cfg s' = c /\ x_names (lm_x s') = x_names (lm_x s) /\ (x_state (lm_x s'), o) = load_state (x_disk (lm_x s)) (x_state (lm_x s)).
  Proof.
    intros Ec Hl. unfold init_from_log. rewrite (init_stored _ _ _ _ _ _ Ec), Hl. cbv zeta beta iota. cbn [lm_set_lora lm_x]. destruct (load_state (x_disk (lm_x s)) (x_state (lm_x s))) as [st r]. intros [= <- <-]. repeat split.
  Qed.
  (** initialize_from_log: the statistics are read, the modules and their weights are those without it *)
  Lemma module_init a root (q q1 q' : pl) c o : pa_init a = true -> lm_conf (pl_lm q) = Some c -> tree_ok root (lm_next (pl_lm q)) ->
    (pa_lora a = false -> lm_file (pl_lm q) = None) ->
    (pa_lora a = true -> t_kids root <> [] /\ plain root /\ undotted root /\ exists i, selected (chosen (Some (pa_tf a)) (lm_tf (pl_lm q))) (chosen (Some (pa_nf a)) (lm_nf (pl_lm q))) root i) ->
    new_module (without_init a) root q = (q1, Ok tt) -> new_module a root q = (q', o) ->
    let s := pl_lm q1 in let s' := pl_lm q' in
    lm_root s' = lm_root s /\ lm_w s' = lm_w s /\ lm_file s' = lm_file s /\ lm_cfg s' = c /\ x_names (lm_x s') = x_names (lm_x s) /\ (x_state (lm_x s'), o) = load_state (x_disk (lm_x s)) (x_state (lm_x s)) /\
    (pa_lora a = true -> exists file, lm_file s' = Some file /\ holds_weights file s').
  Proof.
    intros Ei Ec OK C1 C2. rewrite !module_run. cbn [without_init pa_init]. rewrite Ei. change (prepare (without_init a) root) with (prepare a root). destruct (prepare a root (pl_lm q)) as [s1 [[]|e]] eqn:E; [|discriminate].
    intros [= <-]. destruct (init_from_log rnd svd s1) as [s2 o2] eqn:E2. intros [= <- <-]. cbn zeta. change (pl_lm (pl_put q s1)) with s1. change (pl_lm (pl_put q s2)) with s2.
    pose proof (prepare_conf _ _ _ _ _ E) as Ec1. rewrite Ec in Ec1. destruct (pa_lora a) eqn:L.
    - destruct (C2 eq_refl) as (Kr & PL & U & EX). destruct (prepare_lora _ _ _ _ L E) as (s0 & E0 & E1). destruct (add_holds rnd svd _ _ _ _ _ _ _ OK Kr PL U E0 EX E1) as [(file & Hf & Hw) Hl].
      destruct (init_same _ _ _ _ Ec1 (Hl _ _) E2) as (R1 & R2 & R3 & R4 & R5 & R6). repeat (split; [assumption|]). intros _. exists file. split; [congruence|].
      destruct Hw as (r & Er & Hw). exists r. rewrite R1, R2. auto.
    - unfold prepare in E. rewrite L in E. apply sbind_ok in E as (s0 & [] & E0 & E1). injection E1 as <-. apply lm_watch_run in E0 as (_ & _ & _ & _ & _ & _ & _ & R8 & _).
      assert (Hl : lora_from_log rnd svd None (lm_set_lora s0 c (lm_handler s0)) = (lm_set_lora s0 c (lm_handler s0), Ok tt)).
      { apply from_log_skip. right. left. split; [reflexivity|]. cbn [lm_set_lora lm_file]. rewrite R8. apply C1. reflexivity. }
      destruct (init_same _ _ _ _ Ec1 Hl E2) as (R1 & R2 & R3 & R4 & R5 & R6). repeat (split; [assumption|]). discriminate.
  Qed.
  (** a stored file, lora not asked for: LoRA is added with new weights, the stored ones are lost *)
  Lemma module_init_lost a root (q q' : pl) c old : pa_init a = true -> pa_lora a = false -> lm_conf (pl_lm q) = Some c -> lm_file (pl_lm q) = Some old ->
    tree_ok root (lm_next (pl_lm q)) -> t_kids root <> [] -> plain root -> undotted root ->
    let tf := chosen (Some (pa_tf a)) (lm_tf (pl_lm q)) in let nf := chosen (Some (pa_nf a)) (lm_nf (pl_lm q)) in
    (exists i, selected tf nf root i) -> new_module a root q = (q', Ok tt) ->
    compressed (in_use (lm_handler (pl_lm q)) None c) tf nf root (pl_lm q) (pl_lm q') /\ exists file, lm_file (pl_lm q') = Some file /\ holds_weights file (pl_lm q').
  Proof.
    intros Ei L Ec Ef OK Kr PL U tf nf EX. rewrite module_run, Ei. destruct (prepare a root (pl_lm q)) as [s1 [[]|e]] eqn:E; [|discriminate]. destruct (init_from_log rnd svd s1) as [s2 o2] eqn:E2. intros [= <- ->].
    pose proof (prepare_conf _ _ _ _ _ E) as Ec1. rewrite Ec in Ec1.
    change (pl_lm (pl_put q s2)) with s2. unfold prepare in E. rewrite L in E. apply sbind_ok in E as (s0 & [] & E0 & E1). injection E1 as <-.
    pose proof E0 as E0'. apply lm_watch_run in E0' as (_ & _ & _ & _ & _ & _ & R7 & _).
    apply (watch_lora _ _ _ _ _ _ c (lm_handler (pl_lm q))) in E0.
    pose proof E0 as E0'. apply lm_watch_run in E0' as (R1 & R2 & R3 & R4 & R5 & R6 & _ & R8 & _).
    assert (NL : ~ (exists j, In j (named_modules root) /\ substring "logix_lora_B" (i_name j))) by exact (plain_not_lora _ _ OK PL).
    unfold init_from_log in E2. rewrite (init_stored _ _ _ _ _ _ Ec1), R7 in E2. set (sc := lm_set_lora s0 c (lm_handler (pl_lm q))) in *.
    destruct (lm_add_lora rnd svd true true None None None None sc) as [s4 [[]|e]] eqn:E5.
    2:{ rewrite (from_log_add_fails rnd svd None sc s4 root e) in E2; [discriminate E2|cbn [stored_lora]; rewrite R8; cbn [lm_set_lora lm_file]; rewrite Ef; discriminate|exact R1|exact NL|exact E5]. }
    assert (OK0 : tree_ok root (lm_next sc)) by (rewrite R3; exact OK).
    assert (EX0 : exists i, selected (lm_tf sc) (lm_nf sc) root i) by (rewrite R4, R5; exact EX).
    destruct (from_log_lost rnd svd sc s4 root old R1 Kr OK0 PL U EX0) as [Hl _]; [rewrite R8; exact Ef|exact E5|]. rewrite Hl in E2. cbv zeta beta iota in E2.
    pose proof (add_compressed rnd svd _ _ _ _ _ _ _ (OK : tree_ok root (lm_next (lm_set_lora (pl_lm q) c (lm_handler (pl_lm q))))) Kr PL E0 EX E5) as C.
    destruct (add_holds rnd svd _ _ _ _ _ _ _ (OK : tree_ok root (lm_next (lm_set_lora (pl_lm q) c (lm_handler (pl_lm q))))) Kr PL U E0 EX E5) as [(file & Hf & Hw) _].
    destruct (load_state (x_disk (lm_x s4)) (x_state (lm_x s4))) as [st r]. injection E2 as <- _. split; [exact C|]. exists file. split; [exact Hf|]. exact Hw.
  Qed.
End P.
