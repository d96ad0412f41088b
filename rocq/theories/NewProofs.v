(** Newly created trainers. *)
From Verif Require Import Py PyStr Field Tensor ModelGrad Monad ModelState ModelMmap ModelSaver ModelLogger ModelModules ModelLora ModelScheduler ModelInfluence ModelUtils ModelTrainer ModelLightning SpecLora SpecWatch SpecScheduler SpecNew SchedProofs WatchProofs3 LoraProofs2 LoraProofs5 LoraProofs7 LoraProofs8 LoraProofs9 LoraProofs11 LoraProofs16 LoraProofs17 LoraProofs18 LoraProofs19.
Local Open Scope string_scope.
Local Open Scope list_scope.
Local Open Scope nat_scope.

Section P.
  Context {F : Type} `{OField F}.
  Notation lm := (@lm F).
  Notation tr := (@tr F).
  Context (rnd : mid -> list nat -> F) (svd : tensor F -> res (tensor F)).

  Lemma watch_watching tf nf root n (s s' : lm) o : tree_ok root n -> lm_watch root tf nf s = (s', o) -> watching (chosen tf (lm_tf s)) (chosen nf (lm_nf s)) root s s'.
  Proof.
    intros OK E. destruct (watch_tree root tf nf n s s' o OK E) as (R1 & R2 & R3 & R4 & R5). apply lm_watch_run in E as (_ & _ & _ & _ & _ & _ & _ & R6 & _). repeat (split; [assumption|]). exact R5.
  Qed.
  Lemma add_compressed tf nf root (s s1 s2 : lm) o : tree_ok root (lm_next s) -> t_kids root <> [] -> plain root ->
    lm_watch root tf nf s = (s1, o) -> (exists i, selected (chosen tf (lm_tf s)) (chosen nf (lm_nf s)) root i) ->
    lm_add_lora rnd svd true true None None None None s1 = (s2, Ok tt) ->
    compressed (in_use (lm_handler s) None (lm_cfg s)) (chosen tf (lm_tf s)) (chosen nf (lm_nf s)) root s s2.
  Proof.
    intros OK Kr PL E1 EX E2. destruct (watch_tree root tf nf _ s s1 o OK E1) as (_ & _ & _ & _ & _ & _ & FR). apply lm_watch_run in E1 as (R1 & R2 & R3 & R4 & R5 & R6 & R7 & R8 & _).
    set (tf' := chosen tf (lm_tf s)) in *. set (nf' := chosen nf (lm_nf s)) in *.
    assert (OK1 : tree_ok root (lm_next s1)) by (rewrite R3; exact OK).
    assert (EX1 : exists i, selected (chosen None (lm_tf s1)) (chosen None (lm_nf s1)) root i) by (rewrite R4, R5; exact EX).
    destruct (add_lora_bottlenecks rnd svd _ _ _ _ _ _ _ R1 Kr OK1 PL E2 EX1) as (f & Ef & WR & XM & TR & _).
    destruct (add_lora_tracked rnd svd _ _ _ _ _ _ _ R1 Kr OK1 E2) as (root' & Er' & _ & _ & _ & FR2). rewrite Ef in Er'. injection Er' as <-.
    destruct (add_lora_tree rnd svd _ _ _ _ _ _ _ _ R1 Kr OK1 E2) as (_ & _ & _ & _ & WS).
    destruct (add_lora_done rnd svd _ _ _ _ _ _ _ _ R1 Kr OK1 E2) as (_ & _ & _ & _ & _ & _ & _ & _ & _ & _ & T1 & T2 & _).
    cbn [chosen] in *. rewrite R3, R4, R5, R6, R7 in *. exists f. split; [exact Ef|]. split; [exact T1|]. split; [exact T2|]. split; [exact WR|]. split; [intros u Bu; rewrite WS, R2 by exact Bu; reflexivity|].
    split; [exact XM|]. split; [exact TR|]. intros p. rewrite FR2, FR. tauto.
  Qed.
  Lemma add_holds tf nf root (s s1 s2 : lm) o : tree_ok root (lm_next s) -> t_kids root <> [] -> plain root -> undotted root ->
    lm_watch root tf nf s = (s1, o) -> (exists i, selected (chosen tf (lm_tf s)) (chosen nf (lm_nf s)) root i) ->
    lm_add_lora rnd svd true true None None None None s1 = (s2, Ok tt) ->
    (exists file, lm_file s2 = Some file /\ holds_weights file s2) /\ forall c h, lora_from_log rnd svd None (lm_set_lora s2 c h) = (lm_set_lora s2 c h, Ok tt).
  Proof.
    intros OK Kr PL U E1 EX E2. apply lm_watch_run in E1 as (R1 & R2 & R3 & R4 & R5 & R6 & R7 & R8 & _).
    assert (OK1 : tree_ok root (lm_next s1)) by (rewrite R3; exact OK).
    assert (EX1 : exists i, selected (chosen None (lm_tf s1)) (chosen None (lm_nf s1)) root i) by (rewrite R4, R5; exact EX). split.
    - destruct (add_lora_writes rnd svd _ _ _ _ _ _ _ R1 Kr OK1 PL U EX1 E2) as (root1 & file & Er & _ & _ & Ef & _ & X & W & _). exists file. split; [exact Ef|]. exists root1. auto.
    - intros c h. exact (from_log_after_cfg rnd svd s1 s2 root _ _ _ _ c h R1 Kr OK1 PL U EX1 E2).
  Qed.

  (** ---- Hugging Face ---- *)
  Lemma on_tlm_run {A} (m : SM lm A) (p : tr) : on_tlm m p = (tr_set_lm p (tr_sched p) (fst (m (tr_lm p))), snd (m (tr_lm p))).
  Proof. unfold on_tlm. destruct (m (tr_lm p)). reflexivity. Qed.
  Definition fresh_of (c : sched) (s : lm) : tr := TR c s [] [] None "log" [] None None.
  Lemma new_trainer_run a hessian save (s : lm) root c : new_sched "none" hessian save = Ok c ->
    new_trainer rnd svd a hessian save s root =
      let (s1, o) := lm_watch root (Some (ha_tf a)) (Some (ha_nf a)) s in
      match o with
      | Err e => (fresh_of c s1, Err e)
      | Ok _ => if ha_lora a then let (s2, o2) := lm_add_lora rnd svd true true None None None None s1 in (fresh_of c s2, o2) else (fresh_of c s1, Ok tt)
      end.
  Proof.
    intros E. unfold new_trainer. rewrite E. unfold on_init_end, sbind. rewrite on_tlm_run. cbn [tr_lm]. destruct (lm_watch root (Some (ha_tf a)) (Some (ha_nf a)) s) as [s1 [[]|e]]; cbn [fst snd]; [|reflexivity].
    destruct (ha_lora a); [|reflexivity]. rewrite on_tlm_run. cbn [tr_lm tr_set_lm]. destruct (lm_add_lora _ _ _ _ _ _ _ _ s1) as [s2 o2]. reflexivity.
  Qed.
  Lemma trainer_new a hessian save (s : lm) root p o : good "none" hessian save -> new_trainer rnd svd a hessian save s root = (p, o) ->
    exists c s', new_sched "none" hessian save = Ok c /\ p = TR c s' [] [] None "log" [] None None /\ num_epochs p = epochs "none" hessian.
  Proof.
    intros G E. destruct (sched_good _ _ _ G) as (c & Ec & L). rewrite (new_trainer_run a hessian save s root c Ec) in E. exists c.
    destruct (lm_watch _ _ _ s) as [s1 [[]|e]]; [destruct (ha_lora a); [destruct (lm_add_lora _ _ _ _ _ _ _ _ s1) as [s2 o2]|]|]; injection E as <- _; eexists; (split; [exact Ec|split; [reflexivity|exact L]]).
  Qed.
  Lemma trainer_refused a hessian save (s : lm) root :
    (~ In hessian ["none"; "raw"; "kfac"; "ekfac"] -> exists p, new_trainer rnd svd a hessian save s root = (p, Err AssertionError) /\ tr_lm p = s) /\
    (In hessian ["none"; "raw"; "kfac"; "ekfac"] -> ~ In save ["none"; "forward"; "backward"; "grad"] -> exists p, new_trainer rnd svd a hessian save s root = (p, Err KeyError) /\ tr_lm p = s).
  Proof.
    destruct (sched_bad "none" hessian save) as [B1 B2]. unfold new_trainer. split.
    - intros N. rewrite B1 by auto. eexists. split; reflexivity.
    - intros N1 N2. rewrite B2; [eexists; split; reflexivity|left; reflexivity|exact N1|exact N2].
  Qed.
  Lemma trainer_watching a hessian save (s : lm) root n p o : good "none" hessian save -> ha_lora a = false -> tree_ok root n ->
    new_trainer rnd svd a hessian save s root = (p, o) -> watching (chosen (Some (ha_tf a)) (lm_tf s)) (chosen (Some (ha_nf a)) (lm_nf s)) root s (tr_lm p).
  Proof.
    intros G L OK E. destruct (sched_good _ _ _ G) as (c & Ec & _). rewrite (new_trainer_run a hessian save s root c Ec), L in E.
    destruct (lm_watch _ _ _ s) as [s1 [[]|e]] eqn:E1; injection E as <- _; exact (watch_watching _ _ _ _ _ _ _ OK E1).
  Qed.
  Lemma trainer_lora_inv a hessian save (s : lm) root p : good "none" hessian save -> ha_lora a = true -> new_trainer rnd svd a hessian save s root = (p, Ok tt) ->
    exists s1, lm_watch root (Some (ha_tf a)) (Some (ha_nf a)) s = (s1, Ok tt) /\ lm_add_lora rnd svd true true None None None None s1 = (tr_lm p, Ok tt).
  Proof.
    intros G L E. destruct (sched_good _ _ _ G) as (c & Ec & _). rewrite (new_trainer_run a hessian save s root c Ec), L in E.
    destruct (lm_watch _ _ _ s) as [s1 [[]|e]] eqn:E1; [|discriminate E]. destruct (lm_add_lora _ _ _ _ _ _ _ _ s1) as [s2 o2] eqn:E2. injection E as <- ->. exists s1. split; [reflexivity|]. exact E2.
  Qed.
  Lemma trainer_compressed a hessian save (s : lm) root p : good "none" hessian save -> ha_lora a = true -> tree_ok root (lm_next s) -> t_kids root <> [] -> plain root ->
    let tf := chosen (Some (ha_tf a)) (lm_tf s) in let nf := chosen (Some (ha_nf a)) (lm_nf s) in
    (exists i, selected tf nf root i) -> new_trainer rnd svd a hessian save s root = (p, Ok tt) ->
    compressed (in_use (lm_handler s) None (lm_cfg s)) tf nf root s (tr_lm p).
  Proof.
    intros G L OK Kr PL tf nf EX E. destruct (trainer_lora_inv _ _ _ _ _ _ G L E) as (s1 & E1 & E2). exact (add_compressed _ _ _ _ _ _ _ OK Kr PL E1 EX E2).
  Qed.
  Lemma trainer_lora_lost a hessian save (s : lm) root p p2 o : good "none" hessian save -> ha_lora a = true -> tree_ok root (lm_next s) -> t_kids root <> [] -> plain root -> undotted root ->
    (exists i, selected (chosen (Some (ha_tf a)) (lm_tf s)) (chosen (Some (ha_nf a)) (lm_nf s)) root i) -> new_trainer rnd svd a hessian save s root = (p, Ok tt) ->
    (exists file, lm_file (tr_lm p) = Some file /\ holds_weights file (tr_lm p)) /\
    (on_train_begin rnd svd a p = (p2, o) -> lm_root (tr_lm p2) = lm_root (tr_lm p) /\ lm_w (tr_lm p2) = lm_w (tr_lm p) /\ lm_file (tr_lm p2) = lm_file (tr_lm p)).
  Proof.
    intros G L OK Kr PL U EX E. destruct (trainer_lora_inv _ _ _ _ _ _ G L E) as (s1 & E1 & E2). destruct (add_holds _ _ _ _ _ _ _ OK Kr PL U E1 EX E2) as [Hf Hl]. split; [exact Hf|].
    set (R := fun q : tr => lm_root (tr_lm q) = lm_root (tr_lm p) /\ lm_w (tr_lm q) = lm_w (tr_lm p) /\ lm_file (tr_lm q) = lm_file (tr_lm p)).
    assert (Rx : forall A (m : SM (@lx F) A) q, R q -> R (fst (on_tlm (on_x m) q))).
    { intros A m q Hq. rewrite on_tlm_run. unfold on_x. destruct (m (lm_x (tr_lm q))) as [x' r]. exact Hq. }
    intros Eb. change (R p2).
    assert (Rp : R (fst (on_train_begin rnd svd a p))); [|rewrite Eb in Rp; exact Rp]. clear Eb.
    assert (R0 : R p) by (repeat split). unfold on_train_begin. rewrite (sbind_run _ _ p p p) by reflexivity.
    assert (I1 : R (fst ((if ha_init a then on_tlm (init_from_log rnd svd) else sret tt) p))).
    { destruct (ha_init a); [|exact R0]. rewrite on_tlm_run. unfold init_from_log. destruct (lm_conf (tr_lm p)) as [c|] eqn:Ec; [rewrite (init_stored _ _ _ _ _ _ Ec), Hl|rewrite (init_missing _ _ _ _ _ Ec); exact R0]. cbv zeta beta iota. destruct (load_state _ _) as [st r]. exact R0. }
    unfold sbind at 1. destruct ((if ha_init a then on_tlm (init_from_log rnd svd) else sret tt) p) as [p1 [[]|e]]; [|exact I1]. cbn [fst] in I1.
    destruct (mem (tr_mode p) _); [|exact I1]. unfold sbind. pose proof (Rx _ (lx_setup [("grad", [AStr "log"])]) p1 I1) as I2. destruct (on_tlm (on_x (lx_setup [("grad", [AStr "log"])])) p1) as [p3 [[]|e]]; [|exact I2].
    cbn [fst] in I2. exact (Rx _ lx_eval p3 I2).
  Qed.
End P.
