(** Steps and batches of self-influence runs (C99). *)
From Coq Require Import ZArith Lia.
From Verif Require Import Py PyStr Field Tensor ModelGrad Monad ModelState ModelMmap ModelSaver ModelLoader ModelLogger ModelModules ModelLora ModelScheduler ModelInfluence ModelUtils ModelTrainer SpecGrad SpecState SpecInfluence SpecRows SpecTrainer LogProofs1 InfProofs14 InfProofs19 TrainProofs1 TrainProofs2 TrainProofs3 TrainProofs4 ModelLightning SpecLightning LightProofs2.
Local Open Scope string_scope.
Local Open Scope list_scope.
Local Open Scope nat_scope.

Section Proofs.
  Context {F : Type} `{OField F}.
  Notation tensor := (tensor F).
  Notation lx := (@lx F).
  Notation ifn := (@ifn F).
  Notation tr := (@tr F).
  Context (rnd : mid -> list nat -> F) (svd : tensor -> res tensor) (kind : mid -> mkind).
  Context (eigh : tensor -> res (tensor * tensor)) (inverse : tensor -> res tensor) (fsqrt : F -> F).
  Context (enc : @dten F -> array) (dec : array -> @dten F) (show : did -> string).

  Section HF.
  Context (tok : option (data -> res (list string))) (hash : string -> string).
  Notation trained := (trained kind eigh enc show tok hash).
  Notation do_step := (do_step kind eigh inverse fsqrt enc dec show tok hash).
  Definition put_state (f : ifn) s : ifn := IFn s (h_lists f) (h_dicts f) (if_scores f).
  Lemma step_self a p f s' r ids d : tr_mode p = "self_influence" ->
    compute_self_influence eigh inverse (ids, Nest d) true "auto" (ha_groups a) (ha_damping a) (if_state f) = (s', r) ->
    forall ms (x x1 : lx) ls acc b l, ms <> [] -> log_only x -> trained a x ms ls x1 -> merge_kept (acc ++ map kept ls) = Ok (ids, d) ->
    do_step a ms (at_ p x f acc b l) =
      (at_ p x1 (put_state f s') (match r with Ok _ => [] | Err _ => acc ++ map kept ls end) b l, match r with Ok _ => Ok tt | Err e => Err e end).
  Proof.
    intros Mo EC. induction ms as [|m ms IH]; intros x x1 ls acc b l Nm L T1 MK; [congruence|].
    inversion T1 as [|? ? ? y iv g ls' ? E G T2]; subst. pose proof (ind_training kind eigh enc tok hash a m x (x_state x) L) as (_ & Oy & _). rewrite E in Oy. cbn [fst] in Oy.
    assert (Ly : log_only y) by (unfold log_only; rewrite Oy; exact L).
    destruct ms as [|m2 ms].
    - inversion T2; subst. cbn [ModelTrainer.do_step]. rewrite (sbind_run _ _ _ _ _ (at_train kind eigh enc tok hash a m p x x1 f acc b l L E)).
      unfold ModelTrainer.on_step_end. unfold sbind at 1. unfold sget at 1. rewrite at_mode, Mo. change (String.eqb "self_influence" "influence") with false. rewrite String.eqb_refl.
      rewrite (sbind_run _ _ _ _ _ (at_keep show p x1 iv g f acc b l G)). unfold sbind at 1. unfold sget at 1. rewrite at_acc. cbn [map] in MK |- *. rewrite MK.
      unfold sbind at 1. unfold lift at 1. unfold sbind at 1. unfold on_infl at 1. rewrite at_ifn. unfold on_lstate. cbn [fst snd]. rewrite EC. destruct r; reflexivity.
    - assert (ES : on_substep_end show (at_ p y f acc b l) = (at_ p y f (acc ++ [kept (map show iv, leaf_map VT g)]) b l, Ok tt)).
      { unfold on_substep_end, sbind, sget. rewrite at_mode, Mo. change (mem _ _) with true. exact (at_keep show p y iv g f acc b l G). }
      change (do_step a (m :: m2 :: ms)) with (on_tlm (on_x (training_step kind eigh enc tok hash a m)) ;; on_substep_end show ;; do_step a (m2 :: ms)).
      rewrite (sbind_run _ _ _ _ _ (at_train kind eigh enc tok hash a m p x y f acc b l L E)), (sbind_run _ _ _ _ _ ES). cbn [map].
      rewrite (IH y x1 ls' (acc ++ [kept (map show iv, leaf_map VT g)]) b l); auto; [rewrite <- app_assoc; reflexivity|discriminate|rewrite <- app_assoc; exact MK].
  Qed.
  Theorem one_self_step a ms (p : tr) ls x1 ids d s' r : ms <> [] -> tr_mode p = "self_influence" -> log_only (lm_x (tr_lm p)) ->
    trained a (lm_x (tr_lm p)) ms ls x1 -> merge_kept (tr_acc p ++ map kept ls) = Ok (ids, d) ->
    compute_self_influence eigh inverse (ids, Nest d) true "auto" (ha_groups a) (ha_damping a) (x_state (lm_x (tr_lm p))) = (s', r) ->
    exists p', do_step a ms p = (p', match r with Ok _ => Ok tt | Err e => Err e end) /\ lm_x (tr_lm p') = with_state x1 s' /\
      (tr_lists p', tr_dicts p', tr_scores p') = (tr_lists p, tr_dicts p, tr_scores p) /\
      tr_acc p' = (match r with Ok _ => [] | Err _ => tr_acc p ++ map kept ls end) /\ tr_built p' = tr_built p /\ tr_loader p' = tr_loader p /\ tr_mode p' = tr_mode p.
  Proof.
    intros Nm Mo L T1 MK EC. pose proof (step_self a p (tr_ifn p) s' r ids d Mo EC ms _ x1 ls (tr_acc p) (tr_built p) (tr_loader p) Nm L T1 MK) as ES. rewrite at_id in ES.
    eexists. split; [exact ES|]. repeat split; reflexivity.
  Qed.
  Lemma self_merge_fail a p f e : tr_mode p = "self_influence" -> forall ms (x x1 : lx) ls acc b l, ms <> [] -> log_only x -> trained a x ms ls x1 -> merge_kept (acc ++ map kept ls) = Err e ->
    do_step a ms (at_ p x f acc b l) = (at_ p x1 f (acc ++ map kept ls) b l, Err e).
  Proof.
    intros Mo. induction ms as [|m ms IH]; intros x x1 ls acc b l Nm L T1 MK; [congruence|].
    inversion T1 as [|? ? ? y iv g ls' ? E G T2]; subst. pose proof (ind_training kind eigh enc tok hash a m x (x_state x) L) as (_ & Oy & _). rewrite E in Oy. cbn [fst] in Oy.
    assert (Ly : log_only y) by (unfold log_only; rewrite Oy; exact L).
    destruct ms as [|m2 ms].
    - inversion T2; subst. cbn [ModelTrainer.do_step]. rewrite (sbind_run _ _ _ _ _ (at_train kind eigh enc tok hash a m p x x1 f acc b l L E)).
      unfold ModelTrainer.on_step_end. unfold sbind at 1. unfold sget at 1. rewrite at_mode, Mo. change (String.eqb "self_influence" "influence") with false. rewrite String.eqb_refl.
      rewrite (sbind_run _ _ _ _ _ (at_keep show p x1 iv g f acc b l G)). unfold sbind at 1. unfold sget at 1. rewrite at_acc. cbn [map] in MK |- *. rewrite MK. reflexivity.
    - assert (ES : on_substep_end show (at_ p y f acc b l) = (at_ p y f (acc ++ [kept (map show iv, leaf_map VT g)]) b l, Ok tt)).
      { unfold on_substep_end, sbind, sget. rewrite at_mode, Mo. change (mem _ _) with true. exact (at_keep show p y iv g f acc b l G). }
      change (do_step a (m :: m2 :: ms)) with (on_tlm (on_x (training_step kind eigh enc tok hash a m)) ;; on_substep_end show ;; do_step a (m2 :: ms)).
      rewrite (sbind_run _ _ _ _ _ (at_train kind eigh enc tok hash a m p x y f acc b l L E)), (sbind_run _ _ _ _ _ ES). cbn [map].
      rewrite (IH y x1 ls' (acc ++ [kept (map show iv, leaf_map VT g)]) b l); auto; [rewrite <- app_assoc; reflexivity|discriminate|rewrite <- app_assoc; exact MK].
  Qed.
  Theorem one_self_unmerged a ms (p : tr) ls x1 e : ms <> [] -> tr_mode p = "self_influence" -> log_only (lm_x (tr_lm p)) ->
    trained a (lm_x (tr_lm p)) ms ls x1 -> merge_kept (tr_acc p ++ map kept ls) = Err e ->
    exists p', do_step a ms p = (p', Err e) /\ tr_ifn p' = tr_ifn p /\ tr_acc p' = tr_acc p ++ map kept ls.
  Proof.
    intros Nm Mo L T1 MK. pose proof (self_merge_fail a p (tr_ifn p) e Mo ms _ x1 ls (tr_acc p) (tr_built p) (tr_loader p) Nm L T1 MK) as ES. rewrite at_id in ES. eexists. split; [exact ES|]. rewrite at_ifn. cbn. auto.
  Qed.
  End HF.

  Context {B X : Type} (extract : B -> SM X (list did)) (mask : option (B -> res (option (@dten F)))) (body : B -> list (@ev F)).
  Notation pl := (@pl F X).
  Notation pl_batch := (pl_batch kind eigh inverse fsqrt enc dec show extract mask body).
  Theorem light_self_batch a b (q : pl) e1 ids m x1 x2 x3 g s' r : pl_mode q = "self_influence" -> extract b (pl_ext q) = (e1, Ok ids) -> mask_of mask b = Ok m ->
    lx_start ids m (lm_x (tr_lm (pl_t q))) = (x1, Ok tt) -> run_evs kind eigh (body b) x1 = (x2, Ok tt) -> lx_end eigh enc false x2 = (x3, Ok tt) ->
    x_ids x3 = Some g -> (tr_built (pl_t q) <> None \/ exists loader, log_batches dec show (pa_bs a) (x_dir x3) = Ok loader) ->
    compute_self_influence eigh inverse (map show g, Nest (leaf_map VT (snd (read_got x3 (GView (x_ids x3)))))) true "auto" None (pa_damping a) (x_state x3) = (s', r) ->
    exists q', pl_batch a b q = (q', match r with Ok _ => Ok tt | Err e => Err e end) /\ lm_x (tr_lm (pl_t q')) = with_state x3 s' /\ pl_ext q' = e1 /\
      tr_built (pl_t q') <> None /\
      (tr_lists (pl_t q'), tr_dicts (pl_t q'), tr_scores (pl_t q')) = (tr_lists (pl_t q), tr_dicts (pl_t q), tr_scores (pl_t q)).
  Proof.
    intros Mo EX EM E1 E2 E3 IX BL EC. destruct q as [p e n st]. unfold pl_mode in *. cbn [pl_t pl_ext pl_epoch pl_stop] in *.
    set (put := fun x e => PL (tr_set_lm p (tr_sched p) (lm_set_x (tr_lm p) x)) e n st : pl).
    assert (EX' : on_ext (extract b) (PL p e n st : pl) = (PL p e1 n st, Ok ids)) by (unfold on_ext; cbn [pl_ext]; rewrite EX; reflexivity).
    assert (ES : on_lx (lx_start ids m) (PL p e1 n st : pl) = (put x1 e1, Ok tt)) by (unfold on_lx, on_t, on_tlm, on_x; cbn [pl_t]; rewrite E1; reflexivity).
    assert (EV : on_lx (run_evs kind eigh (body b)) (put x1 e1) = (put x2 e1, Ok tt)).
    { unfold on_lx, on_t, on_tlm, on_x. change (lm_x (tr_lm (pl_t (put x1 e1)))) with x1. rewrite E2. reflexivity. }
    assert (EN : on_lx (lx_end eigh enc false) (put x2 e1) = (put x3 e1, Ok tt)).
    { unfold on_lx, on_t, on_tlm, on_x. change (lm_x (tr_lm (pl_t (put x2 e1)))) with x2. rewrite E3. reflexivity. }
    assert (EL : live_log show (pl_t (put x3 e1)) = (pl_t (put x3 e1), Ok (map show g, Nest (leaf_map VT (snd (read_got x3 (GView (x_ids x3)))))))).
    { unfold live_log, sbind, on_tlm, on_x, lx_get_log. change (lm_x (tr_lm (pl_t (put x3 e1)))) with x3. rewrite IX. reflexivity. }
    assert (ED : exists ld ol, build_loader dec show a (pl_t (put x3 e1)) = (tr_set_loader (pl_t (put x3 e1)) (Some ld) ol, Ok ld)).
    { unfold build_loader. change (tr_built (pl_t (put x3 e1))) with (tr_built p). change (lm_x (tr_lm (pl_t (put x3 e1)))) with x3. destruct (tr_built p) as [ld|] eqn:Eb.
      - exists ld, (tr_loader p). f_equal. unfold put. cbn. unfold tr_set_loader, tr_set_lm. cbn. rewrite Eb. reflexivity.
      - destruct BL as [BL|(ld & ->)]; [congruence|]. eexists _, _. reflexivity. }
    destruct ED as (ld & ol & ED).
    unfold ModelLightning.pl_batch, pl_batch_start, pl_batch_end. unfold sbind at 1. rewrite (sbind_run _ _ _ _ _ EX'). unfold sbind at 1. unfold lift at 1. fold (mask_of mask b). rewrite EM, ES.
    rewrite (sbind_run _ _ _ _ _ EV), (sbind_run _ _ _ _ _ EN). unfold sbind at 1. unfold sget at 1. change (pl_mode (put x3 e1)) with (tr_mode p). rewrite Mo. change (String.eqb "self_influence" "influence") with false. change (String.eqb "self_influence" "self_influence") with true. cbv iota.
    unfold on_t. rewrite (sbind_run _ _ _ _ _ EL), (sbind_run _ _ _ _ _ ED). unfold sbind at 1. unfold on_infl, on_lstate. cbn [tr_ifn if_state].
    change (x_state (lm_x (tr_lm (tr_set_loader (pl_t (put x3 e1)) (Some ld) ol)))) with (x_state x3). rewrite EC.
    destruct r; (eexists; split; [reflexivity|]; repeat split; discriminate || reflexivity).
  Qed.
End Proofs.
