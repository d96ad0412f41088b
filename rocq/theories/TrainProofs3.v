(** An influence run scores each optimizer step's merged logs; together they are the scores of all the samples. *)
From Coq Require Import ZArith Lia.
From Verif Require Import Py PyStr Field Tensor ModelGrad Monad ModelState ModelMmap ModelSaver ModelLoader ModelLogger ModelModules ModelLora ModelScheduler ModelInfluence ModelUtils ModelTrainer SpecGrad SpecState SpecInfluence SpecRows SpecTrainer LogProofs1 InfProofs14 InfProofs19 TrainProofs1 TrainProofs2.
Local Open Scope string_scope.
Local Open Scope list_scope.
Local Open Scope nat_scope.

Lemma sum_app (a b : list nat) : fold_right Nat.add 0 (a ++ b) = fold_right Nat.add 0 a + fold_right Nat.add 0 b.
Proof. induction a as [|x a IH]; cbn [app fold_right]; [reflexivity|]. rewrite IH. lia. Qed.
Lemma Forall_skipn {X} (P : X -> Prop) n l : Forall P l -> Forall P (skipn n l).
Proof. intros A. revert n. induction A as [|x l Px A IH]; intros [|n]; cbn [skipn]; auto. Qed.
Lemma Forall_firstn {X} (P : X -> Prop) n l : Forall P l -> Forall P (firstn n l).
Proof. intros A. revert n. induction A as [|x l Px A IH]; intros [|n]; cbn [firstn]; auto. Qed.

Section Proofs.
  Context {F : Type} `{OField F}.
  Notation tensor := (tensor F).
  Notation lx := (@lx F).
  Notation sval := (@sval F).
  Notation tlog := (@tlog F).
  Notation glog := (@glog F).
  Notation ifn := (@ifn F).
  Notation tr := (@tr F).
  Context (rnd : mid -> list nat -> F) (svd : tensor -> res tensor) (kind : mid -> mkind).
  Context (eigh : tensor -> res (tensor * tensor)) (inverse : tensor -> res tensor) (fsqrt : F -> F).
  Context (enc : @dten F -> array) (dec : array -> @dten F) (show : did -> string).
  Context (tok : option (data -> res (list string))) (hash : string -> string).
  Notation trained := (trained kind eigh enc show tok hash).
  Notation calls_all := (SpecInfluence.calls_all eigh inverse fsqrt).
  Notation do_step := (do_step kind eigh inverse fsqrt enc dec show tok hash).
  Notation do_epoch := (do_epoch rnd svd kind eigh inverse fsqrt enc dec show tok hash).
  Notation influence := (influence rnd svd kind eigh inverse fsqrt enc dec show tok hash).
  Notation log_dataloader := (log_dataloader dec show).
  Notation on_step_end := (on_step_end eigh inverse fsqrt dec show).

  Definition at_ (p : tr) (x : lx) (f : ifn) acc b l : tr :=
    TR (tr_sched p) (lm_set_x (tr_lm p) (with_state x (if_state f))) (h_lists f) (h_dicts f) (if_scores f) (tr_mode p) acc b l.
  Lemma at_id (p : tr) : at_ p (lm_x (tr_lm p)) (tr_ifn p) (tr_acc p) (tr_built p) (tr_loader p) = p.
  Proof. destruct p as [c [x] l d s m ac b ld]. destruct x. reflexivity. Qed.
  Lemma at_mode p x f acc b l : tr_mode (at_ p x f acc b l) = tr_mode p.
  Proof. reflexivity. Qed.
  Lemma at_acc p x f acc b l : tr_acc (at_ p x f acc b l) = acc.
  Proof. reflexivity. Qed.
  Lemma at_ifn p x f acc b l : tr_ifn (at_ p x f acc b l) = f.
  Proof. destruct f. reflexivity. Qed.
  Lemma at_train a m p (x x1 : lx) f acc b l : log_only x -> training_step kind eigh enc tok hash a m x = (x1, Ok tt) ->
    on_tlm (on_x (training_step kind eigh enc tok hash a m)) (at_ p x f acc b l) = (at_ p x1 f acc b l, Ok tt).
  Proof.
    intros L E. pose proof (ind_training kind eigh enc tok hash a m x (if_state f) L) as (E1 & _). rewrite E in E1. cbn [fst snd] in E1.
    unfold on_tlm, on_x, at_. cbn [tr_lm lm_x lm_set_x]. rewrite E1. reflexivity.
  Qed.
  Lemma at_keep p (x : lx) ids g f acc b l : lx_get_log true x = (x, Ok (GCopy (Some ids) g)) ->
    keep_log show (at_ p x f acc b l) = (at_ p x f (acc ++ [kept (map show ids, leaf_map VT g)]) b l, Ok tt).
  Proof.
    intros E. pose proof (ind_got true x (if_state f)) as (E1 & _). rewrite E in E1. cbn [fst snd] in E1.
    unfold keep_log, sbind, on_tlm, on_x, at_. cbn [tr_lm lm_x lm_set_x]. rewrite E1. reflexivity.
  Qed.
  Definition gives (a : @hfargs F) (x : lx) (b l : option (list glog)) (loader : list glog) : Prop :=
    match l with Some y => y = loader | None => match b with Some y => y = loader | None => log_batches dec show (ha_bs a) (x_dir x) = Ok loader end end.
  Lemma at_loader a p (x : lx) f acc b l loader : gives a x b l loader -> exists b', log_dataloader a (at_ p x f acc b l) = (at_ p x f acc b' (Some loader), Ok loader).
  Proof.
    unfold gives, ModelTrainer.log_dataloader, at_. cbn [tr_loader tr_built tr_lm lm_x lm_set_x].
    destruct l as [y|]; [intros ->; exists b; reflexivity|]. destruct b as [y|]; [intros ->; exists (Some loader); reflexivity|].
    assert (D : x_dir (with_state x (if_state f)) = x_dir x) by reflexivity. rewrite D. intros ->. exists (Some loader). reflexivity.
  Qed.
  Lemma gives_of a (p p' : tr) loader : log_dataloader a p = (p', Ok loader) -> gives a (lm_x (tr_lm p)) (tr_built p) (tr_loader p) loader.
  Proof. unfold ModelTrainer.log_dataloader, gives. destruct (tr_loader p); [intros [= _ <-]; reflexivity|]. destruct (tr_built p); [intros [= _ <-]; reflexivity|]. destruct (log_batches _ _ _ _); [intros [= _ <-]; reflexivity|discriminate]. Qed.
  Notation icall a loader d := (bcall loader (ha_imode a) true "auto" (ha_groups a) (ha_damping a) d).

  Lemma step_run a p (loader : list glog) f f' o ids d : tr_mode p = "influence" -> call_all eigh inverse fsqrt true (icall a loader (ids, Nest d)) f = (f', Ok o) ->
    forall ms (x x1 : lx) ls acc b l, ms <> [] -> log_only x -> x_save x = false -> trained a x ms ls x1 -> gives a x b l loader -> merge_kept (acc ++ map kept ls) = Ok (ids, d) ->
    exists b', do_step a ms (at_ p x f acc b l) = (at_ p x1 f' [] b' (Some loader), Ok tt).
  Proof.
    intros Mo EC. induction ms as [|m ms IH]; intros x x1 ls acc b l Nm L Sv T1 GV MK; [congruence|].
    inversion T1 as [|? ? ? y iv g ls' ? E G T2]; subst. pose proof (ind_training kind eigh enc tok hash a m x (x_state x) L) as (_ & Oy & _). rewrite E in Oy. cbn [fst] in Oy.
    assert (Ly : log_only y) by (unfold log_only; rewrite Oy; exact L). pose proof (training_dirs kind eigh enc tok hash a m x y _ Sv E) as (Dy & Sy).
    assert (GY : gives a y b l loader) by (unfold gives in *; rewrite Dy; exact GV).
    destruct ms as [|m2 ms].
    - inversion T2; subst. cbn [ModelTrainer.do_step]. rewrite (sbind_run _ _ _ _ _ (at_train a m p x x1 f acc b l L E)).
      unfold ModelTrainer.on_step_end. unfold sbind at 1. unfold sget at 1. rewrite at_mode, Mo, String.eqb_refl.
      rewrite (sbind_run _ _ _ _ _ (at_keep p x1 iv g f acc b l G)). unfold sbind at 1. unfold sget at 1. rewrite at_acc. cbn [map] in MK. rewrite MK.
      unfold sbind at 1. unfold lift at 1.
      destruct (at_loader a p x1 f (acc ++ [kept (map show iv, leaf_map VT g)]) b l loader GY) as (b' & EL). rewrite (sbind_run _ _ _ _ _ EL).
      unfold SpecInfluence.call_all, bcall in EC. cbn [ic_src ic_loader ic_mode ic_prec ic_hessian ic_groups ic_damping] in EC.
      exists b'. unfold sbind at 1. unfold on_infl at 1. rewrite at_ifn. cbn [fst snd]. rewrite EC. reflexivity.
    - assert (ES : on_substep_end show (at_ p y f acc b l) = (at_ p y f (acc ++ [kept (map show iv, leaf_map VT g)]) b l, Ok tt)).
      { unfold on_substep_end, sbind, sget. rewrite at_mode, Mo. change (mem _ _) with true. exact (at_keep p y iv g f acc b l G). }
      change (do_step a (m :: m2 :: ms)) with (on_tlm (on_x (training_step kind eigh enc tok hash a m)) ;; on_substep_end show ;; do_step a (m2 :: ms)).
      rewrite (sbind_run _ _ _ _ _ (at_train a m p x y f acc b l L E)), (sbind_run _ _ _ _ _ ES). apply (IH y x1 ls' _ b l); auto; [discriminate|]. rewrite <- app_assoc. exact MK.
  Qed.

  Fixpoint regroup (ns ks : list nat) : list nat := match ns with [] => [] | n :: r => fold_right Nat.add 0 (firstn n ks) :: regroup r (skipn n ks) end.
  Lemma regroup_splits ns : forall ks n, Forall (fun k => k <> 0) ns -> fold_right Nat.add 0 ns = length ks -> splits ks n -> splits (regroup ns ks) n.
  Proof.
    assert (G : forall ns ks, Forall (fun k => k <> 0) ns -> fold_right Nat.add 0 ns = length ks -> Forall (fun k => k <> 0) ks -> Forall (fun k => k <> 0) (regroup ns ks) /\ fold_right Nat.add 0 (regroup ns ks) = fold_right Nat.add 0 ks).
    { induction ns0 as [|k r IH]; intros ks A Sm V; cbn [regroup fold_right] in *; [destruct ks; [auto|discriminate Sm]|].
      inversion A as [|? ? Nk A']; subst. destruct (IH (skipn k ks) A') as (V1 & S1); [rewrite skipn_length; lia|apply Forall_skipn, V|].
      split; [|rewrite S1, <- sum_app, firstn_skipn; reflexivity]. constructor; [|exact V1].
      destruct ks as [|z ks]; [cbn [length] in Sm; lia|]. destruct k as [|k]; [congruence|]. inversion V; subst. cbn [firstn fold_right]. lia. }
    intros ks n A Sm (Nk & V & Sk). destruct (G ns ks A Sm V) as (V1 & S1). split; [|split; [exact V1|congruence]].
    destruct ns; [|discriminate]. destruct ks; [congruence|]. cbn [fold_right length] in Sm. discriminate Sm.
  Qed.
  Lemma batches_app ks1 : forall off ks2 sids (M : tlog), batches off (ks1 ++ ks2) sids M = batches off ks1 sids M ++ batches (off + fold_right Nat.add 0 ks1) ks2 sids M.
  Proof. induction ks1 as [|k r IH]; intros off ks2 sids M; cbn [app batches fold_right]; [rewrite Nat.add_0_r; reflexivity|]. rewrite IH, Nat.add_assoc. reflexivity. Qed.
  Lemma batches_length ks : forall off sids (M : tlog), length (batches off ks sids M) = length ks.
  Proof. induction ks as [|k r IH]; intros; cbn [batches length]; [|rewrite IH]; reflexivity. Qed.

  Lemma steps_run a p (loader : list glog) (M : tlog) sids : ok_log M -> tr_mode p = "influence" ->
    forall steps ks off (x x1 : lx) ls f f' os b l, Forall (fun s => s <> []) steps -> log_only x -> x_save x = false -> trained a x (concat steps) ls x1 -> gives a x b l loader ->
    map as_nest ls = batches off ks sids M -> calls_all (map (fun c => icall a loader c) (batches off (regroup (map (@length _) steps) ks) sids M)) f = (f', Ok os) ->
    exists b' l', seach (do_step a) steps (at_ p x f [] b l) = (at_ p x1 f' [] b' l', Ok tt) /\ gives a x1 b' l' loader.
  Proof.
    intros OM Mo. induction steps as [|s steps IH]; intros ks off x x1 ls f f' os b l V L Sv T1 GV EL EC.
    - cbn [concat] in T1. inversion T1; subst. cbn [map regroup batches SpecInfluence.calls_all] in EC. injection EC as <- _. exists b, l. split; [reflexivity|exact GV].
    - inversion V as [|? ? Ns V']; subst. cbn [concat] in T1. destruct (trained_app kind eigh enc show tok hash a s (concat steps) x ls x1 T1) as (l1 & l2 & y & -> & Ln & T2 & T3).
      cbn [map regroup batches SpecInfluence.calls_all] in EC. set (n := length s) in *. rewrite map_app in EL.
      rewrite <- (firstn_skipn n ks), batches_app in EL.
      assert (Lk : length (map as_nest l1 ++ map as_nest l2) = length ks). { rewrite EL, <- batches_app, firstn_skipn. apply batches_length. }
      assert (Lf : length (map as_nest l1) = length (batches off (firstn n ks) sids M)). { rewrite batches_length, map_length, firstn_length, Ln. rewrite app_length, map_length, map_length, Ln in Lk. lia. }
      assert (EL2 : map as_nest l1 = batches off (firstn n ks) sids M /\ map as_nest l2 = batches (off + fold_right Nat.add 0 (firstn n ks)) (skipn n ks) sids M).
      { split; [pose proof (f_equal (firstn (length (map as_nest l1))) EL) as Q; rewrite firstn_app, firstn_all, Nat.sub_diag, firstn_O, app_nil_r in Q; rewrite Lf, firstn_app, firstn_all, Nat.sub_diag, firstn_O, app_nil_r in Q; exact Q|].
        pose proof (f_equal (skipn (length (map as_nest l1))) EL) as Q. rewrite skipn_app, skipn_all, Nat.sub_diag in Q. rewrite Lf, skipn_app, skipn_all, Nat.sub_diag in Q. exact Q. }
      destruct EL2 as (EL1 & EL2).
      assert (NK : firstn n ks <> []). { intros E0. rewrite E0 in Lf. cbn [batches length] in Lf. rewrite map_length, Ln in Lf. unfold n in Lf. destruct s; [congruence|discriminate Lf]. }
      pose proof (merge_kept_parts M sids OM (firstn n ks) off l1 NK EL1) as MK. apply sbind_ok in EC. destruct EC as (f1 & o & E1 & EC). apply sbind_ok in EC. destruct EC as (f2 & os2 & E2 & EC). injection EC as <- _.
      destruct (step_run a p loader f f1 o _ _ Mo E1 s x y l1 [] b l Ns L Sv T2 GV MK) as (b1 & ES). cbn [seach]. rewrite (sbind_run _ _ _ _ _ ES).
      pose proof (trained_state kind eigh enc show tok hash a x s l1 y L T2) as (Ly & _ & _). pose proof (trained_dirs kind eigh enc show tok hash a x s l1 y Sv T2) as (_ & Sy).
      apply (IH (skipn n ks) _ y x1 l2 f1 f2 os2 b1 (Some loader) V' Ly Sy T3 eq_refl EL2 E2).
  Qed.
  Lemma epochs_steps a p : tr_mode p = "influence" -> forall epochs (x : lx) f acc b l x' f' acc' b' l',
    seach (do_step a) (concat epochs) (at_ p x f acc b l) = (at_ p x' f' acc' b' l', Ok tt) -> (forall s q q' r, tr_mode q = "influence" -> do_step a s q = (q', r) -> tr_mode q' = "influence") ->
    seach (do_epoch a) epochs (at_ p x f acc b l) = (at_ p x' f' acc' b' l', Ok tt).
  Proof.
    intros Mo epochs x f acc b l x' f' acc' b' l' E K.
    assert (K2 : forall ss q q' r, tr_mode q = "influence" -> seach (do_step a) ss q = (q', r) -> tr_mode q' = "influence").
    { induction ss as [|s ss IH]; intros q q' r Mq Eq; cbn [seach] in Eq; [injection Eq as <- _; exact Mq|]. unfold sbind in Eq. destruct (do_step a s q) as [q1 [u|e]] eqn:E1; [|injection Eq as <- _; eauto]. apply K in E1; [|exact Mq]. eauto. }
    assert (G : forall epochs q q', tr_mode q = "influence" -> seach (do_step a) (concat epochs) q = (q', Ok tt) -> seach (do_epoch a) epochs q = (q', Ok tt)); [|apply G; [exact Mo|exact E]].
    clear x f acc b l x' f' acc' b' l' E epochs. induction epochs as [|s ss IH]; intros q q' Mq Eq; [exact Eq|]. cbn [concat] in Eq. rewrite seach_app in Eq. apply sbind_ok in Eq. destruct Eq as (q1 & [] & E1 & E2). pose proof (K2 _ _ _ _ Mq E1) as M1.
    assert (B1 : on_epoch_begin rnd svd q = (q, Ok tt)) by (unfold on_epoch_begin, sbind, sget; rewrite Mq; reflexivity).
    assert (B2 : on_epoch_end q1 = (q1, Ok tt)) by (unfold on_epoch_end, sbind, sget; rewrite M1; reflexivity).
    assert (B : do_epoch a s q = (q1, Ok tt)) by (unfold ModelTrainer.do_epoch; rewrite (sbind_run _ _ _ _ _ B1), (sbind_run _ _ _ _ _ E1); exact B2).
    cbn [seach]. rewrite (sbind_run _ _ _ _ _ B). apply IH; assumption.
  Qed.
End Proofs.
