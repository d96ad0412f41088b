(** Loading before watching; a trainer whose log loader has not been built. *)
From Coq Require Import ZArith Lia.
From Verif Require Import Py PyStr Field Tensor ModelGrad Monad ModelState ModelMmap ModelSaver ModelLoader ModelLogger ModelModules ModelLora ModelScheduler ModelInfluence ModelUtils ModelTrainer SpecStore SpecLogger LogProofs1 ViewProofs WatchProofs1.
Local Open Scope string_scope.
Local Open Scope list_scope.
Local Open Scope nat_scope.

Section P.
  Context {F : Type} `{OField F}.
  Notation lx := (@lx F).
  Context (kind : mid -> mkind) (wsize : mid -> nat) (eigh : tensor F -> res (tensor F * tensor F)) (enc : @dten F -> array).

  Lemma watch_paths ms (x x' : lx) : watch wsize ms x = (x', Ok tt) ->
    x_names x' = fold_left (fun d p => dset (snd p) (fst p) d) ms (x_names x) /\
    s_path (x_saver x') = (if x_shared x then grad_paths (map snd (x_names x')) else s_path (x_saver x)) /\
    exists d, dget "model_module" (attrs (x_state x')) = Some (Node d) /\
      dget "path" d = Some (Leaf (VPath (map (fun n => (n, "grad")) (map snd (x_names x'))))) /\ dget "path_dim" d = Some (Leaf (VDims (map wsize (map fst (x_names x'))))).
  Proof. intros E. destruct (watch_run wsize ms x x' E) as (A & _ & _ & B & C). auto. Qed.
  Lemma shared_init w t off os : Forall (fun o => o <> XLoad) os -> x_shared (run_ops kind wsize eigh enc os (@lx_init F w t off)) = true.
  Proof. intros Fo. rewrite shared_kept; [reflexivity|apply inv_init|exact Fo]. Qed.
  Lemma loaded_stale (x x1 : lx) sy sv no os :
    reachable kind wsize eigh enc x \/ (exists w t off d dk, x = with_store (lx_init w t off) (saver_init 0 w t []) d dk) ->
    d_others (x_disk x) = Some (sy, sv, no) -> In "model_module" sv -> lx_load x = (x1, Ok tt) ->
    let y := run_ops kind wsize eigh enc os x1 in
    s_path (x_saver y) = s_path (x_saver x) /\
    (s_path (x_saver x) = [] -> (forall n es, dget n (x_dir y) = Some (FMeta es) -> dget n (x_dir x) = Some (FMeta es)) /\
       (s_buffer (x_saver y) <> [] -> snd (lx_finalize y) <> Ok tt)).
  Proof.
    intros R O I0 E y. assert (I1 : inv x). { destruct R as [R|(w & t & off & d & dk & ->)]; [exact (reachable_inv _ _ _ _ _ R)|]. split; [constructor|intros m []]. }
    assert (I2 : inv x1). { unfold lx_load, lx_load_from in E. destruct (load_state (x_disk x) (x_state x)) as [s' r1]. injection E as <- _. exact I1. }
    pose proof (load_unshares x x1 sy sv no O I0 E) as Sh. destruct (load_run x x1 _ E) as (L1 & L2 & _). destruct (stale_ops kind wsize eigh enc os x1 I2 Sh) as (A & B & C). fold y in A, B, C. rewrite L1 in B, C. rewrite L2 in C.
    split; [exact B|]. intros Z. split; [exact (C Z)|]. intros NB Q. unfold lx_finalize in Q. unfold sbind at 1 in Q. destruct (finalize (x_disk y) (x_state y)) as [s' [dk|e]]; [|discriminate Q].
    cbn [with_store with_state x_dir] in Q. destruct (saver_finalize (x_dir y) _) as [[d' sv'] o] eqn:S. cbn [snd] in Q. apply flush_serial_path in S. destruct S as (_ & K). change (s_path (settle _)) with (s_path (x_saver y)) in K. rewrite B in K. destruct (K Z) as (_ & K2). apply K2; [|exact Q].
    intros NB2. apply NB. pose proof (settle_keys (with_store (with_state y s') (x_saver y) (x_dir y) dk)) as SK. rewrite NB2 in SK. cbn [x_saver with_store] in SK. destruct (s_buffer (x_saver y)); [reflexivity|discriminate SK].
  Qed.
  Lemma fresh_loader (dec : array -> @dten F) (show : did -> string) a (p : @tr F) l :
    tr_built p = None -> tr_loader p = None -> log_batches dec show (ha_bs a) (x_dir (lm_x (tr_lm p))) = Ok l ->
    exists p', log_dataloader dec show a p = (p', Ok l) /\ tr_lm p' = tr_lm p /\ tr_loader p' = Some l.
  Proof. intros B L E. unfold log_dataloader. rewrite L, B, E. eexists. repeat split. Qed.
End P.
