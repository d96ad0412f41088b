(** The analysis front end over arbitrary histories. *)
From Coq Require Import ZArith Lia.
From Verif Require Import Py PyStr Field Tensor ModelGrad Monad ModelState ModelMmap ModelSaver ModelLoader ModelLogger ModelModules ModelLora ModelScheduler ModelInfluence ModelTrainer ModelRun SpecInfluence InfProofs13.
Local Open Scope nat_scope.

Section Proofs.
  Context {F : Type} `{OField F}.
  Notation fe := (@fe F).
  Notation glog := (@glog F).
  Variable eigh : tensor F -> res (tensor F * tensor F).
  Variable inverse : tensor F -> res (tensor F).
  Variable fsqrt : F -> F.
  Variable dec : array -> @dten F.
  Variable show : did -> string.
  Notation influence_over := (influence_over eigh inverse fsqrt).
  Notation fe_influence_all := (fe_influence_all eigh inverse fsqrt dec show).
  Notation fe_self_influence := (fe_self_influence eigh inverse show).
  Notation run_rop := (run_rop eigh inverse fsqrt dec show).
  Notation run_rops := (run_rops eigh inverse fsqrt dec show).

  Implicit Types p q : fe.
  (** the loader a program holds is over the dataset it holds *)
  Definition inv (p : fe) : Prop := forall l, fe_dl p = Some l -> fe_ds p = Some (dl_set l).
  Definition keeps (p q : fe) : Prop :=
    (inv p -> inv q) /\ (forall s, fe_ds p = Some s -> fe_ds q = Some s) /\ (forall l, fe_dl p = Some l -> fe_dl q = Some l) /\
    fe_scores q = fe_scores p /\ (forall o, obj_ok (fe_ifn p) o -> view (fe_ifn q) o = view (fe_ifn p) o /\ obj_ok (fe_ifn q) o).
  Lemma keeps_refl p : keeps p p. Proof. repeat split; auto; apply H0. Qed.
  Lemma keeps_trans p q r : keeps p q -> keeps q r -> keeps p r.
  Proof.
    intros (A & B & C & D & E) (A' & B' & C' & D' & E'). split; [auto|]. split; [auto|]. split; [auto|]. split; [congruence|].
    intros o O. destruct (E o O) as (V & O'). destruct (E' o O') as (V' & O''). split; [congruence|assumption].
  Qed.
  Lemma keeps_bind {A B} (m : SM fe A) (f : A -> SM fe B) p :
    keeps p (fst (m p)) -> (forall a q, m p = (q, Ok a) -> keeps q (fst (f a q))) -> keeps p (fst (sbind m f p)).
  Proof.
    intros K1 K2. unfold sbind. destruct (m p) as [q [a|e]] eqn:E; cbn [fst] in *; [|exact K1]. eapply keeps_trans; [exact K1|apply K2; reflexivity].
  Qed.
  Lemma keeps_lm p s : keeps p (fe_set_lm p s).
  Proof. split; [exact (fun i => i)|]. split; [auto|]. split; [auto|]. split; [reflexivity|]. intros o O. split; [reflexivity|exact O]. Qed.
  Lemma keeps_dataset fl p : keeps p (fst (build_log_dataset fl p)).
  Proof.
    unfold build_log_dataset. destruct (fe_ds p) as [s|] eqn:E; [apply keeps_refl|]. cbv zeta. destruct (open_dataset _ _) as [ds|e]; cbn [fst]; [|apply keeps_refl].
    split; [intros I l L; cbn in L; rewrite (I l L) in E; discriminate|]. split; [intros s C; congruence|]. split; [auto|]. split; [reflexivity|]. intros o O; split; [reflexivity|exact O].
  Qed.
  Lemma dataset_dl fl p : fe_dl (fst (build_log_dataset fl p)) = fe_dl p.
  Proof. unfold build_log_dataset. destruct (fe_ds p); [reflexivity|]. cbv zeta. destruct (open_dataset _ _); reflexivity. Qed.
  Lemma dataset_ok fl p q s : build_log_dataset fl p = (q, Ok s) -> fe_ds q = Some s.
  Proof.
    unfold build_log_dataset. destruct (fe_ds p) as [s'|] eqn:E; [intros [= <- <-]; exact E|]. cbv zeta.
    destruct (open_dataset _ _); [intros [= <- <-]; reflexivity|discriminate].
  Qed.
  Lemma keeps_dataloader bs fl p : keeps p (fst (build_log_dataloader bs fl p)).
  Proof.
    unfold build_log_dataloader. unfold sbind at 1. cbn [sget]. destruct (fe_dl p) as [l|] eqn:E; [apply keeps_refl|].
    apply keeps_bind; [apply keeps_dataset|]. intros s q Q. destruct (bs <=? 0)%Z; [apply keeps_refl|]. cbv zeta. cbn [fst].
    pose proof (dataset_ok _ _ _ _ Q) as Ds. pose proof (dataset_dl fl p) as Dl. rewrite Q in Dl. cbn [fst] in Dl.
    split; [intros _ l L; cbn in L; injection L as <-; exact Ds|]. split; [auto|]. split; [intros l L; congruence|]. split; [reflexivity|]. intros o O; split; [reflexivity|exact O].
  Qed.
  Lemma over_keeps src l mode prec hessian groups damping (f f' : @ifn F) r :
    influence_over src l mode prec hessian groups damping f = (f', r) ->
    if_scores f' = if_scores f /\ (forall o, obj_ok f o -> view f' o = view f o /\ obj_ok f' o).
  Proof.
    unfold ModelRun.influence_over. destruct (snd l) as [e|].
    - destruct (influence_all _ _ _ _ _ _ _ _ _ _ _) as [s [x|e']]; intros [= <- _]; split; try reflexivity; intros o O; (split; [reflexivity|exact O]).
    - set (c := ICall _ src (fst l) mode prec hessian groups damping).
      change (call_all eigh inverse fsqrt false c f = (f', r) -> if_scores f' = if_scores f /\ (forall o, obj_ok f o -> view f' o = view f o /\ obj_ok f' o)).
      destruct (call_value eigh inverse fsqrt c (if_state f)) as [s [[x|]|e]] eqn:E.
      + pose proof (call_some eigh inverse fsqrt false c f s x E) as C. cbv zeta in C. pose proof (alloc_ok x (IFn s (h_lists f) (h_dicts f) (if_scores f))) as AL.
        destruct (alloc x _) as [f1 o]. rewrite C. intros [= <- _]. destruct AL as (_ & _ & _ & EC & KEEP). split; [exact EC|].
        intros q Q. destruct (KEEP q Q) as (V & K & _). split; [exact V|exact K].
      + rewrite (saved_empty eigh inverse fsqrt false c f s E). intros [= <- _]. split; [reflexivity|]. intros o O; split; [reflexivity|exact O].
      + rewrite (saved_error eigh inverse fsqrt false c f s e E). intros [= <- _]. split; [reflexivity|]. intros o O; split; [reflexivity|exact O].
  Qed.
  Lemma keeps_ifn {A} (m : SM (@ifn F) A) p : (forall f f' r, m f = (f', r) -> if_scores f' = if_scores f /\ (forall o, obj_ok f o -> view f' o = view f o /\ obj_ok f' o)) ->
    keeps p (fst (on_fifn m p)).
  Proof.
    intros K. unfold on_fifn. destruct (m (fe_ifn p)) as [f r] eqn:E. cbn [fst]. destruct (K _ _ _ E) as (SC & V).
    split; [exact (fun i => i)|]. split; [auto|]. split; [auto|]. split; [exact SC|]. intros o O. destruct (V o O) as (V1 & V2). split; [exact V1|exact V2].
  Qed.
  Lemma or_own_run src p : exists r, or_own show src p = (p, r).
  Proof.
    destruct src as [s|]; [exists (Ok s); reflexivity|]. cbn [or_own]. unfold own_log, sbind, on_flm, on_x, lx_get_log. cbn [fst snd].
    replace (fe_set_lm p (lm_set_x (fe_lm p) (lm_x (fe_lm p)))) with p by (destruct p as [[] ? ? ? ? ?]; reflexivity). eexists; reflexivity.
  Qed.
  Lemma keeps_rop o p : keeps p (run_rop o p).
  Proof.
    destruct o as [m|fl|bs fl|src l mode prec h g d|src prec h g d]; cbn [ModelRun.run_rop].
    - apply keeps_lm.
    - apply keeps_dataset.
    - apply keeps_dataloader.
    - unfold ModelRun.fe_influence_all. apply keeps_bind; [destruct (or_own_run src p) as (r & ->); apply keeps_refl|]. intros s q _.
      apply keeps_bind.
      + destruct l as [l|]; [apply keeps_refl|]. apply keeps_bind; [apply keeps_dataloader|]. intros; apply keeps_refl.
      + intros l' q' _. apply keeps_ifn. intros f f' r. apply over_keeps.
    - unfold ModelRun.fe_self_influence. apply keeps_bind; [destruct (or_own_run src p) as (r & ->); apply keeps_refl|]. intros s q _.
      apply keeps_ifn. intros f f' r. unfold on_lstate. destruct (compute_self_influence _ _ _ _ _ _ _ _) as [st r']. intros [= <- _]. split; [reflexivity|]. intros o O; split; [reflexivity|exact O].
  Qed.
  Lemma keeps_rops os p : keeps p (run_rops os p).
  Proof. unfold ModelRun.run_rops. revert p. induction os as [|o os IH]; intros p; [apply keeps_refl|]. cbn [fold_left]. eapply keeps_trans; [apply keeps_rop|apply IH]. Qed.

  Definition new (p : fe) : Prop := fe_ds p = None /\ fe_dl p = None.
  Lemma new_inv p : new p -> inv p. Proof. intros (_ & B) l L. congruence. Qed.
  Lemma reach_inv p0 os : new p0 -> inv (run_rops os p0).
  Proof. intros N. apply (keeps_rops os p0). apply new_inv. exact N. Qed.

  Lemma loader_cached bs fl q l : fe_dl q = Some l -> build_log_dataloader bs fl q = (q, Ok l).
  Proof. unfold build_log_dataloader. unfold sbind at 1. cbn [sget]. intros ->. reflexivity. Qed.
  Lemma dataset_cached fl q s : fe_ds q = Some s -> build_log_dataset fl q = (q, Ok s).
  Proof. unfold build_log_dataset. intros ->. reflexivity. Qed.
  Lemma loader_ok bs fl p q l : build_log_dataloader bs fl p = (q, Ok l) -> fe_dl q = Some l.
  Proof.
    unfold build_log_dataloader. unfold sbind at 1. cbn [sget]. destruct (fe_dl p) as [l'|] eqn:E; [intros [= <- <-]; exact E|].
    unfold sbind. destruct (build_log_dataset fl p) as [q' [s|e]]; [|discriminate]. destruct (bs <=? 0)%Z; [discriminate|]. intros [= <- <-]. reflexivity.
  Qed.

  Theorem loader_kept p0 os0 bs fl p l os bs' fl' : new p0 -> build_log_dataloader bs fl (run_rops os0 p0) = (p, Ok l) ->
    let q := run_rops os p in build_log_dataloader bs' fl' q = (q, Ok l) /\ build_log_dataset fl' q = (q, Ok (dl_set l)).
  Proof.
    intros N E. cbv zeta. pose proof (loader_ok _ _ _ _ _ E) as L.
    assert (Ip : inv p). { pose proof (keeps_dataloader bs fl (run_rops os0 p0)) as K. rewrite E in K. apply K. apply reach_inv. exact N. }
    destruct (keeps_rops os p) as (Kd & _ & Kl & _). split; [apply loader_cached; auto|]. apply dataset_cached. apply (Kd Ip). auto.
  Qed.
  Theorem dataset_kept p fl q s os fl' : build_log_dataset fl p = (q, Ok s) -> let q' := run_rops os q in build_log_dataset fl' q' = (q', Ok s).
  Proof. intros E. cbv zeta. apply dataset_cached. apply (keeps_rops os q). exact (dataset_ok _ _ _ _ E). Qed.

  (** the first calls *)
  Theorem first_dataset fl p : fe_ds p = None ->
    let d := x_dir (lm_x (fe_lm p)) in
    build_log_dataset fl p = match open_dataset d (dkeys d) with Ok ds => (fe_set_ds p (Some (LDS ds fl)), Ok (LDS ds fl)) | Err e => (p, Err e) end.
  Proof. intros E. unfold build_log_dataset. rewrite E. reflexivity. Qed.
  Theorem loader_fails bs fl p e : new p -> open_dataset (x_dir (lm_x (fe_lm p))) (dkeys (x_dir (lm_x (fe_lm p)))) = Err e ->
    build_log_dataloader bs fl p = (p, Err e) /\ build_log_dataset fl p = (p, Err e).
  Proof.
    intros (A & B) E. assert (D : build_log_dataset fl p = (p, Err e)) by (unfold build_log_dataset; rewrite A, E; reflexivity).
    split; [|exact D]. unfold build_log_dataloader. unfold sbind at 1. cbn [sget]. rewrite B. unfold sbind. rewrite D. reflexivity.
  Qed.
  Theorem loader_opens bs fl p ds : new p -> open_dataset (x_dir (lm_x (fe_lm p))) (dkeys (x_dir (lm_x (fe_lm p)))) = Ok ds -> (0 < bs)%Z ->
    exists q, build_log_dataloader bs fl p = (q, Ok (LDL (LDS ds fl) (Z.to_nat bs) (negb fl))).
  Proof.
    intros (A & B) E P. unfold build_log_dataloader. unfold sbind at 1. cbn [sget]. rewrite B. unfold sbind, build_log_dataset. rewrite A, E. cbv zeta.
    destruct (Z.leb_spec bs 0); [lia|]. eauto.
  Qed.
  Theorem loader_bad_size bs fl p ds os : new p -> open_dataset (x_dir (lm_x (fe_lm p))) (dkeys (x_dir (lm_x (fe_lm p)))) = Ok ds -> (bs <= 0)%Z ->
    exists q, build_log_dataloader bs fl p = (q, Err ValueError) /\
      (forall fl', let q' := run_rops os q in build_log_dataset fl' q' = (q', Ok (LDS ds fl))).
  Proof.
    intros (A & B) E P. exists (fe_set_ds p (Some (LDS ds fl))). split.
    - unfold build_log_dataloader. unfold sbind at 1. cbn [sget]. rewrite B. unfold sbind, build_log_dataset. rewrite A, E. cbv zeta. destruct (Z.leb_spec bs 0); [reflexivity|lia].
    - intros fl'. cbv zeta. apply dataset_cached. apply (keeps_rops os). reflexivity.
  Qed.
  (** a loader built over a dataset that was built before *)
  Theorem loader_over bs fl p s : fe_ds p = Some s -> fe_dl p = None -> (0 < bs)%Z ->
    exists q, build_log_dataloader bs fl p = (q, Ok (LDL s (Z.to_nat bs) (negb fl))).
  Proof.
    intros A B P. unfold build_log_dataloader. unfold sbind at 1. cbn [sget]. rewrite B. unfold sbind. rewrite (dataset_cached fl p s A).
    destruct (Z.leb_spec bs 0); [lia|]. eauto.
  Qed.

  (** defaults of the influence calls *)
  Theorem default_loader src mode prec h g d p q l : build_log_dataloader 16 false p = (q, Ok l) ->
    fe_influence_all (Some src) None mode prec h g d p = fe_influence_all (Some src) (Some (feed_of dec show l)) mode prec h g d q.
  Proof. intros E. unfold ModelRun.fe_influence_all. cbn [or_own]. unfold sbind, sret. rewrite E. reflexivity. Qed.
  Theorem default_loader_fails src mode prec h g d p q e : build_log_dataloader 16 false p = (q, Err e) ->
    fe_influence_all (Some src) None mode prec h g d p = (q, Err e).
  Proof. intros E. unfold ModelRun.fe_influence_all. cbn [or_own]. unfold sbind, sret. rewrite E. reflexivity. Qed.
  Definition current (p : fe) (ids : list did) : glog :=
    (map show ids, Nest (leaf_map (fun t => VT t) (ModelLogger.log_nd (fun t => t) (x_heap (lm_x (fe_lm p))) (x_log (lm_x (fe_lm p)))))).
  Theorem default_source ids p : x_ids (lm_x (fe_lm p)) = Some ids ->
    (forall loader mode prec h g d, fe_influence_all None loader mode prec h g d p = fe_influence_all (Some (current p ids)) loader mode prec h g d p) /\
    (forall prec h g d, fe_self_influence None prec h g d p = fe_self_influence (Some (current p ids)) prec h g d p).
  Proof.
    intros E. assert (O : or_own show None p = (p, Ok (current p ids))).
    { cbn [or_own]. unfold own_log, sbind, on_flm, on_x, lx_get_log. cbn [fst snd].
      replace (fe_set_lm p (lm_set_x (fe_lm p) (lm_x (fe_lm p)))) with p by (destruct p as [[] ? ? ? ? ?]; reflexivity).
      cbn [read_got fst snd]. rewrite E. reflexivity. }
    split; intros; unfold ModelRun.fe_influence_all, ModelRun.fe_self_influence, sbind; rewrite O; reflexivity.
  Qed.
  Theorem explicit_value src batches mode prec h g d p s r :
    call_value eigh inverse fsqrt (ICall _ src batches mode prec h g d) (x_state (lm_x (fe_lm p))) = (s, Ok (Some r)) ->
    exists q o, fe_influence_all (Some src) (Some (batches, None)) mode prec h g d p = (q, Ok (Some o)) /\ view (fe_ifn q) o = r /\ x_state (lm_x (fe_lm q)) = s.
  Proof.
    intros E. destruct (unsaved eigh inverse fsqrt (ICall _ src batches mode prec h g d) (fe_ifn p) s r E) as (f' & o & C & V & S' & _).
    exists (fe_put_ifn p f'), o. unfold ModelRun.fe_influence_all. cbn [or_own]. unfold sbind, sret, on_fifn.
    unfold ModelRun.influence_over. cbn [snd fst].
    change (compute_influence_all eigh inverse fsqrt src batches mode prec false h g d (fe_ifn p)) with (call_all eigh inverse fsqrt false (ICall _ src batches mode prec h g d) (fe_ifn p)).
    rewrite C. split; [reflexivity|]. split; [exact V|]. exact S'.
  Qed.
  Theorem broken_feed src batches e mode prec h g d p : exists q e', fe_influence_all (Some src) (Some (batches, Some e)) mode prec h g d p = (q, Err e') /\
    (forall s x, call_value eigh inverse fsqrt (ICall _ src batches mode prec h g d) (x_state (lm_x (fe_lm p))) = (s, Ok x) -> e' = e).
  Proof.
    unfold ModelRun.fe_influence_all. cbn [or_own]. unfold sbind, sret, on_fifn, ModelRun.influence_over, call_value. cbn [snd fst ic_src ic_loader ic_mode ic_prec ic_hessian ic_groups ic_damping].
    change (if_state (fe_ifn p)) with (x_state (lm_x (fe_lm p))).
    destruct (influence_all _ _ _ _ _ _ _ _ _ _ _) as [s [x|e']].
    - exists (fe_put_ifn p (IFn s (h_lists (fe_ifn p)) (h_dicts (fe_ifn p)) (if_scores (fe_ifn p)))), e. split; [reflexivity|]. auto.
    - exists (fe_put_ifn p (IFn s (h_lists (fe_ifn p)) (h_dicts (fe_ifn p)) (if_scores (fe_ifn p)))), e'. split; [reflexivity|]. intros s' x [=].
  Qed.
  Theorem results_stay os p : fe_scores (run_rops os p) = fe_scores p /\ (forall o, obj_ok (fe_ifn p) o -> view (fe_ifn (run_rops os p)) o = view (fe_ifn p) o).
  Proof. destruct (keeps_rops os p) as (_ & _ & _ & S' & V). split; [exact S'|]. intros o O. apply (V o O). Qed.
End Proofs.
