(** Specification vocabulary for whole runs: the logs of an epoch and the statistics over its gradients. *)
From Coq Require Import ZArith.
From Verif Require Import Py PyStr Field Tensor ModelGrad Monad ModelState ModelMmap ModelSaver ModelLoader ModelLogger ModelModules ModelLora ModelScheduler ModelInfluence ModelUtils ModelTrainer SpecGrad SpecState SpecStore SpecLogger SpecInfluence SpecRows SpecTrainer SpecDisk.
Local Open Scope string_scope.
Local Open Scope list_scope.
Local Open Scope nat_scope.

Section Spec.
  Context {F : Type} `{OField F}.
  (** Mean and covariance only; the statistics over gradients are listed once each. *)
  Definition all_moments (o : opts) : Prop :=
    moments_only o /\ NoDup (skipn 1 (o_grad o)) /\ forall p, In p (skipn 1 (o_grad o)) -> p = PMean \/ p = PCovariance.
  Definition grad_kinds (o : opts) : list stat := concat (map stat_of (skipn 1 (o_grad o))).
  Section Epoch.
    Variable kind : mid -> mkind.
    Variable eigh : tensor F -> res (tensor F * tensor F).
    Variable enc : @dten F -> array.
    (** an epoch; after every batch the user reads the log *)
    Inductive logged_epoch : list (@batch F) -> list (@tlog F) -> @lx F -> @lx F -> Prop :=
    | le_done x : logged_epoch [] [] x x
    | le_batch b bs L Ls x x1 x2 ids l :
        epoch kind eigh enc [b] x x1 -> read_got x1 (GView (x_ids x1)) = (ids, l) -> leaf_map VT l = log_nd L ->
        logged_epoch bs Ls x1 x2 -> logged_epoch (b :: bs) (L :: Ls) x x2.
  End Epoch.
  (** the gradients of a module in several logs, and one flattened gradient per sample *)
  Definition grads (m : string) (Ls : list (@tlog F)) : list (tensor F) :=
    concat (map (fun L => match grad_of L m with Some d => [snd d] | None => [] end) Ls).
  Definition grad_rows (ts : list (tensor F)) : list (list F) := concat (map (fun t => map (@Tensor.data F) (samples t)) ts).
  (** every logged module has gradients of at least one sample *)
  Definition good_grads (L : @tlog F) : Prop :=
    forall m, In m (dkeys L) -> exists d t, grad_of L m = Some (d, t) /\ twf t /\ prod (shape t) <> 0.
  (** the mean over the samples of the products of all pairs of gradient entries of a module *)
  Definition second_moment (M : @tlog F) (m : string) : tensor F :=
    match grad_of M m with
    | Some d => let t := snd d in moment SCov (prod (tl (shape t))) (map (@Tensor.data F) (samples t)) (fnat (batch_size t))
    | None => T [] []
    end.
  Definition posdef (n : nat) (a : tensor F) : Prop :=
    forall v : nat -> F, (exists i, i < n /\ v i <> f0) ->
      let q := sum n (fun i => sum n (fun j => fmul (fmul (v i) (mget a i j)) (v j))) in fle f0 q /\ q <> f0.
  (** torch.inverse succeeds on symmetric positive definite matrices of size [n] *)
  Definition inverts (inverse : tensor F -> res (tensor F)) (n : nat) : Prop :=
    forall a, symmetric n a -> twf a -> posdef n a -> exists b, inverse a = Ok b.
  (** every gradient of [ms] is a matrix per sample *)
  Definition matrices (ms : list string) (M : @tlog F) : Prop := forall m, In m ms -> exists d t n i j, grad_of M m = Some (d, t) /\ shape t = [n; i; j].
End Spec.

Section Runs.
  Context {F : Type} `{OField F}.
  Context (rnd : mid -> list nat -> F) (svd : tensor F -> res (tensor F)) (kind : mid -> mkind) (wsize : mid -> nat).
  Context (eigh : tensor F -> res (tensor F * tensor F)).
  Context (enc : @dten F -> array) (dec : array -> @dten F) (show : did -> string).
  Context (tok : option (data -> res (list string))) (hash : string -> string).
  (** A trainer whose object watches the modules [ms], has collected no statistics and writes to an empty directory, with
      an unused schedule for [hessian]. *)
  Definition new_run (hessian : string) (ms : list string) (a : @hfargs F) (p : @tr F) : Prop :=
    new_sched "none" hessian "grad" = Ok (tr_sched p) /\ ha_init a = false /\
    let x := lm_x (tr_lm p) in
    reachable kind wsize eigh enc x /\ pristine (x_state x) /\ fresh_dir (x_dir x) /\
    exists rank w thr, x_saver x = saver_init rank w thr (grad_paths ms) /\ (w <= 1)%Z.
  (** One epoch of training steps in which the gradients [M] of the samples [sids] are logged, batch by batch, and can be
      written to disk and read back. *)
  Definition training (ms : list string) (a : @hfargs F) (p : @tr F) (steps : list (list (@micro F))) (sids : list string) (M : @tlog F) : Prop :=
    ms <> [] /\ NoDup ms /\ (forall m, In m (dkeys M) -> In m ms) /\ 0 < ha_bs a /\ NoDup sids /\
    Forall (fun m => forall k, own_backward [] (mi_body m k)) (concat steps) /\
    (exists dt e exact, codec dt e exact enc dec /\ storable exact ms (length sids) M) /\
    exists p1 ls x1 ks, on_epoch_begin rnd svd (tr_set_mode p "log") = (p1, Ok tt) /\
      trained kind eigh enc show tok hash a (lm_x (tr_lm p1)) (concat steps) ls x1 /\ map as_nest ls = batches 0 ks sids M /\ splits ks (length sids).
  (** Training steps of an influence run in which the gradients [Q] of the samples [qids] are logged. *)
  Definition testing (a : @hfargs F) (p : @tr F) (epochs : list (list (list (@micro F)))) (qids : list string) (Q : @tlog F) : Prop :=
    uniform (length qids) Q /\ ok_log Q /\ Forall (fun ms => ms <> []) (concat epochs) /\
    exists p0 ls x1 ks, on_train_begin rnd svd a (tr_set_mode p "influence") = (p0, Ok tt) /\
      trained kind eigh enc show tok hash a (lm_x (tr_lm p0)) (concat (concat epochs)) ls x1 /\ map as_nest ls = batches 0 ks qids Q /\ splits ks (length qids).
  (** no influence scores yet, no loader *)
  Definition no_results (p : @tr F) : Prop := tr_scores p = None /\ tr_acc p = [] /\ tr_built p = None /\ tr_loader p = None.
End Runs.
(** a training step as a batch of the logger; its data ids play no role for statistics *)
Definition step_scale {F} (a : @hfargs F) (m : @micro F) : nat := match get_sum_scale (ha_ignore a) (mi_labels m) with Ok k => k | Err _ => 0 end.
Definition step_batch {F} (a : @hfargs F) (m : @micro F) : @batch F := Batch [] (mi_mask m) (mi_body m (step_scale a m)).
(** the statistics of activations and output gradients that the training steps update in a run for "kfac" *)
Definition factor_calls {F} `{OField F} (kind : mid -> mkind) (a : @hfargs F) (p : @tr F) (steps : list (list (@micro F))) : list (@call F) :=
  let x := lm_x (tr_lm p) in epoch_calls kind (x_mods x) (x_names x) (Opts [PCovariance] [PCovariance] [PLog]) (x_offload x) (x_heap x) (map (step_batch a) (concat steps)).
Definition factor {F} `{OField F} (cs : list (@call F)) (m t : string) : tensor F :=
  let ccs := calls_for SCov m t cs in moment SCov (width (all_rows ccs)) (all_rows ccs) (all_count ccs).
(** activations and output gradients of [m] have been seen, of the sizes of its gradients in [Q], with a positive count *)
Definition factored {F} `{OField F} (cs : list (@call F)) (Q : @tlog F) (m : string) : Prop :=
  exists d g n i j, grad_of Q m = Some (d, g) /\ shape g = [n; i; j] /\
    forall t k, In (t, k) [("forward", j); ("backward", i)] ->
      let ccs := calls_for SCov m t cs in ccs <> [] /\ width (all_rows ccs) = k /\ fle f0 (all_count ccs) /\ all_count ccs <> f0.
(** torch.linalg.eigh succeeds on every factor *)
Definition decomposes {F} `{OField F} (eigh : tensor F -> res (tensor F * tensor F)) (cs : list (@call F)) : Prop :=
  forall m t, calls_for SCov m t cs <> [] -> exists wv, eigh (factor cs m t) = Ok wv.
(** the factors of every module are on one device *)
Definition one_device {F} `{OField F} (s : @lstate F) : Prop :=
  forall C, holds s "covariance_state" C -> forall m cf cb, look C m "forward" = Some cf -> look C m "backward" = Some cb -> fst cf = fst cb.
