(** Specification vocabulary for a logging run of the Lightning trainer followed by an influence run. *)
From Coq Require Import ZArith.
From Verif Require Import Py PyStr Field Tensor ModelGrad Monad ModelState ModelMmap ModelSaver ModelLoader ModelLogger ModelModules ModelLora ModelScheduler ModelInfluence ModelUtils ModelTrainer ModelLightning SpecGrad SpecState SpecStore SpecLogger SpecInfluence SpecRows SpecTrainer SpecLightning SpecDisk SpecWhole.
Local Open Scope string_scope.
Local Open Scope list_scope.
Local Open Scope nat_scope.

Section Runs.
  Context {F : Type} `{OField F}.
  Context (rnd : mid -> list nat -> F) (svd : tensor F -> res (tensor F)) (kind : mid -> mkind) (wsize : mid -> nat).
  Context (eigh : tensor F -> res (tensor F * tensor F)).
  Context (enc : @dten F -> array) (dec : array -> @dten F) (show : did -> string).
  Context {B X : Type} (extract : B -> SM X (list did)) (mask : option (B -> res (option (@dten F)))) (body : B -> list (@ev F)).
  (** A trainer whose object watches the modules [ms], has collected no statistics and writes to an empty directory, with
      an unused schedule for [hessian]. *)
  Definition new_light (hessian : string) (ms : list string) (q : @pl F X) : Prop :=
    new_sched "none" hessian "grad" = Ok (tr_sched (pl_t q)) /\
    let x := lm_x (tr_lm (pl_t q)) in
    reachable kind wsize eigh enc x /\ pristine (x_state x) /\ fresh_dir (x_dir x) /\
    exists rank w thr, x_saver x = saver_init rank w thr (grad_paths ms) /\ (w <= 1)%Z.
  (** Batches of a dataloader in whose epoch the gradients [M] of the samples [sids] are logged, batch by batch, and can be
      written to disk and read back. *)
  Definition light_training (ms : list string) (a : @plargs F) (q : @pl F X) (bs : list B) (sids : list string) (M : @tlog F) : Prop :=
    ms <> [] /\ NoDup ms /\ (forall m, In m (dkeys M) -> In m ms) /\ 0 < pa_bs a /\ NoDup sids /\
    Forall (fun b => own_backward [] (body b)) bs /\
    (forall b e e' ids, In b bs -> extract b e = (e', Ok ids) -> Forall json_id ids) /\
    (exists dt e exact, codec dt e exact enc dec /\ storable exact ms (length sids) M) /\
    exists q1 ls x1 e1 ks, pl_epoch_start rnd svd (PL (tr_set_mode (pl_t q) "log") (pl_ext q) (pl_epoch q) false) = (q1, Ok tt) /\
      logged kind eigh enc show extract mask body (lm_x (tr_lm (pl_t q1))) (pl_ext q1) bs ls x1 e1 /\ map as_nest ls = batches 0 ks sids M /\ splits ks (length sids).
  (** Batches of an influence run in which the gradients [Q] of the samples [qids] are logged. *)
  Definition light_testing (q : @pl F X) (bs : list B) (qids : list string) (Q : @tlog F) : Prop :=
    uniform (length qids) Q /\
    exists x0 ls x1 e1 ks, (lx_setup [("grad", [AStr "log"])] ;; lx_eval) (lm_x (tr_lm (pl_t q))) = (x0, Ok tt) /\
      logged kind eigh enc show extract mask body x0 (pl_ext q) bs ls x1 e1 /\ map as_nest ls = batches 0 ks qids Q /\ splits ks (length qids).
  (** the statistics of activations and output gradients that the batches update in a run for "kfac" *)
  Definition light_batch (b : B) : @batch F := Batch [] (match mask_of mask b with Ok m => m | Err _ => None end) (body b).
  Definition light_calls (q : @pl F X) (bs : list B) : list (@call F) :=
    let x := lm_x (tr_lm (pl_t q)) in epoch_calls kind (x_mods x) (x_names x) (Opts [PCovariance] [PCovariance] [PLog]) (x_offload x) (x_heap x) (map light_batch bs).
End Runs.
