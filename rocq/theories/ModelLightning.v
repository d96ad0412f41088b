(** Model of /repo/logix/lightning/callback.py and patch.py. The loop of lightning.Trainer is represented by the callback
    events it causes. The trainer record of ModelTrainer is used for scheduler, LogIX object, influence object and loader; the
    fields [tr_acc] and [tr_loader] belong to the Hugging Face callback and are not used here. *)
From Coq Require Import ZArith.
From Verif Require Import Py PyStr Field Tensor ModelGrad Monad ModelState ModelMmap ModelSaver ModelLoader ModelLogger ModelModules ModelLora ModelScheduler ModelInfluence ModelUtils ModelTrainer.
Local Open Scope string_scope.
Local Open Scope list_scope.
Local Open Scope nat_scope.

Section Lightning.
  Context {F : Type} `{OField F}.
  Notation tensor := (tensor F).
  Notation dten := (@dten F).
  Notation lx := (@lx F).
  Notation lm := (@lm F).
  Notation tr := (@tr F).
  Notation glog := (@glog F).
  Context (rnd : mid -> list nat -> F) (svd : tensor -> res tensor) (kind : mid -> mkind).
  Context (eigh : tensor -> res (tensor * tensor)) (inverse : tensor -> res tensor) (fsqrt : F -> F).
  Context (enc : dten -> array) (dec : array -> dten) (show : did -> string).
  (** a batch of the user's dataloader; the id extractor is a callable object with a state, the mask extractor is optional *)
  Context {B X : Type} (extract : B -> SM X (list did)) (mask : option (B -> res (option dten))).
  (** what the training step, the backward pass and the optimizer do with the batch *)
  Context (body : B -> list (@ev F)).

  (** lightning/arguments.py:21-58, what the callback and the patched classes read *)
  Record plargs := PA {
    pa_lora : bool; pa_init : bool; pa_nf : list string; pa_tf : list fclass; pa_bs : nat; pa_damping : option F; pa_imode : string }.
  (** The trainer: [pl_epoch] is trainer.current_epoch, [pl_stop] trainer.should_stop, [pl_ext] the extractor's state. *)
  Record pl := PL { pl_t : tr; pl_ext : X; pl_epoch : nat; pl_stop : bool }.
  Definition on_t {A} (m : SM tr A) : SM pl A := fun q => let (t, r) := m (pl_t q) in (PL t (pl_ext q) (pl_epoch q) (pl_stop q), r).
  Definition on_ext {A} (m : SM X A) : SM pl A := fun q => let (e, r) := m (pl_ext q) in (PL (pl_t q) e (pl_epoch q) (pl_stop q), r).
  Definition on_lx {A} (m : SM lx A) : SM pl A := on_t (on_tlm (on_x m)).
  Definition pl_mode (q : pl) : string := tr_mode (pl_t q).

  (** callback.py:42-47 *)
  Definition pl_epoch_start : SM pl unit :=
    let! q := sget in
    if String.eqb (pl_mode q) "log" then on_t (on_sched (sched_next rnd svd)) ;; sret tt
    else on_lx (lx_setup [("grad", [AStr "log"])]) ;; on_lx lx_eval.
  (** callback.py:49-55; len(scheduler) is the number of all its epochs *)
  Definition pl_epoch_end : SM pl unit :=
    let! q := sget in
    (if String.eqb (pl_mode q) "log" then on_t (on_tlm lm_finalize) else sret tt) ;;
    (fun q => let max_epochs := if String.eqb (pl_mode q) "log" then length (sc_all (tr_sched (pl_t q))) else 1 in
              (PL (pl_t q) (pl_ext q) (pl_epoch q) (if max_epochs - 1 <=? pl_epoch q then true else pl_stop q), Ok tt)).
  (** callback.py:57-61 *)
  Definition pl_batch_start (b : B) : SM pl unit :=
    let! ids := on_ext (extract b) in
    let! m := lift (match mask with None => Ok None | Some f => f b end) in
    on_lx (lx_start ids m).
  (** logix.py:352-363, called without the callback keeping the loader *)
  Definition build_loader (a : plargs) : SM tr (list glog) := fun p =>
    match tr_built p with
    | Some l => (p, Ok l)
    | None => match log_batches dec show (pa_bs a) (x_dir (lm_x (tr_lm p))) with
              | Ok l => (tr_set_loader p (Some l) (tr_loader p), Ok l)
              | Err e => (p, Err e)
              end
    end.
  (** the batch log as the influence function reads it; an unset data_id is no list *)
  Definition live_log : SM tr glog :=
    let! g := on_tlm (on_x (lx_get_log false)) in
    fun p => let l := read_got (lm_x (tr_lm p)) g in
             match fst l with None => (p, Err TypeError) | Some ids => (p, Ok (map show ids, Nest (leaf_map VT (snd l)))) end.
  (** callback.py:63-87 *)
  Definition pl_batch_end (a : plargs) : SM pl unit :=
    on_lx (lx_end eigh enc false) ;;
    let! q := sget in
    if String.eqb (pl_mode q) "influence" then
      on_t (let! src := live_log in
            let! loader := build_loader a in
            on_infl (compute_influence_all eigh inverse fsqrt src loader (pa_imode a) true true "auto" None (pa_damping a)) ;; sret tt)
    else if String.eqb (pl_mode q) "self_influence" then
      on_t (let! src := live_log in
            let! loader := build_loader a in
            on_infl (on_lstate (compute_self_influence eigh inverse src true "auto" None (pa_damping a))) ;; sret tt)
    else sret tt.

  (** lightning.Trainer: a batch, an epoch, fit over the epochs that max_epochs allows. should_stop is reset when fit begins
      and read after each epoch; current_epoch is increased after the callback's epoch end and lives on between fits. *)
  Definition pl_batch (a : plargs) (b : B) : SM pl unit :=
    pl_batch_start b ;; on_lx (run_evs kind eigh (body b)) ;; pl_batch_end a.
  Definition pl_do_epoch (a : plargs) (bs : list B) : SM pl unit :=
    pl_epoch_start ;; seach (pl_batch a) bs ;; pl_epoch_end ;;
    (fun q => (PL (pl_t q) (pl_ext q) (S (pl_epoch q)) (pl_stop q), Ok tt)).
  Fixpoint fit_epochs (a : plargs) (es : list (list B)) : SM pl unit :=
    match es with
    | [] => sret tt
    | e :: r => pl_do_epoch a e ;; let! q := sget in if pl_stop q then sret tt else fit_epochs a r
    end.
  Definition fit (a : plargs) (es : list (list B)) : SM pl unit :=
    (fun q => (PL (pl_t q) (pl_ext q) (pl_epoch q) false, Ok tt)) ;; fit_epochs a es.
  (** patch.py:167-181 *)
  Definition pl_set_mode (m : string) : SM pl unit := on_t (set_mode m).
  Definition pl_extract (a : plargs) (es : list (list B)) : SM pl unit := pl_set_mode "log" ;; fit a es.
  Definition pl_influence (a : plargs) (es : list (list B)) : SM pl (option (@robj F)) :=
    pl_set_mode "influence" ;; fit a es ;; let! q := sget in sret (tr_scores (pl_t q)).
  Definition pl_self (a : plargs) (es : list (list B)) : SM pl unit := pl_set_mode "self_influence" ;; fit a es.

  (** patch.py:42-62: PatchedModule.__init__ around the user's module, whose attribute [model_key] is [root] *)
  Definition new_module (a : plargs) (root : mtree) : SM pl unit :=
    on_t (on_tlm (lm_watch root (Some (pa_tf a)) (Some (pa_nf a)))) ;;
    (if pa_lora a then on_t (on_tlm (lm_add_lora rnd svd true true None None None None)) else sret tt) ;;
    (if pa_init a then on_t (on_tlm (init_from_log rnd svd)) else sret tt).
  (** patch.py:29-40: LogIX object, scheduler, callback and a trainer that has not trained *)
  Definition new_pl (hessian save : string) (s : lm) (e : X) : res pl :=
    let* c := new_sched "none" hessian save in Ok (PL (TR c s [] [] None "log" [] None None) e 0 false).
End Lightning.

(** callback.py:37, utils.py:233-250: the default extractor is a hash generator applied to the batch itself *)
Definition default_extract {B} (items : B -> data) (hash : string -> string) (b : B) : SM env (list did) :=
  let! l := gen_call hash (items b) in sret (map DStr l).
Definition default_ext : env := (new_gen "hash", []).
