(** Model of /repo/logix/huggingface/callback.py and patch.py. The loop of transformers.Trainer is represented by the
    callback events it causes. Reading a record of the log fails when the loader is built, not when the loop reaches the record. *)
From Coq Require Import ZArith.
From Verif Require Import Py PyStr Field Tensor ModelGrad Monad ModelState ModelMmap ModelSaver ModelLoader ModelLogger ModelModules ModelLora ModelScheduler ModelInfluence ModelUtils.
Local Open Scope string_scope.
Local Open Scope list_scope.
Local Open Scope nat_scope.

Fixpoint leaf_map {A B} (f : A -> B) (x : nd A) : nd B :=
  match x with
  | Leaf a => Leaf (f a)
  | Node l => Node ((fix go l := match l with [] => [] | (k, v) :: r => (k, leaf_map f v) :: go r end) l)
  end.

(** patch.py:192-198. [tok]: the tokenizer's batch_decode, if there is a tokenizer. *)
Definition get_data_id (tok : option (data -> res (list string))) (hash : string -> string) (logic : string) (ipt : data) : res (option (list did)) :=
  if String.eqb logic "detokenize" then
    match tok with None => Err AssertionError | Some f => let* l := f ipt in Ok (Some (map DStr l)) end
  else if String.eqb logic "hash" then let* l := snd (gen_call hash ipt (new_gen "hash", [])) in Ok (Some (map DStr l))
  else Ok None.
(** patch.py:200-202; without labels the comparison gives a Python bool *)
Definition get_sum_scale (ignore : Z) (labels : option (list Z)) : res nat :=
  match labels with None => Err AttributeError | Some l => Ok (length (filter (fun y => negb (y =? ignore)%Z) l)) end.

Section Trainer.
  Context {F : Type} `{OField F}.
  Notation tensor := (tensor F).
  Notation dten := (@dten F).
  Notation sval := (@sval F).
  Notation lx := (@lx F).
  Notation lm := (@lm F).
  Notation glog := (@glog F).
  Context (rnd : mid -> list nat -> F) (svd : tensor -> res tensor) (kind : mid -> mkind).
  Context (eigh : tensor -> res (tensor * tensor)) (inverse : tensor -> res tensor) (fsqrt : F -> F).
  (** bytes of a tensor and back; data ids as the influence model names them *)
  Context (enc : dten -> array) (dec : array -> dten) (show : did -> string).
  Context (tok : option (data -> res (list string))) (hash : string -> string).

  (** arguments.py:21-71, what the callback and the trainer read *)
  Record hfargs := HA {
    ha_lora : bool; ha_init : bool; ha_nf : list string; ha_tf : list fclass; ha_bs : nat; ha_damping : option F;
    ha_imode : string; ha_groups : option (list string); ha_logic : string; ha_ignore : Z }.
  (** one call of training_step: the input ids, the attention mask, the labels, and what the forward and backward pass
      of the scaled loss do *)
  Record micro := Micro { mi_input : data; mi_mask : option dten; mi_labels : option (list Z); mi_body : nat -> list (@ev F) }.
  (** The trainer: scheduler, LogIX object and model, the InfluenceFunction object's results, args.mode, the callback's
      accumulated logs, and the batches of the loader that LogIX and the callback hold. *)
  Record tr := TR {
    tr_sched : sched; tr_lm : lm;
    tr_lists : list (list string); tr_dicts : list (dict string tensor); tr_scores : option (@robj F);
    tr_mode : string; tr_acc : list (option (list string) * nd sval);
    tr_built : option (list glog); tr_loader : option (list glog) }.
  Definition tr_set_lm (p : tr) c s := TR c s (tr_lists p) (tr_dicts p) (tr_scores p) (tr_mode p) (tr_acc p) (tr_built p) (tr_loader p).
  Definition tr_set_acc (p : tr) l := TR (tr_sched p) (tr_lm p) (tr_lists p) (tr_dicts p) (tr_scores p) (tr_mode p) l (tr_built p) (tr_loader p).
  Definition tr_set_mode (p : tr) m := TR (tr_sched p) (tr_lm p) (tr_lists p) (tr_dicts p) (tr_scores p) m (tr_acc p) (tr_built p) (tr_loader p).
  Definition tr_set_loader (p : tr) b l := TR (tr_sched p) (tr_lm p) (tr_lists p) (tr_dicts p) (tr_scores p) (tr_mode p) (tr_acc p) b l.
  (** the influence function shares the state of the LogIX object (logix.py:95) *)
  Definition tr_ifn (p : tr) : @ifn F := IFn (x_state (lm_x (tr_lm p))) (tr_lists p) (tr_dicts p) (tr_scores p).
  Definition tr_put_ifn (p : tr) (f : @ifn F) : tr :=
    TR (tr_sched p) (lm_set_x (tr_lm p) (with_state (lm_x (tr_lm p)) (if_state f))) (h_lists f) (h_dicts f) (if_scores f) (tr_mode p) (tr_acc p) (tr_built p) (tr_loader p).
  Definition on_sched {A} (m : SM (sched * lm) A) : SM tr A := fun p => let '((c, s), r) := m (tr_sched p, tr_lm p) in (tr_set_lm p c s, r).
  Definition on_tlm {A} (m : SM lm A) : SM tr A := fun p => let (s, r) := m (tr_lm p) in (tr_set_lm p (tr_sched p) s, r).
  Definition on_infl {A} (m : SM (@ifn F) A) : SM tr A := fun p => let (f, r) := m (tr_ifn p) in (tr_put_ifn p f, r).
  Definition on_lstate {A} (m : SM (@lstate F) A) : SM (@ifn F) A := fun f =>
    let (s, r) := m (if_state f) in (IFn s (h_lists f) (h_dicts f) (if_scores f), r).

  (** logix.py:331-363, log_loader.py: the batches of the log directory *)
  Definition log_batches (bs : nat) (d : fs) : res (list glog) :=
    let* ds := open_dataset d (dkeys d) in
    let* l := dataloader ds bs in
    Ok (map (fun b => (map show (fst b), Nest (leaf_map (fun a => VT (dec a)) (snd b)))) l).
  Definition init_from_log : SM lm unit := initialize_from_log rnd svd None None.

  (** callback.py:37-46 *)
  Definition on_init_end (a : hfargs) (root : mtree) : SM tr unit :=
    on_tlm (lm_watch root (Some (ha_tf a)) (Some (ha_nf a))) ;;
    (if ha_lora a then on_tlm (lm_add_lora rnd svd true true None None None None) else sret tt).
  (** callback.py:48-54 *)
  Definition on_epoch_begin : SM tr unit :=
    let! p := sget in
    if String.eqb (tr_mode p) "log" then on_sched (sched_next rnd svd) ;; sret tt else sret tt.
  Definition on_epoch_end : SM tr unit :=
    let! p := sget in
    if String.eqb (tr_mode p) "log" then on_tlm lm_finalize else sret tt.
  (** callback.py:56-65; the two assignments to the trainer's own state are left out *)
  Definition on_train_begin (a : hfargs) : SM tr unit :=
    let! p := sget in
    (if ha_init a then on_tlm init_from_log else sret tt) ;;
    (if mem (tr_mode p) ["influence"; "self_influence"] then
       on_tlm (on_x (lx_setup [("grad", [AStr "log"])])) ;; on_tlm (on_x lx_eval)
     else sret tt).
  (** [self.accumulated_log.append(self.logix.get_log(copy=True))] *)
  Definition keep_log : SM tr unit :=
    let! g := on_tlm (on_x (lx_get_log true)) in
    fun p => let l := read_got (lm_x (tr_lm p)) g in
             (tr_set_acc p (tr_acc p ++ [(option_map (map show) (fst l), leaf_map VT (snd l))]), Ok tt).
  (** utils.py:177-184; an unset data_id cannot extend a list *)
  Definition merge_kept (l : list (option (list string) * nd sval)) : res (list string * nd sval) :=
    foldM (fun acc x => match fst x with
                        | None => Err TypeError
                        | Some ids => let* d := merge_log_dict (snd acc) (snd x) in Ok (fst acc ++ ids, d)
                        end) l ([], Node []).
  (** callback.py:98-104, logix.py:352-363 *)
  Definition log_dataloader (a : hfargs) : SM tr (list glog) := fun p =>
    match tr_loader p with
    | Some l => (p, Ok l)
    | None => match tr_built p with
              | Some l => (tr_set_loader p (Some l) (Some l), Ok l)
              | None => match log_batches (ha_bs a) (x_dir (lm_x (tr_lm p))) with
                        | Ok l => (tr_set_loader p (Some l) (Some l), Ok l)
                        | Err e => (p, Err e)
                        end
              end
    end.
  (** callback.py:67-92 *)
  Definition on_step_end (a : hfargs) : SM tr unit :=
    let! p := sget in
    if String.eqb (tr_mode p) "influence" then
      keep_log ;;
      let! p := sget in
      let! acc := lift (merge_kept (tr_acc p)) in
      let! loader := log_dataloader a in
      on_infl (compute_influence_all eigh inverse fsqrt (fst acc, Nest (snd acc)) loader (ha_imode a) true true "auto" (ha_groups a) (ha_damping a)) ;;
      (fun p => (tr_set_acc p [], Ok tt))
    else if String.eqb (tr_mode p) "self_influence" then
      keep_log ;;
      let! p := sget in
      let! acc := lift (merge_kept (tr_acc p)) in
      on_infl (on_lstate (compute_self_influence eigh inverse (fst acc, Nest (snd acc)) true "auto" (ha_groups a) (ha_damping a))) ;;
      (fun p => (tr_set_acc p [], Ok tt))
    else sret tt.
  (** callback.py:94-96 *)
  Definition on_substep_end : SM tr unit :=
    let! p := sget in
    if mem (tr_mode p) ["influence"; "self_influence"] then keep_log else sret tt.

  (** [with logix(data_id, mask)], where data_id may be None (logix.py:244-285) *)
  Definition block (ids : option (list did)) (mask : option dten) (body : SM lx unit) : SM lx unit :=
    match ids with
    | Some l => with_block eigh enc l mask false body
    | None =>
        (fun x => (with_saves (with_batch (detach x) None mask []) (x_save x) false, Ok tt)) ;; lx_enter ;;
        fun x => match body x with
                 | (x', Ok _) => lx_exit eigh enc x'
                 | (x', Err e) => match lx_exit eigh enc x' with (x'', Ok _) => (x'', Err e) | (x'', Err e') => (x'', Err e') end
                 end
    end.
  (** patch.py:157-190 *)
  Definition training_step (a : hfargs) (m : micro) : SM lx unit :=
    let! ids := lift (get_data_id tok hash (ha_logic a) (mi_input m)) in
    let! scale := lift (get_sum_scale (ha_ignore a) (mi_labels m)) in
    block ids (mi_mask m) (run_evs kind eigh (mi_body m scale)).

  (** transformers.Trainer: one optimizer step over some micro-batches, an epoch, a training run *)
  Fixpoint do_step (a : hfargs) (ms : list micro) : SM tr unit :=
    match ms with
    | [] => sret tt
    | [m] => on_tlm (on_x (training_step a m)) ;; on_step_end a
    | m :: r => on_tlm (on_x (training_step a m)) ;; on_substep_end ;; do_step a r
    end.
  Definition do_epoch (a : hfargs) (steps : list (list micro)) : SM tr unit :=
    on_epoch_begin ;; seach (do_step a) steps ;; on_epoch_end.
  Definition do_train (a : hfargs) (epochs : list (list (list micro))) : SM tr unit :=
    on_train_begin a ;; seach (do_epoch a) epochs.
  (** patch.py:99-113 *)
  Definition set_mode (m : string) : SM tr unit := fun p => (tr_set_mode p m, Ok tt).
  Definition extract_log (a : hfargs) (epochs : list (list (list micro))) : SM tr unit := set_mode "log" ;; do_train a epochs.
  Definition influence (a : hfargs) (epochs : list (list (list micro))) : SM tr (option (@robj F)) :=
    set_mode "influence" ;; do_train a epochs ;; let! p := sget in sret (tr_scores p).
  Definition self_influence (a : hfargs) (epochs : list (list (list micro))) : SM tr unit := set_mode "self_influence" ;; do_train a epochs.

  (** patch.py:57-97: a new trainer around a LogIX object; the scheduler's [lora] keeps its default. The number of epochs
      is the length of the schedule. *)
  Definition new_trainer (a : hfargs) (hessian save : string) (s : lm) (root : mtree) : tr * res unit :=
    match new_sched "none" hessian save with
    | Err e => (TR (Sched "none" hessian save (-1) [] []) s [] [] None "log" [] None None, Err e)
    | Ok c => on_init_end a root (TR c s [] [] None "log" [] None None)
    end.
  Definition num_epochs (p : tr) : nat := length (sc_all (tr_sched p)).
End Trainer.
