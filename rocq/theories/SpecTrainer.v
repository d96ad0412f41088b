(** Specification vocabulary for the trainers. *)
From Coq Require Import ZArith.
From Verif Require Import Py PyStr Field Tensor ModelGrad Monad ModelState ModelMmap ModelSaver ModelLoader ModelLogger ModelModules ModelLora ModelScheduler ModelInfluence ModelUtils ModelTrainer SpecGrad SpecState SpecInfluence SpecRows.
Local Open Scope string_scope.
Local Open Scope list_scope.
Local Open Scope nat_scope.

Section Spec.
  Context {F : Type} `{OField F}.
  Context (kind : mid -> mkind) (eigh : tensor F -> res (tensor F * tensor F)).
  Context (enc : @dten F -> array) (show : did -> string).
  Context (tok : option (data -> res (list string))) (hash : string -> string).
  (** only gradients are logged, no statistics *)
  Definition log_only (x : @lx F) : Prop := x_opt x = Opts [] [] [PLog].
  (** Training steps one after the other, without any callback; the copies of the log after each. *)
  Inductive trained (a : @hfargs F) : @lx F -> list (@micro F) -> list (list string * nd (@sval F)) -> @lx F -> Prop :=
  | trained_none x : trained a x [] [] x
  | trained_step x m ms x1 ids l ls x2 :
      training_step kind eigh enc tok hash a m x = (x1, Ok tt) -> lx_get_log true x1 = (x1, Ok (GCopy (Some ids) l)) ->
      trained a x1 ms ls x2 -> trained a x (m :: ms) ((map show ids, leaf_map VT l) :: ls) x2.
  (** how the callback keeps such a copy *)
  Definition kept (l : list string * nd (@sval F)) : option (list string) * nd (@sval F) := (Some (fst l), snd l).
  Definition as_nest (l : list string * nd (@sval F)) : @glog F := (fst l, Nest (snd l)).
  (** the results of the influence object, and the loader *)
  Definition same_results (p p' : @tr F) : Prop := tr_scores p' = tr_scores p /\ tr_lists p' = tr_lists p /\ tr_dicts p' = tr_dicts p /\ tr_built p' = tr_built p /\ tr_loader p' = tr_loader p.
  (** epochs the scheduler has not handed out *)
  Definition epochs_left (p : @tr F) : nat := length (sc_rest (tr_sched p)).
End Spec.
