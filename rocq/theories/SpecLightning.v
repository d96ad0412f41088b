(** Specification vocabulary for the Lightning trainer. *)
From Coq Require Import ZArith.
From Verif Require Import Py PyStr Field Tensor ModelGrad Monad ModelState ModelMmap ModelSaver ModelLoader ModelLogger ModelModules ModelLora ModelScheduler ModelInfluence ModelUtils ModelTrainer ModelLightning.
Local Open Scope string_scope.
Local Open Scope list_scope.
Local Open Scope nat_scope.

Section Spec.
  Context {F : Type} `{OField F}.
  Context (kind : mid -> mkind) (eigh : tensor F -> res (tensor F * tensor F)) (enc : @dten F -> array) (show : did -> string).
  Context {B X : Type} (extract : B -> SM X (list did)) (mask : option (B -> res (option (@dten F)))) (body : B -> list (@ev F)).
  Definition mask_of (b : B) : res (option (@dten F)) := match mask with None => Ok None | Some f => f b end.
  (** Batches one after the other between start() and end(), without any analysis, and what get_log() shows after each. *)
  Inductive logged : @lx F -> X -> list B -> list (list string * nd (@sval F)) -> @lx F -> X -> Prop :=
  | logged_none x e : logged x e [] [] x e
  | logged_batch x e b bs e1 ids m x1 ids' l ls x2 e2 :
      extract b e = (e1, Ok ids) -> mask_of b = Ok m ->
      (lx_start ids m ;; run_evs kind eigh (body b) ;; lx_end eigh enc false) x = (x1, Ok tt) ->
      read_got x1 (GView (x_ids x1)) = (Some ids', l) ->
      logged x1 e1 bs ls x2 e2 -> logged x e (b :: bs) ((map show ids', leaf_map VT l) :: ls) x2 e2.
  (** epochs the scheduler has not handed out, and all of them *)
  Definition pl_left (q : @pl F X) : nat := length (sc_rest (tr_sched (pl_t q))).
  Definition pl_total (q : @pl F X) : nat := length (sc_all (tr_sched (pl_t q))).
  Definition pl_dir (q : @pl F X) : fs := x_dir (lm_x (tr_lm (pl_t q))).
  (** the results of the influence object *)
  Definition same_scores (q q' : @pl F X) : Prop := tr_scores (pl_t q') = tr_scores (pl_t q) /\ tr_lists (pl_t q') = tr_lists (pl_t q) /\ tr_dicts (pl_t q') = tr_dicts (pl_t q).
End Spec.

(** The bytes an element can be hashed by: arrays and tensors that can be turned into one. *)
Definition bytes_of (d : datum) : option string := match d with DNumpy _ b => Some b | DTorch b => b | DOther => None end.
