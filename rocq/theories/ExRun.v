(** A concrete front end over the log of the example trainer. *)
From Coq Require Import ZArith QArith Qcanon.
From Verif Require Import Py PyStr Field Tensor ModelGrad Monad ModelState ModelMmap ModelSaver ModelLoader ModelLogger ModelModules ModelLora ModelScheduler ModelInfluence ModelUtils ModelTrainer ModelRun SpecStore SpecInfluence SpecRun ExNum ExState ExInfluence ExLogger ExLora ExRows ExTrainer.
Local Open Scope string_scope.
Local Open Scope list_scope.
Local Open Scope nat_scope.

(** the log of samples a, b, c *)
Definition r0 : @fe Qc := Eval vm_compute in FE (tr_lm t2) [] [] None None None.
Notation rrun := (run_rops xeigh xinverse xsqrt tdec tshow_id).
Notation rall := (fe_influence_all xeigh xinverse xsqrt tdec tshow_id).
Definition rds : dataset := Eval vm_compute in match open_dataset (x_dir (lm_x (fe_lm r0))) (dkeys (x_dir (lm_x (fe_lm r0)))) with Ok d => d | Err _ => DS [] [] end.
(** the object after logging a, b, c, u, v, w *)
Definition rmore : @lm Qc := Eval vm_compute in tr_lm (fst (textract targs [[[ta]; [tc]; [tu]; [tv]]] t1)).
Definition rq : @glog Qc := (["q"], Nest (Node [("fc", Node [("grad", Leaf (VT (Cpu, zt [1; 1; 2] [1; -1]%Z)))])])).
Definition rview (x : @fe Qc * res (option (@robj Qc))) :=
  match x with (p, Ok (Some o)) => let v := view (fe_ifn p) o in Ok (i_src v, i_tgt v, vshow (i_val v)) | (_, Ok None) => Err StopIteration | (_, Err e) => Err e end.
(** a record cut off at the end of its file *)
Definition rcut : dataset := Eval vm_compute in DS (map (fun l => firstn (length l - 1) l) (ds_mm rds)) (ds_map rds).
