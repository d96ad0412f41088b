(** New trainers for the examples: the layer of ExTrainer with LoRA, with and without a file of weights from an earlier run. *)
From Coq Require Import ZArith QArith Qcanon.
From Verif Require Import Py PyStr Field Tensor ModelGrad Monad ModelState ModelMmap ModelSaver ModelLoader ModelLogger ModelModules ModelLora ModelScheduler ModelInfluence ModelUtils ModelTrainer ModelLightning SpecGrad SpecState SpecInfluence SpecLora SpecScheduler SpecNew ExNum ExState ExInfluence ExLogger ExLora ExRows ExTrainer.
Local Open Scope string_scope.
Local Open Scope list_scope.
Local Open Scope nat_scope.

Definition nargs (lora init : bool) : @hfargs Qc := HA lora init [] [FLinear] 2 xd "dot" None "detokenize" (-100).
Definition npargs (lora init : bool) : @plargs Qc := PA lora init [] [FLinear] 2 xd "dot".
Definition nnew (lora init : bool) (s : @lm Qc) := new_trainer lrnd lsvd (nargs lora init) "raw" "grad" s troot.
Definition npl (s : @lm Qc) : @pl Qc nat := match new_pl "raw" "grad" s 7 with Ok q => q | Err _ => PL t1 0 0 false end.
Definition nmodule (lora init : bool) (s : @lm Qc) := new_module lrnd lsvd (npargs lora init) troot (npl s).
(** an earlier run, with other random weights and rank 3, added LoRA and finalized; a new process uses its directory *)
Definition nold : @lm Qc := Eval vm_compute in
  let s0 := lm_set_lora tlm0 (lcfg "random" 3 false None) None in
  let s := fst (lm_finalize (tr_lm (fst (new_trainer (fun m i => fadd (lrnd m i) f1) lsvd (nargs true false) "raw" "grad" s0 troot)))) in
  let x0 := @lx_init Qc 0 100 false in
  LM (with_store x0 (x_saver x0) (x_dir (lm_x s)) (x_disk (lm_x s))) None 2 [] [(1, (zt [1; 2] [1; 1]%Z, None))] None None (lcfg "random" 1 false None) None (lm_file s) (lm_conf s).
Definition ndisk (s : @lm Qc) := option_map (map (fun e : string * tensor Qc => (fst e, show (snd e)))) (lm_file s).
Definition nweight (s : @lm Qc) (m : mid) := option_map (fun wb => show (fst wb)) (dget m (lm_w s)).
