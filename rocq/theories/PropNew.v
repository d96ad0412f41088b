(** C91: newly created trainers (logix/huggingface, logix/lightning). *)
From Coq Require Import ZArith QArith Qcanon.
From Verif Require Import Py PyStr Field Tensor ModelGrad Monad ModelState ModelMmap ModelSaver ModelLoader ModelLogger ModelModules ModelLora ModelScheduler ModelInfluence ModelUtils ModelTrainer ModelLightning SpecGrad SpecState SpecInfluence SpecLora SpecWatch SpecScheduler SpecNew NewProofs NewProofs2 ExNum ExState ExInfluence ExLogger ExLora ExTrainer ExNew.
Local Open Scope string_scope.
Local Open Scope list_scope.
Local Open Scope nat_scope.

(** C91. A new trainer has its scheduler and nothing accumulated, also if the watching or the LoRA modules fail. *)
Theorem C91_trainer_new {F} `{OField F} (rnd : mid -> list nat -> F) (svd : tensor F -> res (tensor F)) a hessian save (s : @lm F) root p o :
  good "none" hessian save -> new_trainer rnd svd a hessian save s root = (p, o) ->
  exists c s', new_sched "none" hessian save = Ok c /\ p = TR c s' [] [] None "log" [] None None /\ num_epochs p = epochs "none" hessian.
Proof. exact (trainer_new rnd svd a hessian save s root p o). Qed.
Print Assumptions C91_trainer_new.
(** Unknown names are refused before anything is watched. *)
Theorem C91_trainer_refused {F} `{OField F} (rnd : mid -> list nat -> F) (svd : tensor F -> res (tensor F)) a hessian save (s : @lm F) root :
  (~ In hessian ["none"; "raw"; "kfac"; "ekfac"] -> exists p, new_trainer rnd svd a hessian save s root = (p, Err AssertionError) /\ tr_lm p = s) /\
  (In hessian ["none"; "raw"; "kfac"; "ekfac"] -> ~ In save ["none"; "forward"; "backward"; "grad"] -> exists p, new_trainer rnd svd a hessian save s root = (p, Err KeyError) /\ tr_lm p = s).
Proof. exact (trainer_refused rnd svd a hessian save s root). Qed.
Print Assumptions C91_trainer_refused.
(** Without LoRA the selected layers are tracked and all other leaves frozen. *)
Theorem C91_trainer_watching {F} `{OField F} (rnd : mid -> list nat -> F) (svd : tensor F -> res (tensor F)) a hessian save (s : @lm F) root n p o :
  good "none" hessian save -> ha_lora a = false -> tree_ok root n ->
  new_trainer rnd svd a hessian save s root = (p, o) -> watching (chosen (Some (ha_tf a)) (lm_tf s)) (chosen (Some (ha_nf a)) (lm_nf s)) root s (tr_lm p).
Proof. exact (trainer_watching rnd svd a hessian save s root n p o). Qed.
Print Assumptions C91_trainer_watching.
(** With LoRA the selected layers are wrapped and the bottlenecks tracked instead. *)
Theorem C91_trainer_compressed {F} `{OField F} (rnd : mid -> list nat -> F) (svd : tensor F -> res (tensor F)) a hessian save (s : @lm F) root p :
  good "none" hessian save -> ha_lora a = true -> tree_ok root (lm_next s) -> t_kids root <> [] -> plain root ->
  let tf := chosen (Some (ha_tf a)) (lm_tf s) in let nf := chosen (Some (ha_nf a)) (lm_nf s) in
  (exists i, selected tf nf root i) -> new_trainer rnd svd a hessian save s root = (p, Ok tt) ->
  compressed (in_use (lm_handler s) None (lm_cfg s)) tf nf root s (tr_lm p).
Proof. exact (trainer_compressed rnd svd a hessian save s root p). Qed.
Print Assumptions C91_trainer_compressed.
(** The new random weights are in the file from then on, and loading (initialize_from_log) keeps them: the weights of an
    earlier run are not used. *)
Theorem C91_trainer_lora_lost {F} `{OField F} (rnd : mid -> list nat -> F) (svd : tensor F -> res (tensor F)) a hessian save (s : @lm F) root p p2 o :
  good "none" hessian save -> ha_lora a = true -> tree_ok root (lm_next s) -> t_kids root <> [] -> plain root -> undotted root ->
  (exists i, selected (chosen (Some (ha_tf a)) (lm_tf s)) (chosen (Some (ha_nf a)) (lm_nf s)) root i) -> new_trainer rnd svd a hessian save s root = (p, Ok tt) ->
  (exists file, lm_file (tr_lm p) = Some file /\ holds_weights file (tr_lm p)) /\
  (on_train_begin rnd svd a p = (p2, o) -> lm_root (tr_lm p2) = lm_root (tr_lm p) /\ lm_w (tr_lm p2) = lm_w (tr_lm p) /\ lm_file (tr_lm p2) = lm_file (tr_lm p)).
Proof. exact (trainer_lora_lost rnd svd a hessian save s root p p2 o). Qed.
Print Assumptions C91_trainer_lora_lost.
(** The layer of C69 in the directory of an earlier run with LoRA: its file holds A = [3 4], the new trainer has A = [2 3],
    and so has the file, before and after initialize_from_log. *)
Example C91_trainer_example : let s := nold in
  good "none" "raw" "grad" /\ tree_ok troot (lm_next s) /\ t_kids troot <> [] /\ plain troot /\ undotted troot /\
  selected (chosen (Some [FLinear]) (lm_tf s)) (chosen (Some []) (lm_nf s)) troot (it troot 1) /\
  snd (nnew false false s) = Ok tt /\ x_names (lm_x (tr_lm (fst (nnew false false s)))) = [(1, "fc")] /\ lm_frozen (tr_lm (fst (nnew false false s))) = [] /\
  nnew true true s = (fst (nnew true true s), Ok tt) /\ x_names (lm_x (tr_lm (fst (nnew true true s)))) = [(3, "fc.logix_lora_B")] /\ lm_frozen (tr_lm (fst (nnew true true s))) = [2; 4; 1] /\
  snd (new_trainer lrnd lsvd (nargs true true) "raww" "grad" s troot) = Err AssertionError /\ snd (new_trainer lrnd lsvd (nargs true true) "raw" "log" s troot) = Err KeyError /\
  option_map (fun f => nth_error f 0) (ndisk s) = Some (Some ("fc.logix_lora_A.weight", ([1; 2], ints [3; 4]%Z))) /\
  (let p := fst (nnew true true s) in nweight (tr_lm p) 2 = Some ([1; 2], ints [2; 3]%Z) /\ option_map (fun f => nth_error f 0) (ndisk (tr_lm p)) = Some (Some ("fc.logix_lora_A.weight", ([1; 2], ints [2; 3]%Z))) /\
    snd (on_train_begin lrnd lsvd (nargs true true) p) = Ok tt /\ nweight (tr_lm (fst (on_train_begin lrnd lsvd (nargs true true) p))) 2 = Some ([1; 2], ints [2; 3]%Z)).
Proof.
  cbv zeta. split; [repeat split; cbn; auto 6|]. split; [apply tree_okb_ok; reflexivity|]. split; [discriminate|]. split; [apply ExLora.plain_ok; reflexivity|]. split; [apply undotted_ok; reflexivity|].
  split; [apply sel_it; reflexivity|]. do 3 (split; [vm_compute; reflexivity|]). split; [apply ok_pair; vm_compute; reflexivity|]. repeat split; vm_compute; reflexivity.
Qed.
(** A Lightning trainer that only exists has watched nothing. *)
Theorem C91_pl_new {F} `{OField F} {X} hessian save (s : @lm F) (e : X) : good "none" hessian save ->
  exists c, new_sched "none" hessian save = Ok c /\ new_pl hessian save s e = Ok (PL (TR c s [] [] None "log" [] None None) e 0 false) /\ length (sc_all c) = epochs "none" hessian.
Proof. exact (pl_new hessian save s e). Qed.
Print Assumptions C91_pl_new.
Theorem C91_pl_refused {F} `{OField F} {X} hessian save (s : @lm F) (e : X) :
  (~ In hessian ["none"; "raw"; "kfac"; "ekfac"] -> new_pl hessian save s e = Err AssertionError) /\
  (In hessian ["none"; "raw"; "kfac"; "ekfac"] -> ~ In save ["none"; "forward"; "backward"; "grad"] -> new_pl hessian save s e = Err KeyError).
Proof. exact (pl_refused hessian save s e). Qed.
Print Assumptions C91_pl_refused.
(** A new module changes nothing of the trainer but the LogIX object. *)
Theorem C91_module_frame {F} `{OField F} {X} (rnd : mid -> list nat -> F) (svd : tensor F -> res (tensor F)) a root (q q' : @pl F X) o :
  new_module rnd svd a root q = (q', o) -> exists s', q' = PL (tr_set_lm (pl_t q) (tr_sched (pl_t q)) s') (pl_ext q) (pl_epoch q) (pl_stop q).
Proof. exact (module_frame rnd svd a root q q' o). Qed.
Print Assumptions C91_module_frame.
Theorem C91_module_watching {F} `{OField F} {X} (rnd : mid -> list nat -> F) (svd : tensor F -> res (tensor F)) a root n (q q' : @pl F X) o :
  pa_lora a = false -> pa_init a = false -> tree_ok root n -> new_module rnd svd a root q = (q', o) ->
  watching (chosen (Some (pa_tf a)) (lm_tf (pl_lm q))) (chosen (Some (pa_nf a)) (lm_nf (pl_lm q))) root (pl_lm q) (pl_lm q').
Proof. exact (module_watching rnd svd a root n q q' o). Qed.
Print Assumptions C91_module_watching.
Theorem C91_module_compressed {F} `{OField F} {X} (rnd : mid -> list nat -> F) (svd : tensor F -> res (tensor F)) a root (q q' : @pl F X) :
  pa_lora a = true -> pa_init a = false -> tree_ok root (lm_next (pl_lm q)) -> t_kids root <> [] -> plain root ->
  let tf := chosen (Some (pa_tf a)) (lm_tf (pl_lm q)) in let nf := chosen (Some (pa_nf a)) (lm_nf (pl_lm q)) in
  (exists i, selected tf nf root i) -> new_module rnd svd a root q = (q', Ok tt) ->
  compressed (in_use (lm_handler (pl_lm q)) None (lm_cfg (pl_lm q))) tf nf root (pl_lm q) (pl_lm q').
Proof. exact (module_compressed rnd svd a root q q'). Qed.
Print Assumptions C91_module_compressed.
(** initialize_from_log=True fails without the configuration of an earlier run. *)
Theorem C91_module_init_missing {F} `{OField F} {X} (rnd : mid -> list nat -> F) (svd : tensor F -> res (tensor F)) a root (q q1 : @pl F X) :
  pa_init a = true -> lm_conf (pl_lm q) = None -> new_module rnd svd (without_init a) root q = (q1, Ok tt) -> new_module rnd svd a root q = (q1, Err AssertionError).
Proof. exact (module_init_missing rnd svd a root q q1). Qed.
Print Assumptions C91_module_init_missing.
(** With it, the LoRA settings and the statistics are loaded and nothing else, unless a file of LoRA weights is found by a
    module without LoRA; the call fails exactly if loading the statistics does. *)
Theorem C91_module_init {F} `{OField F} {X} (rnd : mid -> list nat -> F) (svd : tensor F -> res (tensor F)) a root (q q1 q' : @pl F X) c o :
  pa_init a = true -> lm_conf (pl_lm q) = Some c -> tree_ok root (lm_next (pl_lm q)) ->
  (pa_lora a = false -> lm_file (pl_lm q) = None) ->
  (pa_lora a = true -> t_kids root <> [] /\ plain root /\ undotted root /\ exists i, selected (chosen (Some (pa_tf a)) (lm_tf (pl_lm q))) (chosen (Some (pa_nf a)) (lm_nf (pl_lm q))) root i) ->
  new_module rnd svd (without_init a) root q = (q1, Ok tt) -> new_module rnd svd a root q = (q', o) ->
  let s := pl_lm q1 in let s' := pl_lm q' in
  lm_root s' = lm_root s /\ lm_w s' = lm_w s /\ lm_file s' = lm_file s /\ lm_cfg s' = c /\ x_names (lm_x s') = x_names (lm_x s) /\ (x_state (lm_x s'), o) = load_state (x_disk (lm_x s)) (x_state (lm_x s)) /\
  (pa_lora a = true -> exists file, lm_file s' = Some file /\ holds_weights file s').
Proof. exact (module_init rnd svd a root q q1 q' c o). Qed.
Print Assumptions C91_module_init.
(** There LoRA is added although lora=False, with the stored settings and new random weights, which also replace the stored
    ones. *)
Theorem C91_module_init_lost {F} `{OField F} {X} (rnd : mid -> list nat -> F) (svd : tensor F -> res (tensor F)) a root (q q' : @pl F X) c old :
  pa_init a = true -> pa_lora a = false -> lm_conf (pl_lm q) = Some c -> lm_file (pl_lm q) = Some old ->
  tree_ok root (lm_next (pl_lm q)) -> t_kids root <> [] -> plain root -> undotted root ->
  let tf := chosen (Some (pa_tf a)) (lm_tf (pl_lm q)) in let nf := chosen (Some (pa_nf a)) (lm_nf (pl_lm q)) in
  (exists i, selected tf nf root i) -> new_module rnd svd a root q = (q', Ok tt) ->
  compressed (in_use (lm_handler (pl_lm q)) None c) tf nf root (pl_lm q) (pl_lm q') /\ exists file, lm_file (pl_lm q') = Some file /\ holds_weights file (pl_lm q').
Proof. exact (module_init_lost rnd svd a root q q' c old). Qed.
Print Assumptions C91_module_init_lost.
(** The same directory: all four combinations of the two arguments; without the directory, loading fails. *)
Example C91_module_example : let q := npl nold in
  new_pl "raw" "grad" nold 7 = Ok q /\ new_pl "raww" "grad" nold 7 = Err AssertionError /\ new_pl "raw" "log" nold 7 = Err KeyError /\
  nmodule false false nold = (fst (nmodule false false nold), Ok tt) /\ x_names (lm_x (pl_lm (fst (nmodule false false nold)))) = [(1, "fc")] /\ ndisk (pl_lm (fst (nmodule false false nold))) = ndisk nold /\
  nmodule true false nold = (fst (nmodule true false nold), Ok tt) /\ x_names (lm_x (pl_lm (fst (nmodule true false nold)))) = [(3, "fc.logix_lora_B")] /\
  nmodule true true nold = (fst (nmodule true true nold), Ok tt) /\ nweight (pl_lm (fst (nmodule true true nold))) 2 = Some ([1; 2], ints [2; 3]%Z) /\
  nmodule false true nold = (fst (nmodule false true nold), Ok tt) /\ x_names (lm_x (pl_lm (fst (nmodule false true nold)))) = [(3, "fc.logix_lora_B")] /\
  option_map (fun f => nth_error f 0) (ndisk nold) = Some (Some ("fc.logix_lora_A.weight", ([1; 2], ints [3; 4]%Z))) /\
  option_map (fun f => nth_error f 0) (ndisk (pl_lm (fst (nmodule false true nold)))) = Some (Some ("fc.logix_lora_A.weight", ([1; 2], ints [2; 3]%Z))) /\
  lm_conf nold = Some (lcfg "random" 3 false None) /\ lm_cfg (pl_lm (fst (nmodule false true nold))) = lcfg "random" 3 false None /\ lm_handler (pl_lm (fst (nmodule true true nold))) = Some (lcfg "random" 1 false None) /\
  lm_conf tlm0 = None /\ snd (nmodule true false tlm0) = Ok tt /\ snd (nmodule true true tlm0) = Err AssertionError.
Proof.
  cbv zeta. do 3 (split; [vm_compute; reflexivity|]). split; [apply ok_pair; vm_compute; reflexivity|]. do 2 (split; [vm_compute; reflexivity|]). split; [apply ok_pair; vm_compute; reflexivity|].
  split; [vm_compute; reflexivity|]. split; [apply ok_pair; vm_compute; reflexivity|]. split; [vm_compute; reflexivity|]. split; [apply ok_pair; vm_compute; reflexivity|]. repeat split; vm_compute; reflexivity.
Qed.
