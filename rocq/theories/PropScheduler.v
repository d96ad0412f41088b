(** C30: the scheduler (logix/scheduler.py). *)
From Coq Require Import ZArith QArith Qcanon.
From Verif Require Import Py PyStr Field Tensor ModelGrad Monad ModelState ModelMmap ModelSaver ModelLogger ModelModules ModelLora ModelScheduler SpecGrad SpecState SpecLogger SpecLora SpecScheduler SchedProofs SchedProofs2 ExNum ExState ExLogger ExLora.
Local Open Scope string_scope.
Local Open Scope list_scope.
Local Open Scope nat_scope.

(** C30. The scheduler. *)
Theorem C30_sched_good lora hessian save : good lora hessian save ->
  exists c, new_sched lora hessian save = Ok c /\ length (sc_all c) = epochs lora hessian.
Proof. exact (sched_good lora hessian save). Qed.
Print Assumptions C30_sched_good.
Theorem C30_sched_bad lora hessian save :
  (~ In lora ["none"; "random"; "pca"] \/ ~ In hessian ["none"; "raw"; "kfac"; "ekfac"] -> new_sched lora hessian save = Err AssertionError) /\
  (In lora ["none"; "random"; "pca"] -> In hessian ["none"; "raw"; "kfac"; "ekfac"] -> ~ In save ["none"; "forward"; "backward"; "grad"] -> new_sched lora hessian save = Err KeyError).
Proof. exact (sched_bad lora hessian save). Qed.
Print Assumptions C30_sched_bad.
(** Epoch k, whatever happened in the epochs before: LoRA is added if it is due, the options are those of the plan, saving
    is switched on in the last epoch. An exception of add_lora (also StopIteration, for a model without parameters)
    ends the step; the epoch is used up. *)
Theorem C30_next_epoch {F} `{OField F} (rnd : mid -> list nat -> F) (svd : tensor F -> res (tensor F)) lora hessian save k c (s : @lm F) :
  good lora hessian save -> begun rnd svd lora hessian save k c -> k < epochs lora hessian ->
  exists c' s1 r, (adds_lora lora k -> lm_add_lora rnd svd true true None None None None s = (s1, r)) /\ (~ adds_lora lora k -> s1 = s /\ r = Ok tt) /\
    match r with
    | Err e => sched_next rnd svd (c, s) = ((c', s1), Err e)
    | Ok _ => exists o b, sched_next rnd svd (c, s) = ((c', lm_set_x s1 (with_opt (with_saves (lm_x s1) b (x_save_batch (lm_x s1))) o)), Ok (Z.of_nat k)) /\
        planned lora hessian save k o /\ (b = true <-> x_save (lm_x s1) = true \/ (save <> "none" /\ S k = epochs lora hessian))
    end.
Proof. exact (next_epoch rnd svd lora hessian save k c s). Qed.
Print Assumptions C30_next_epoch.
Theorem C30_next_exhausted {F} `{OField F} (rnd : mid -> list nat -> F) (svd : tensor F -> res (tensor F)) lora hessian save c (s : @lm F) :
  good lora hessian save -> begun rnd svd lora hessian save (epochs lora hessian) c ->
  sched_next rnd svd (c, s) = ((c, s), Err StopIteration).
Proof. exact (next_exhausted rnd svd lora hessian save c s). Qed.
Print Assumptions C30_next_exhausted.
(** Adding LoRA forgets all statistics collected before. *)
Theorem C30_add_lora_fresh {F} `{OField F} (rnd : mid -> list nat -> F) (svd : tensor F -> res (tensor F)) clear tf nf cfg (s s' : @lm F) :
  lm_add_lora rnd svd true clear tf nf None cfg s = (s', Ok tt) ->
  forall a, In a (st_states (x_state (lm_x s))) -> ~ In a (st_noclear (x_state (lm_x s))) -> a <> "model_module" ->
  dget a (attrs (x_state (lm_x s'))) = Some (Node []).
Proof. exact (add_lora_fresh rnd svd clear tf nf cfg s s'). Qed.
Print Assumptions C30_add_lora_fresh.
(** A model without parameters: the step that should add LoRA raises StopIteration, so a for loop ends without a word. *)
Theorem C30_next_no_parameters {F} `{OField F} (rnd : mid -> list nat -> F) (svd : tensor F -> res (tensor F)) lora hessian save k c (s : @lm F) root cs :
  good lora hessian save -> begun rnd svd lora hessian save k c -> adds_lora lora k ->
  lm_root s = Some root -> (forall u, below u root -> t_params u = []) -> dget "covariance_state" (attrs (x_state (lm_x s))) = Some cs ->
  snd (sched_next rnd svd (c, s)) = Err StopIteration.
Proof. exact (next_no_parameters rnd svd lora hessian save k c s root cs). Qed.
Print Assumptions C30_next_no_parameters.
Example C30_no_parameters_example :
  let s := lstart (MT 0 KOther [] [] [("act", MT 1 KOther [] [] [])]) 2 [] (lcfg "random" 2 false None) in
  exists c, new_sched "random" "kfac" "grad" = Ok c /\ adds_lora "random" 0 /\ snd (sched_next lrnd lsvd (c, s)) = Err StopIteration.
Proof. cbv zeta. eexists. split; [reflexivity|]. split; [left; split; reflexivity|]. vm_compute. reflexivity. Qed.
(** PCA, EKFAC and saved gradients: covariances, LoRA and covariances again, then gradients and corrected eigenvalues. *)
Example C30_example :
  let step := sched_next lrnd lsvd in
  let c0 := match new_sched "pca" "ekfac" "grad" with Ok c => c | Err _ => Sched "" "" "" 0 [] [] end in
  let p0 := (c0, lsp) in let p1 := fst (step p0) in let p2 := fst (step p1) in let p3 := fst (step p2) in
  good "pca" "ekfac" "grad" /\ begun lrnd lsvd "pca" "ekfac" "grad" 2 (fst p2) /\ epochs "pca" "ekfac" = 3 /\ adds_lora "pca" 1 /\
  snd (step p0) = Ok 0%Z /\ snd (step p1) = Ok 1%Z /\ snd (step p2) = Ok 2%Z /\ snd (step p3) = Err StopIteration /\
  x_opt (lm_x (snd p1)) = Opts [PCovariance] [PCovariance] [] /\ x_opt (lm_x (snd p2)) = Opts [PCovariance] [PCovariance] [] /\ x_opt (lm_x (snd p3)) = Opts [] [] [PLog; PCorrectedEigval] /\
  x_save (lm_x (snd p2)) = false /\ x_save (lm_x (snd p3)) = true /\
  stored (x_state (lm_x (snd p1))) SCov "fc1" "forward" <> None /\ stored (x_state (lm_x (snd p2))) SCov "fc1" "forward" = None /\
  snd (lm_add_lora lrnd lsvd true true None None None None (snd p1)) = Ok tt /\ In "covariance_state" (st_states (x_state (lm_x (snd p1)))) /\ ~ In "covariance_state" (st_noclear (x_state (lm_x (snd p1)))) /\
  new_sched "lora" "raw" "none" = Err AssertionError /\ new_sched "pca" "raw" "all" = Err KeyError.
Proof.
  cbv zeta. split; [repeat split; cbn [In]; auto 8|]. split.
  { apply begun_step; [|cbn; lia]. apply begun_step; [|cbn; lia]. apply begun_new. reflexivity. }
  split; [reflexivity|]. split; [right; split; reflexivity|]. do 9 (split; [vm_compute; reflexivity|]). split; [vm_compute; discriminate|]. do 2 (split; [vm_compute; reflexivity|]).
  split; [vm_compute; auto|]. split; [vm_compute; intuition discriminate|]. split; reflexivity.
Qed.
