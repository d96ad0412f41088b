(** C103: from the constructor of a Hugging Face trainer, with or without LoRA, to the scores. *)
From Coq Require Import ZArith QArith Qcanon.
From Verif Require Import Py PyStr Field Tensor ModelGrad Monad ModelState ModelMmap ModelSaver ModelLoader ModelLogger ModelModules ModelLora ModelScheduler ModelInfluence ModelUtils ModelTrainer SpecGrad SpecLora SpecScheduler SpecState SpecStore SpecLogger SpecInfluence SpecRows SpecTrainer SpecDisk SpecWhole BornProofs BornProofs2 ExNum ExState ExInfluence ExLogger ExLora ExRows ExTrainer ExDisk ExNew ExWhole ExBorn.
Local Open Scope string_scope.
Local Open Scope list_scope.
Local Open Scope nat_scope.

(** A trainer created around a new LogIX object meets the hypotheses of C96, C97 and C101, whatever its schedule: it watches
    some modules (with LoRA the bottlenecks, see C91), has no statistics, no files and no results. *)
Theorem C103_new {F} `{OField F} (rnd : mid -> list nat -> F) (svd : tensor F -> res (tensor F)) (kind : mid -> mkind) (eigh : tensor F -> res (tensor F * tensor F)) (enc : @dten F -> array) a hessian (s : @lm F) root (p : @tr F) w t off :
  good "none" hessian "grad" -> ha_init a = false -> lm_x s = lx_init w t off -> (w <= 1)%Z -> tree_ok root (lm_next s) -> (ha_lora a = true -> t_kids root <> []) -> new_trainer rnd svd a hessian "grad" s root = (p, Ok tt) ->
  let ms := map snd (x_names (lm_x (tr_lm p))) in ms <> [] /\ new_run kind (wsize_of (tr_lm p)) eigh enc hessian ms a p /\ no_results p.
Proof. exact (new_trainer_born rnd svd kind eigh enc a hessian s root p w t off). Qed.
Print Assumptions C103_new.
(** For the schedule "raw": create the trainer, log, score. *)
Theorem C103_scores {F} `{OField F} (rnd : mid -> list nat -> F) (svd : tensor F -> res (tensor F)) (kind : mid -> mkind) (eigh : tensor F -> res (tensor F * tensor F)) (inverse : tensor F -> res (tensor F)) (fsqrt : F -> F)
    (enc : @dten F -> array) (dec : array -> @dten F) (show : did -> string) (tok : option (data -> res (list string))) (hash : string -> string) a (s : @lm F) root (p : @tr F) w t off steps sids (M : @tlog F) :
  ha_init a = false -> lm_x s = lx_init w t off -> (w <= 1)%Z -> tree_ok root (lm_next s) -> (ha_lora a = true -> t_kids root <> []) -> new_trainer rnd svd a "raw" "grad" s root = (p, Ok tt) ->
  let ms := map snd (x_names (lm_x (tr_lm p))) in
  training rnd svd kind eigh enc dec show tok hash ms a p steps sids M -> matrices ms M ->
  exists p', extract_log rnd svd kind eigh inverse fsqrt enc dec show tok hash a [steps] p = (p', Ok tt) /\
    forall epochs qids (Q : @tlog F) d, testing rnd svd kind eigh enc show tok hash a p' epochs qids Q ->
    ha_imode a = "dot" -> ha_damping a = Some d -> fle f0 d -> d <> f0 -> inverse_contract inverse -> (forall m x, grad_of M m = Some x -> inverts inverse (prod (tl (shape (snd x))))) ->
    groups_ok (ha_groups a) -> groups_hit (ha_groups a) (dkeys Q) -> Q <> [] -> plain_log Cpu (length qids) Q -> within Q M -> (forall m, In m ms -> In m (dkeys Q)) ->
    exists pf o P, influence rnd svd kind eigh inverse fsqrt enc dec show tok hash a epochs p' = (pf, Ok (Some o)) /\ tr_scores pf = Some o /\
      saved (tr_ifn pf) (InfRes qids sids (final (fun l => score_matrix P M l (length qids) (length sids)) (ha_groups a) (dkeys Q))) /\
      dkeys P = dkeys Q /\
      (forall m g, grad_of Q m = Some (Cpu, g) -> exists q, grad_of P m = Some (Cpu, q) /\ raw_solution d (second_moment M m) q g).
Proof. exact (born_scores rnd svd kind eigh inverse fsqrt enc dec show tok hash a s root p w t off steps sids M). Qed.
Print Assumptions C103_scores.
(** A layer with 2 inputs and LoRA of rank 1: only the bottleneck is tracked. Gradients 2, 8, 6 in training and 12, 2, 4, 2 in the
    test; their second moment is 104/3, so the first score is 12 * 2 / (104/3 + 1). *)
Example C103_example : good "none" "raw" "grad" /\ ha_init bargs = false /\ ha_lora bargs = true /\ lm_x tlm0 = lx_init 0 100 false /\ tree_ok troot (lm_next tlm0) /\ t_kids troot <> [] /\
  new_trainer lrnd lsvd bargs "raw" "grad" tlm0 troot = (b1, Ok tt) /\ map snd (x_names (lm_x (tr_lm b1))) = ["fc.logix_lora_B"] /\
  btraining ["fc.logix_lora_B"] bargs b1 [[ba]; [bc]] ["a"; "b"; "c"] bM /\ matrices ["fc.logix_lora_B"] bM /\
  bextract bargs [[[ba]; [bc]]] b1 = (b2, Ok tt) /\ btesting bargs b2 [[[bu; bv]; [bz]]] ["u"; "v"; "w"; "z"] bQ /\ ha_damping bargs = Some (qz 1) /\ inverse_contract xinverse /\
  (forall m x, grad_of bM m = Some x -> inverts xinverse (prod (tl (shape (snd x))))) /\ plain_log Cpu 4 bQ /\ within bQ bM /\
  oshow (Some (second_moment bM "fc.logix_lora_B")) = Some ([1; 1], [104 # 3]%Q) /\
  tview (fst (binfluence bargs [[[bu; bv]; [bz]]] b2)) =
    Some (["u"; "v"; "w"; "z"], ["a"; "b"; "c"], [("", ([4; 3], [72 # 107; 288 # 107; 216 # 107; 12 # 107; 48 # 107; 36 # 107; 24 # 107; 96 # 107; 72 # 107; 12 # 107; 48 # 107; 36 # 107]%Q))]).
Proof.
  split; [exact good_raw|]. split; [reflexivity|]. split; [reflexivity|]. split; [reflexivity|]. split; [apply tree_okb_ok; reflexivity|]. split; [discriminate|]. split; [apply t_pair; vm_compute; reflexivity|]. split; [reflexivity|].
  split; [exact born_training|]. split; [exact bM_matrices|]. split; [apply t_pair; vm_compute; reflexivity|]. split; [exact born_testing|]. split; [reflexivity|]. split; [exact xinverse_ok|]. split; [exact bM_inverts|]. split; [exact bQ_plain|]. split; [exact bQ_within|].
  split; vm_compute; reflexivity.
Qed.
