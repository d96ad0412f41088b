(** C106: from the constructor of a patched Lightning module, with or without LoRA, to the scores. *)
From Coq Require Import ZArith QArith Qcanon.
From Verif Require Import Py PyStr Field Tensor ModelGrad Monad ModelState ModelMmap ModelSaver ModelLoader ModelLogger ModelModules ModelLora ModelScheduler ModelInfluence ModelUtils ModelTrainer ModelLightning SpecGrad SpecLora SpecScheduler SpecState SpecStore SpecLogger SpecInfluence SpecRows SpecTrainer SpecLightning SpecDisk SpecNew SpecWhole SpecLightWhole BornProofs2 BornProofs3 ExNum ExState ExInfluence ExLogger ExLora ExRows ExTrainer ExLightning ExDisk ExNew ExWhole ExBorn ExLightWhole ExLightBorn.
Local Open Scope string_scope.
Local Open Scope list_scope.
Local Open Scope nat_scope.

(** A trainer whose patched module was created around a new LogIX object meets the hypotheses of C105, whatever its schedule: it
    watches some modules (with LoRA the bottlenecks, see C91), has no statistics, no files and no results. *)
Theorem C106_new {F} `{OField F} (rnd : mid -> list nat -> F) (svd : tensor F -> res (tensor F)) (kind : mid -> mkind) (eigh : tensor F -> res (tensor F * tensor F)) (enc : @dten F -> array) {X} a hessian (s : @lm F) (e : X) root (q0 q : @pl F X) w t off :
  good "none" hessian "grad" -> pa_init a = false -> lm_x s = lx_init w t off -> (w <= 1)%Z -> tree_ok root (lm_next s) -> (pa_lora a = true -> t_kids root <> []) -> new_pl hessian "grad" s e = Ok q0 -> new_module rnd svd a root q0 = (q, Ok tt) ->
  let ms := map snd (x_names (lm_x (tr_lm (pl_t q)))) in ms <> [] /\ new_light kind (wsize_of (tr_lm (pl_t q))) eigh enc hessian ms q /\ no_results (pl_t q) /\ pl_epoch q = 0 /\ pl_ext q = e.
Proof. exact (module_born rnd svd kind eigh enc a hessian s e root q0 q w t off). Qed.
Print Assumptions C106_new.
(** For the schedule "raw": create the module, log, score. *)
Theorem C106_scores {F} `{OField F} (rnd : mid -> list nat -> F) (svd : tensor F -> res (tensor F)) (kind : mid -> mkind) (eigh : tensor F -> res (tensor F * tensor F)) (inverse : tensor F -> res (tensor F)) (fsqrt : F -> F)
    (enc : @dten F -> array) (dec : array -> @dten F) (show : did -> string) {B X} (extract : B -> SM X (list did)) (mask : option (B -> res (option (@dten F)))) (body : B -> list (@ev F)) a (s : @lm F) (e : X) root (q0 q : @pl F X) w t off bs es sids (M : @tlog F) :
  pa_init a = false -> lm_x s = lx_init w t off -> (w <= 1)%Z -> tree_ok root (lm_next s) -> (pa_lora a = true -> t_kids root <> []) -> new_pl "raw" "grad" s e = Ok q0 -> new_module rnd svd a root q0 = (q, Ok tt) ->
  let ms := map snd (x_names (lm_x (tr_lm (pl_t q)))) in
  light_training rnd svd kind eigh enc dec show extract mask body ms a q bs sids M -> matrices ms M ->
  exists q', pl_extract rnd svd kind eigh inverse fsqrt enc dec show extract mask body a (bs :: es) q = (q', Ok tt) /\
    forall bs2 es2 qids (Q : @tlog F) d, light_testing kind eigh enc show extract mask body q' bs2 qids Q ->
    pa_imode a = "dot" -> pa_damping a = Some d -> fle f0 d -> d <> f0 -> inverse_contract inverse -> (forall m x, grad_of M m = Some x -> inverts inverse (prod (tl (shape (snd x))))) ->
    Q <> [] -> plain_log Cpu (length qids) Q -> within Q M -> (forall m, In m ms -> In m (dkeys Q)) ->
    exists qf o P, pl_influence rnd svd kind eigh inverse fsqrt enc dec show extract mask body a (bs2 :: es2) q' = (qf, Ok (Some o)) /\ tr_scores (pl_t qf) = Some o /\
      saved (tr_ifn (pl_t qf)) (InfRes qids sids (final (fun l => score_matrix P M l (length qids) (length sids)) None (dkeys Q))) /\
      dkeys P = dkeys Q /\
      (forall m g, grad_of Q m = Some (Cpu, g) -> exists v, grad_of P m = Some (Cpu, v) /\ raw_solution d (second_moment M m) v g).
Proof. exact (module_scores rnd svd kind eigh inverse fsqrt enc dec show extract mask body a s e root q0 q w t off bs es sids M). Qed.
Print Assumptions C106_scores.
(** The layer, the LoRA and the samples of C103_example. *)
Example C106_example : good "none" "raw" "grad" /\ pa_init lbargs = false /\ pa_lora lbargs = true /\ lm_x tlm0 = lx_init 0 100 false /\ tree_ok troot (lm_next tlm0) /\ t_kids troot <> [] /\
  new_pl "raw" "grad" tlm0 0 = Ok lb0 /\ new_module lrnd lsvd lbargs troot lb0 = (lb1, Ok tt) /\ map snd (x_names (lm_x (tr_lm (pl_t lb1)))) = ["fc.logix_lora_B"] /\
  lbtraining ["fc.logix_lora_B"] lbargs lb1 [ba; bc] ["a"; "b"; "c"] bM /\ matrices ["fc.logix_lora_B"] bM /\
  lbextract lbargs [[ba; bc]; [bu]] lb1 = (lb2, Ok tt) /\ lbtesting lb2 [bu; bv; bz] ["u"; "v"; "w"; "z"] bQ /\ pa_damping lbargs = Some (qz 1) /\ pa_imode lbargs = "dot" /\ inverse_contract xinverse /\
  (forall m x, grad_of bM m = Some x -> inverts xinverse (prod (tl (shape (snd x))))) /\ plain_log Cpu 4 bQ /\ within bQ bM /\
  lview (fst (lbinfluence lbargs [[bu; bv; bz]; [ba]] lb2)) =
    Some (["u"; "v"; "w"; "z"], ["a"; "b"; "c"], [("", ([4; 3], [72 # 107; 288 # 107; 216 # 107; 12 # 107; 48 # 107; 36 # 107; 24 # 107; 96 # 107; 72 # 107; 12 # 107; 48 # 107; 36 # 107]%Q))]).
Proof.
  split; [exact good_raw|]. split; [reflexivity|]. split; [reflexivity|]. split; [reflexivity|]. split; [apply tree_okb_ok; reflexivity|]. split; [discriminate|]. split; [vm_compute; reflexivity|]. split; [apply t_pair; vm_compute; reflexivity|]. split; [reflexivity|].
  split; [exact lb_training|]. split; [exact bM_matrices|]. split; [apply t_pair; vm_compute; reflexivity|]. split; [exact lb_testing|]. split; [reflexivity|]. split; [reflexivity|]. split; [exact xinverse_ok|]. split; [exact bM_inverts|]. split; [exact bQ_plain|]. split; [exact bQ_within|].
  vm_compute; reflexivity.
Qed.
