(** C99: steps of self-influence runs (logix/huggingface/callback.py, logix/lightning/callback.py). *)
From Coq Require Import ZArith QArith Qcanon.
From Verif Require Import Py PyStr Field Tensor ModelGrad Monad ModelState ModelMmap ModelSaver ModelLoader ModelLogger ModelModules ModelLora ModelScheduler ModelInfluence ModelUtils ModelTrainer ModelLightning SpecGrad SpecState SpecInfluence SpecRows SpecTrainer SpecLightning SelfProofs ExNum ExState ExInfluence ExLogger ExLora ExRows ExTrainer ExLightning ExSelf.
Local Open Scope string_scope.
Local Open Scope list_scope.
Local Open Scope nat_scope.

(** C99. A step merges all logs that are kept, scores them against their own preconditioned gradients, and drops the result. If that
    fails, the logs stay. *)
Theorem C99_step {F} `{OField F} (kind : mid -> mkind) (eigh : tensor F -> res (tensor F * tensor F)) (inverse : tensor F -> res (tensor F)) (fsqrt : F -> F)
    (enc : @dten F -> array) (dec : array -> @dten F) (show : did -> string) (tok : option (data -> res (list string))) (hash : string -> string) a ms (p : @tr F) ls x1 ids d s' r :
  ms <> [] -> tr_mode p = "self_influence" -> log_only (lm_x (tr_lm p)) ->
  trained kind eigh enc show tok hash a (lm_x (tr_lm p)) ms ls x1 -> merge_kept (tr_acc p ++ map kept ls) = Ok (ids, d) ->
  compute_self_influence eigh inverse (ids, Nest d) true "auto" (ha_groups a) (ha_damping a) (x_state (lm_x (tr_lm p))) = (s', r) ->
  exists p', do_step kind eigh inverse fsqrt enc dec show tok hash a ms p = (p', match r with Ok _ => Ok tt | Err e => Err e end) /\ lm_x (tr_lm p') = with_state x1 s' /\
    (tr_lists p', tr_dicts p', tr_scores p') = (tr_lists p, tr_dicts p, tr_scores p) /\
    tr_acc p' = (match r with Ok _ => [] | Err _ => tr_acc p ++ map kept ls end) /\ tr_built p' = tr_built p /\ tr_loader p' = tr_loader p /\ tr_mode p' = tr_mode p.
Proof. exact (one_self_step kind eigh inverse fsqrt enc dec show tok hash a ms p ls x1 ids d s' r). Qed.
Print Assumptions C99_step.
Theorem C99_unmerged {F} `{OField F} (kind : mid -> mkind) (eigh : tensor F -> res (tensor F * tensor F)) (inverse : tensor F -> res (tensor F)) (fsqrt : F -> F)
    (enc : @dten F -> array) (dec : array -> @dten F) (show : did -> string) (tok : option (data -> res (list string))) (hash : string -> string) a ms (p : @tr F) ls x1 e :
  ms <> [] -> tr_mode p = "self_influence" -> log_only (lm_x (tr_lm p)) -> trained kind eigh enc show tok hash a (lm_x (tr_lm p)) ms ls x1 ->
  merge_kept (tr_acc p ++ map kept ls) = Err e ->
  exists p', do_step kind eigh inverse fsqrt enc dec show tok hash a ms p = (p', Err e) /\ tr_ifn p' = tr_ifn p /\ tr_acc p' = tr_acc p ++ map kept ls.
Proof. exact (one_self_unmerged kind eigh inverse fsqrt enc dec show tok hash a ms p ls x1 e). Qed.
Print Assumptions C99_unmerged.
(** A Lightning batch scores its own log; nothing is accumulated. *)
Theorem C99_lightning {F} `{OField F} (kind : mid -> mkind) (eigh : tensor F -> res (tensor F * tensor F)) (inverse : tensor F -> res (tensor F)) (fsqrt : F -> F)
    (enc : @dten F -> array) (dec : array -> @dten F) (show : did -> string) {B X} (extract : B -> SM X (list did)) (mask : option (B -> res (option (@dten F)))) (body : B -> list (@ev F))
    a b (q : @pl F X) e1 ids m x1 x2 x3 g s' r :
  pl_mode q = "self_influence" -> extract b (pl_ext q) = (e1, Ok ids) -> mask_of mask b = Ok m ->
  lx_start ids m (lm_x (tr_lm (pl_t q))) = (x1, Ok tt) -> run_evs kind eigh (body b) x1 = (x2, Ok tt) -> lx_end eigh enc false x2 = (x3, Ok tt) ->
  x_ids x3 = Some g -> (tr_built (pl_t q) <> None \/ exists loader, log_batches dec show (pa_bs a) (x_dir x3) = Ok loader) ->
  compute_self_influence eigh inverse (map show g, Nest (leaf_map VT (snd (read_got x3 (GView (x_ids x3)))))) true "auto" None (pa_damping a) (x_state x3) = (s', r) ->
  exists q', pl_batch kind eigh inverse fsqrt enc dec show extract mask body a b q = (q', match r with Ok _ => Ok tt | Err e => Err e end) /\ lm_x (tr_lm (pl_t q')) = with_state x3 s' /\ pl_ext q' = e1 /\
    tr_built (pl_t q') <> None /\
    (tr_lists (pl_t q'), tr_dicts (pl_t q'), tr_scores (pl_t q')) = (tr_lists (pl_t q), tr_dicts (pl_t q), tr_scores (pl_t q)).
Proof. exact (light_self_batch kind eigh inverse fsqrt enc dec show extract mask body a b q e1 ids m x1 x2 x3 g s' r). Qed.
Print Assumptions C99_lightning.
(** A self-influence run with a group that has no module fails in its first step, after the second micro-batch. The influence run that
    follows on other data scores those samples as well. *)
Example C99_example :
  tr_mode ts3 = "self_influence" /\ tr_acc ts3 = [] /\ ttrained targs (lm_x (tr_lm ts3)) [tu; tv] tslogs tsx /\
  match merge_kept (map kept tslogs) with Ok m => fst m = ["u"; "v"; "w"] | Err _ => False end /\
  has_inverse (lm_x (tr_lm t2)) = false /\
  (let ok := tself targs [[[tu; tv]; [tz]]] t2 in
   snd ok = Ok tt /\ tview (fst ok) = None /\ tr_acc (fst ok) = [] /\ has_inverse (lm_x (tr_lm (fst ok))) = true) /\
  (let bad := tself tgroup [[[tu; tv]; [tz]]] t2 in
   snd bad = Err TypeError /\ map fst (tr_acc (fst bad)) = [Some ["u"]; Some ["v"; "w"]] /\
   option_map (fun v => fst (fst v)) (tview (fst (tinfluence targs [[[tz]]] (fst bad)))) = Some ["u"; "v"; "w"; "z"] /\
   option_map (fun v => fst (fst v)) (tview (fst (tinfluence targs [[[tz]]] t2))) = Some ["z"]) /\
  has_inverse (lm_x (tr_lm (pl_t l2))) = false /\
  (let q := lself largs [[tu]] l2 in snd q = Ok tt /\ has_inverse (lm_x (tr_lm (pl_t (fst q)))) = true /\ tr_acc (pl_t (fst q)) = []).
Proof. do 2 (split; [vm_compute; reflexivity|]). split; [exact ts_trained|]. repeat split; vm_compute; reflexivity. Qed.
