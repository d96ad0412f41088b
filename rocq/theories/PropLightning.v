(** C76-C79: the Lightning trainer (logix/lightning). *)
From Coq Require Import ZArith QArith Qcanon.
From Verif Require Import Py PyStr Field Tensor ModelGrad Monad ModelState ModelMmap ModelSaver ModelLoader ModelLogger ModelModules ModelLora ModelScheduler ModelInfluence ModelUtils ModelTrainer ModelLightning SpecGrad SpecState SpecInfluence SpecRows SpecTrainer SpecLightning LightProofs1 LightProofs2 ExNum ExState ExInfluence ExLogger ExLora ExRows ExTrainer ExLightning.
Local Open Scope string_scope.
Local Open Scope list_scope.
Local Open Scope nat_scope.

(** C76. An influence run scores the samples of one epoch, all of them, whatever the batches; the other epochs are not
    visited. *)
Theorem C76_influence {F} `{OField F} (rnd : mid -> list nat -> F) (svd : tensor F -> res (tensor F)) (kind : mid -> mkind) (eigh : tensor F -> res (tensor F * tensor F)) (inverse : tensor F -> res (tensor F)) (fsqrt : F -> F)
    (enc : @dten F -> array) (dec : array -> @dten F) (show : did -> string) {B X} (extract : B -> SM X (list did)) (mask : option (B -> res (option (@dten F)))) (body : B -> list (@ev F))
    a bs es (q : @pl F X) x0 t2 loader ls x1 e1 ks n sids (M : @tlog F) s' r :
  let x := lm_x (tr_lm (pl_t q)) in
  (lx_setup [("grad", [AStr "log"])] ;; lx_eval) x = (x0, Ok tt) -> build_loader dec show a (pl_t q) = (t2, Ok loader) ->
  tr_scores (pl_t q) = None -> plain_state (x_state x) -> logged kind eigh enc show extract mask body x0 (pl_ext q) bs ls x1 e1 -> map as_nest ls = batches 0 ks sids M ->
  uniform n M -> length sids = n -> splits ks n ->
  influence_all eigh inverse fsqrt (sids, Nest (log_nd M)) loader (pa_imode a) true "auto" None (pa_damping a) (x_state x) = (s', Ok (Some r)) ->
  exists q' o, pl_influence rnd svd kind eigh inverse fsqrt enc dec show extract mask body a (bs :: es) q = (q', Ok (Some o)) /\ tr_scores (pl_t q') = Some o /\ saved (tr_ifn (pl_t q')) r /\
    pl_epoch q' = S (pl_epoch q) /\ pl_ext q' = e1 /\ lm_x (tr_lm (pl_t q')) = with_state x1 s' /\ pl_dir q' = pl_dir q.
Proof. exact (light_influence rnd svd kind eigh inverse fsqrt enc dec show extract mask body a bs es q x0 t2 loader ls x1 e1 ks n sids M s' r). Qed.
Print Assumptions C76_influence.
(** The samples and logs of C69: the same scores. *)
Example C76_example : (lx_setup [("grad", [AStr "log"])] ;; lx_eval) (lm_x (tr_lm (pl_t l2))) = (lx2, Ok tt) /\ snd (build_loader tdec tshow_id largs (pl_t l2)) = Ok tload /\
  tr_scores (pl_t l2) = None /\ plain_state (x_state (lm_x (tr_lm (pl_t l2)))) /\ llogged lx2 (pl_ext l2) [tu; tv; tz] ll lx3 5 /\
  map as_nest ll = batches 0 [1; 2; 1] ["u"; "v"; "w"; "z"] tM /\ uniform 4 tM /\ splits [1; 2; 1] 4 /\
  (let w := Ok (Some (["u"; "v"; "w"; "z"], ["a"; "b"; "c"], [("", ([4; 3], [5208 # 1867; 5568 # 1867; 5064 # 1867; 1048 # 1867; 88 # 1867; 1432 # 1867; 2456 # 1867; -1504 # 1867; 4040 # 1867; -180 # 1867; 840 # 1867; -588 # 1867]%Q))])) in
   oa (influence_all xeigh xinverse xsqrt (["u"; "v"; "w"; "z"], Nest (log_nd tM)) tload "dot" true "auto" None xd (x_state (lm_x (tr_lm (pl_t l2))))) = w /\
   Ok (lview (fst (linfluence largs [[tu; tv; tz]; [ta]] l2))) = w).
Proof.
  split; [apply t_pair; vm_compute; reflexivity|]. split; [vm_compute; reflexivity|]. split; [vm_compute; reflexivity|]. split; [apply plain_ok; vm_compute; reflexivity|].
  split; [apply light_logs_ok; vm_compute; reflexivity|]. split; [vm_compute; reflexivity|]. split; [apply uniform_ok; vm_compute; reflexivity|].
  split; [repeat split; [discriminate|repeat constructor; discriminate]|]. repeat split; vm_compute; reflexivity.
Qed.

(** C77. extract_log runs as many epochs as the schedule has, minus those the trainer has trained before, but at least one. *)
Theorem C77_epochs {F} `{OField F} (rnd : mid -> list nat -> F) (svd : tensor F -> res (tensor F)) (kind : mid -> mkind) (eigh : tensor F -> res (tensor F * tensor F)) (inverse : tensor F -> res (tensor F)) (fsqrt : F -> F)
    (enc : @dten F -> array) (dec : array -> @dten F) (show : did -> string) {B X} (extract : B -> SM X (list did)) (mask : option (B -> res (option (@dten F)))) (body : B -> list (@ev F)) a es (q : @pl F X) :
  let run := pl_extract rnd svd kind eigh inverse fsqrt enc dec show extract mask body a in
  run es q = run (firstn (Nat.max 1 (pl_total q - pl_epoch q)) es) q /\
  (forall q', run es q = (q', Ok tt) -> let k := Nat.min (length es) (Nat.max 1 (pl_total q - pl_epoch q)) in pl_epoch q' = pl_epoch q + k /\ pl_left q = k + pl_left q').
Proof. exact (light_epochs rnd svd kind eigh inverse fsqrt enc dec show extract mask body a es q). Qed.
Print Assumptions C77_epochs.
Theorem C77_one_epoch {F} `{OField F} (rnd : mid -> list nat -> F) (svd : tensor F -> res (tensor F)) (kind : mid -> mkind) (eigh : tensor F -> res (tensor F * tensor F)) (inverse : tensor F -> res (tensor F)) (fsqrt : F -> F)
    (enc : @dten F -> array) (dec : array -> @dten F) (show : did -> string) {B X} (extract : B -> SM X (list did)) (mask : option (B -> res (option (@dten F)))) (body : B -> list (@ev F)) a es (q : @pl F X) :
  pl_influence rnd svd kind eigh inverse fsqrt enc dec show extract mask body a es q = pl_influence rnd svd kind eigh inverse fsqrt enc dec show extract mask body a (firstn 1 es) q /\
  pl_self rnd svd kind eigh inverse fsqrt enc dec show extract mask body a es q = pl_self rnd svd kind eigh inverse fsqrt enc dec show extract mask body a (firstn 1 es) q.
Proof. exact (light_one_epoch rnd svd kind eigh inverse fsqrt enc dec show extract mask body a es q). Qed.
Print Assumptions C77_one_epoch.
(** A trainer that has already trained an epoch never reaches the last entry of an unused schedule of two: nothing is saved. *)
Theorem C77_trained_before_refuted {F} `{OField F} (rnd : mid -> list nat -> F) (svd : tensor F -> res (tensor F)) (kind : mid -> mkind) (eigh : tensor F -> res (tensor F * tensor F)) (inverse : tensor F -> res (tensor F)) (fsqrt : F -> F)
    (enc : @dten F -> array) (dec : array -> @dten F) (show : did -> string) {B X} (extract : B -> SM X (list did)) (mask : option (B -> res (option (@dten F)))) (body : B -> list (@ev F)) a es (q q' : @pl F X) :
  0 < pl_epoch q -> pl_left q = pl_total q -> 2 <= pl_total q -> pl_extract rnd svd kind eigh inverse fsqrt enc dec show extract mask body a es q = (q', Ok tt) -> 0 < pl_left q'.
Proof. exact (light_unfinished rnd svd kind eigh inverse fsqrt enc dec show extract mask body a es q q'). Qed.
Print Assumptions C77_trained_before_refuted.
Example C77_example : pl_total le1 = 2 /\ pl_left le1 = 2 /\ pl_epoch le1 = 0 /\
  (let z := lextract2 largs lfour le1 in snd z = Ok tt /\ pl_epoch (fst z) = 2 /\ pl_left (fst z) = 0 /\ pl_ext (fst z) = 4 /\ length (pl_dir (fst z)) = 2) /\
  pl_epoch le3 = 1 /\ pl_left le3 = pl_total le3 /\
  (let z := lextract2 largs lfour le3 in snd z = Ok tt /\ pl_epoch (fst z) = 2 /\ pl_left (fst z) = 1 /\ pl_ext (fst z) = 2 /\ pl_dir (fst z) = []).
Proof. repeat split; vm_compute; reflexivity. Qed.

(** C78. The other runs change no score; self_influence, whose result is discarded, opens the training log nevertheless. *)
Theorem C78_other_runs {F} `{OField F} (rnd : mid -> list nat -> F) (svd : tensor F -> res (tensor F)) (kind : mid -> mkind) (eigh : tensor F -> res (tensor F * tensor F)) (inverse : tensor F -> res (tensor F)) (fsqrt : F -> F)
    (enc : @dten F -> array) (dec : array -> @dten F) (show : did -> string) {B X} (extract : B -> SM X (list did)) (mask : option (B -> res (option (@dten F)))) (body : B -> list (@ev F)) a es (q q' : @pl F X) r :
  pl_self rnd svd kind eigh inverse fsqrt enc dec show extract mask body a es q = (q', r) \/ pl_extract rnd svd kind eigh inverse fsqrt enc dec show extract mask body a es q = (q', r) -> same_scores q q'.
Proof. exact (light_other_runs rnd svd kind eigh inverse fsqrt enc dec show extract mask body a es q q' r). Qed.
Print Assumptions C78_other_runs.
Theorem C78_self_needs_log {F} `{OField F} (kind : mid -> mkind) (eigh : tensor F -> res (tensor F * tensor F)) (inverse : tensor F -> res (tensor F)) (fsqrt : F -> F)
    (enc : @dten F -> array) (dec : array -> @dten F) (show : did -> string) {B X} (extract : B -> SM X (list did)) (mask : option (B -> res (option (@dten F)))) (body : B -> list (@ev F))
    a b (q : @pl F X) e1 ids m x1 x2 x3 g er :
  pl_mode q = "self_influence" -> extract b (pl_ext q) = (e1, Ok ids) -> mask_of mask b = Ok m ->
  lx_start ids m (lm_x (tr_lm (pl_t q))) = (x1, Ok tt) -> run_evs kind eigh (body b) x1 = (x2, Ok tt) -> lx_end eigh enc false x2 = (x3, Ok tt) ->
  x_ids x3 = Some g -> tr_built (pl_t q) = None -> log_batches dec show (pa_bs a) (x_dir x3) = Err er ->
  exists q', pl_batch kind eigh inverse fsqrt enc dec show extract mask body a b q = (q', Err er) /\ lm_x (tr_lm (pl_t q')) = x3 /\ pl_ext q' = e1.
Proof. exact (light_self_needs_log kind eigh inverse fsqrt enc dec show extract mask body a b q e1 ids m x1 x2 x3 g er). Qed.
Print Assumptions C78_self_needs_log.
Example C78_example : snd (lself largs [[tu; tv; tz]] l2) = Ok tt /\ lview (fst (lself largs [[tu; tv; tz]] l2)) = None /\
  log_batches tdec tshow_id 2 (pl_dir (lbroken l2)) = Err JSONDecodeError /\ snd (lself largs [[tu; tv; tz]] (lbroken l2)) = Err JSONDecodeError /\ pl_ext (fst (lself largs [[tu; tv; tz]] (lbroken l2))) = 3.
Proof. repeat split; vm_compute; reflexivity. Qed.

(** C79. Without an extractor the ids are the hashes of what iterating over the batch yields. *)
Theorem C79_default_ids {B} (items : B -> data) (hash : string -> string) b l bs (e : env) :
  g_mode (fst e) = "hash" -> d_items (items b) = Some l -> map bytes_of l = map Some bs ->
  exists e', default_extract items hash b e = (e', Ok (map (fun s => DStr (hash s)) bs)) /\ g_mode (fst e') = "hash".
Proof. exact (default_ids items hash b l bs e). Qed.
Print Assumptions C79_default_ids.
Theorem C79_default_fails {B} (items : B -> data) (hash : string -> string) b l (e : env) :
  g_mode (fst e) = "hash" -> d_items (items b) = Some l -> (exists d, In d l /\ bytes_of d = None) ->
  exists e' er, default_extract items hash b e = (e', Err er) /\ (er = TypeError \/ er = ValueError).
Proof. exact (default_bad items hash b l e). Qed.
Print Assumptions C79_default_fails.
(** A batch of three samples given as (inputs, labels): two records are saved, named after the hashes of inputs and labels. A
    dictionary cannot be used at all. *)
Example C79_example : g_mode (fst default_ext) = "hash" /\
  (let z := pl_extract lrnd lsvd tkind xeigh xinverse xsqrt tenc tdec tshow_id (ldef lpair) None lbody largs [[l3]] (lset l1) in
   snd z = Ok tt /\ (let* l := log_batches tdec tshow_id 2 (pl_dir (fst z)) in Ok (map (fun b => fst b) l)) = Ok [["xyz"; "012"]]) /\
  snd (pl_extract lrnd lsvd tkind xeigh xinverse xsqrt tenc tdec tshow_id (ldef ldict) None lbody largs [[l3]] (lset l1)) = Err ValueError.
Proof. repeat split; vm_compute; reflexivity. Qed.
