(** C74, C75: from training steps to the batches of the log loader; the order of stored gradients. *)
From Coq Require Import ZArith QArith Qcanon.
From Verif Require Import Py PyStr Field Tensor ModelGrad Monad ModelState ModelMmap ModelSaver ModelLoader ModelLogger ModelModules ModelLora ModelScheduler ModelInfluence ModelUtils ModelTrainer SpecGrad SpecState SpecStore SpecLogger SpecInfluence SpecRows SpecTrainer SpecDisk LogProofs1 WatchProofs1 DiskProofs3 WatchProofs2 ExNum ExState ExInfluence ExLogger ExLora ExRows ExTrainer ExDisk.
Local Open Scope string_scope.
Local Open Scope list_scope.
Local Open Scope nat_scope.

(** C74. What an epoch of the trainer saves is what the log loader yields: every gradient of every sample, in order,
    whatever the micro-batches, the flushes and the loader's batch size. *)
Theorem C74_written {F} `{OField F} (rnd : mid -> list nat -> F) (svd : tensor F -> res (tensor F)) (kind : mid -> mkind) (eigh : tensor F -> res (tensor F * tensor F)) (inverse : tensor F -> res (tensor F)) (fsqrt : F -> F)
    (enc : @dten F -> array) (dec : array -> @dten F) (show : did -> string) (tok : option (data -> res (list string))) (hash : string -> string)
    dt e exact ms n (M : @tlog F) a steps (p p1 : @tr F) rank w thr ls x1 x2 ks sids :
  codec dt e exact enc dec -> storable exact ms n M -> ms <> [] -> NoDup ms -> 0 < ha_bs a ->
  tr_mode p = "log" -> on_epoch_begin rnd svd p = (p1, Ok tt) -> x_save (lm_x (tr_lm p1)) = true ->
  x_saver (lm_x (tr_lm p1)) = saver_init rank w thr (grad_paths ms) -> (w <= 1)%Z -> fresh_dir (x_dir (lm_x (tr_lm p1))) ->
  trained kind eigh enc show tok hash a (lm_x (tr_lm p1)) (concat steps) ls x1 -> lx_finalize x1 = (x2, Ok tt) ->
  map as_nest ls = batches 0 ks sids M -> fold_right Nat.add 0 ks = n -> length sids = n -> NoDup sids ->
  exists p', do_epoch rnd svd kind eigh inverse fsqrt enc dec show tok hash a steps p = (p', Ok tt) /\ lm_x (tr_lm p') = x2 /\ tr_built p' = tr_built p1 /\ tr_loader p' = tr_loader p1 /\
    log_batches dec show (ha_bs a) (x_dir x2) = Ok (batches 0 (map (@length string) (chunks (ha_bs a) sids)) sids (regrad ms M)).
Proof. exact (epoch_written rnd svd kind eigh inverse fsqrt enc dec show tok hash dt e exact ms n M a steps p p1 rank w thr ls x1 x2 ks sids). Qed.
Print Assumptions C74_written.
(** The first influence run reads those batches. *)
Theorem C74_loader {F} `{OField F} (dec : array -> @dten F) (show : did -> string) a (p : @tr F) l :
  tr_built p = None -> tr_loader p = None -> log_batches dec show (ha_bs a) (x_dir (lm_x (tr_lm p))) = Ok l ->
  exists p', log_dataloader dec show a p = (p', Ok l) /\ tr_lm p' = tr_lm p /\ tr_loader p' = Some l.
Proof. exact (fresh_loader dec show a p l). Qed.
Print Assumptions C74_loader.
(** Three samples in two micro-batches; the loader's batches have two samples. *)
Example C74_example : codec F32 tword texact tenc tdec /\ storable texact ["fc"] 3 tdM /\
  on_epoch_begin lrnd lsvd t1 = (td1, Ok tt) /\ tr_mode t1 = "log" /\ x_save tdx = true /\ x_saver tdx = saver_init 0 0 100 (grad_paths ["fc"]) /\ fresh_dir (x_dir tdx) /\
  ttrained targs tdx (concat [[ta]; [tc]]) tdlogs tdx1 /\ lx_finalize tdx1 = (tdx2, Ok tt) /\ map as_nest tdlogs = batches 0 [2; 1] ["a"; "b"; "c"] tdM /\
  map (@length string) (chunks (ha_bs targs) ["a"; "b"; "c"]) = [2; 1] /\
  map (fun l => fst l) (match log_batches tdec tshow_id 2 (x_dir tdx2) with Ok l => l | Err _ => [] end) = [["a"; "b"]; ["c"]].
Proof.
  split; [exact tcodec|]. split; [exact tdM_storable|]. split; [apply t_pair; vm_compute; reflexivity|]. split; [vm_compute; reflexivity|]. split; [vm_compute; reflexivity|]. split; [vm_compute; reflexivity|].
  split; [split; [constructor|intros k []]|]. split; [apply train_logs_ok; vm_compute; reflexivity|]. split; [apply t_pair; vm_compute; reflexivity|]. repeat split; vm_compute; reflexivity.
Qed.

(** C75. [watch] tells the saver and the state the order of the stored gradients ... *)
Theorem C75_watch {F} `{OField F} (wsize : mid -> nat) ms (x x' : @lx F) : watch wsize ms x = (x', Ok tt) ->
  x_names x' = fold_left (fun d p => dset (snd p) (fst p) d) ms (x_names x) /\
  s_path (x_saver x') = (if x_shared x then grad_paths (map snd (x_names x')) else s_path (x_saver x)) /\
  exists d, dget "model_module" (attrs (x_state x')) = Some (Node d) /\
    dget "path" d = Some (Leaf (VPath (map (fun n => (n, "grad")) (map snd (x_names x'))))) /\
    dget "path_dim" d = Some (Leaf (VDims (map wsize (map fst (x_names x'))))).
Proof. exact (watch_paths wsize ms x x'). Qed.
Print Assumptions C75_watch.
(** ... as long as nothing was loaded ... *)
Theorem C75_shared {F} `{OField F} (kind : mid -> mkind) (wsize : mid -> nat) (eigh : tensor F -> res (tensor F * tensor F)) (enc : @dten F -> array) w t off os :
  Forall (fun o => o <> XLoad) os -> x_shared (run_ops kind wsize eigh enc os (@lx_init F w t off)) = true.
Proof. exact (shared_init kind wsize eigh enc w t off os). Qed.
Print Assumptions C75_shared.
(** ... since loading gives the state another dictionary. From then on the saver's order never changes, and if it was
    empty no chunk is ever completed. *)
Theorem C75_loaded_refuted {F} `{OField F} (kind : mid -> mkind) (wsize : mid -> nat) (eigh : tensor F -> res (tensor F * tensor F)) (enc : @dten F -> array) (x x1 : @lx F) sy sv no os :
  reachable kind wsize eigh enc x \/ (exists w t off d dk, x = with_store (lx_init w t off) (saver_init 0 w t []) d dk) ->
  d_others (x_disk x) = Some (sy, sv, no) -> In "model_module" sv -> lx_load x = (x1, Ok tt) ->
  let y := run_ops kind wsize eigh enc os x1 in
  s_path (x_saver y) = s_path (x_saver x) /\
  (s_path (x_saver x) = [] -> (forall n es, dget n (x_dir y) = Some (FMeta es) -> dget n (x_dir x) = Some (FMeta es)) /\
     (s_buffer (x_saver y) <> [] -> snd (lx_finalize y) <> Ok tt)).
Proof. exact (loaded_stale kind wsize eigh enc x x1 sy sv no os). Qed.
Print Assumptions C75_loaded_refuted.
(** Watching first keeps the order; loading first loses the batch. *)
Example C75_example : snd (lx_load ty0) = Ok tt /\ (exists sy sv no, d_others (x_disk ty0) = Some (sy, sv, no) /\ mem "model_module" sv = true) /\
  s_path (x_saver (tyops (XLoad :: XWatch [("fc", 1)] :: tybatch "u") ty0)) = [] /\ map fst (s_buffer (x_saver (tyops (XLoad :: XWatch [("fc", 1)] :: tybatch "u") ty0))) = [DStr "u"] /\
  snd (lx_finalize (tyops (XLoad :: XWatch [("fc", 1)] :: tybatch "u") ty0)) = Err UnboundLocalError /\
  s_path (x_saver (tyops (XWatch [("fc", 1)] :: XLoad :: tybatch "u") ty0)) = grad_paths ["fc"] /\ snd (lx_finalize (tyops (XWatch [("fc", 1)] :: XLoad :: tybatch "u") ty0)) = Ok tt.
Proof.
  split; [vm_compute; reflexivity|]. split; [eexists; eexists; eexists; split; vm_compute; reflexivity|]. repeat split; vm_compute; reflexivity.
Qed.
