(** C83, C84: the analysis front end of logix/logix.py, and the module-level functions of logix/__init__.py. *)
From Coq Require Import ZArith QArith Qcanon.
From Verif Require Import Py PyStr Field Tensor ModelGrad Monad ModelState ModelMmap ModelSaver ModelLoader ModelLogger ModelModules ModelLora ModelScheduler ModelInfluence ModelTrainer ModelRun SpecStore SpecInfluence SpecRun RunProofs1 RunProofs2 RunProofs3 ExNum ExState ExInfluence ExLogger ExLora ExRows ExTrainer ExRun.
From Verif Require ModelConfig ExConfig.
Local Open Scope string_scope.
Local Open Scope list_scope.
Local Open Scope nat_scope.

(** C83. The log dataset and the log loader are built once. *)
(** Nothing built yet: the log directory is read, with the caller's arguments. *)
Theorem C83_first {F} `{OField F} bs fl (p : @fe F) ds : fe_ds p = None /\ fe_dl p = None ->
  open_dataset (x_dir (lm_x (fe_lm p))) (dkeys (x_dir (lm_x (fe_lm p)))) = Ok ds -> (0 < bs)%Z ->
  exists q, build_log_dataloader bs fl p = (q, Ok (LDL (LDS ds fl) (Z.to_nat bs) (negb fl))).
Proof. exact (loader_opens bs fl p ds). Qed.
Print Assumptions C83_first.
(** A log that cannot be opened: nothing is kept. *)
Theorem C83_unreadable {F} `{OField F} bs fl (p : @fe F) e : fe_ds p = None /\ fe_dl p = None ->
  open_dataset (x_dir (lm_x (fe_lm p))) (dkeys (x_dir (lm_x (fe_lm p)))) = Err e ->
  build_log_dataloader bs fl p = (p, Err e) /\ build_log_dataset fl p = (p, Err e).
Proof. exact (loader_fails bs fl p e). Qed.
Print Assumptions C83_unreadable.
(** A batch size below 1 is refused after the dataset has been kept. *)
Theorem C83_bad_size {F} `{OField F} (eigh : tensor F -> res (tensor F * tensor F)) (inverse : tensor F -> res (tensor F)) (fsqrt : F -> F) dec show bs fl (p : @fe F) ds os : fe_ds p = None /\ fe_dl p = None ->
  open_dataset (x_dir (lm_x (fe_lm p))) (dkeys (x_dir (lm_x (fe_lm p)))) = Ok ds -> (bs <= 0)%Z ->
  exists q, build_log_dataloader bs fl p = (q, Err ValueError) /\
    (forall fl', let q' := run_rops eigh inverse fsqrt dec show os q in build_log_dataset fl' q' = (q', Ok (LDS ds fl))).
Proof. exact (loader_bad_size eigh inverse fsqrt dec show bs fl p ds os). Qed.
Print Assumptions C83_bad_size.
(** Once built, every later request returns the same loader over the same dataset, whatever its arguments and whatever was done in between. *)
Theorem C83_loader_kept {F} `{OField F} (eigh : tensor F -> res (tensor F * tensor F)) (inverse : tensor F -> res (tensor F)) (fsqrt : F -> F) dec show p0 os0 bs fl (p : @fe F) l os bs' fl' :
  fe_ds p0 = None /\ fe_dl p0 = None -> build_log_dataloader bs fl (run_rops eigh inverse fsqrt dec show os0 p0) = (p, Ok l) ->
  let q := run_rops eigh inverse fsqrt dec show os p in build_log_dataloader bs' fl' q = (q, Ok l) /\ build_log_dataset fl' q = (q, Ok (dl_set l)).
Proof. exact (loader_kept eigh inverse fsqrt dec show p0 os0 bs fl p l os bs' fl'). Qed.
Print Assumptions C83_loader_kept.
Theorem C83_dataset_kept {F} `{OField F} (eigh : tensor F -> res (tensor F * tensor F)) (inverse : tensor F -> res (tensor F)) (fsqrt : F -> F) dec show (p : @fe F) fl q s os fl' :
  build_log_dataset fl p = (q, Ok s) -> let q' := run_rops eigh inverse fsqrt dec show os q in build_log_dataset fl' q' = (q', Ok s).
Proof. exact (dataset_kept eigh inverse fsqrt dec show p fl q s os fl'). Qed.
Print Assumptions C83_dataset_kept.
(** A loader over a dataset that was built before, with either value of [flatten] ... *)
Theorem C83_loader_over {F} `{OField F} bs fl (p : @fe F) s : fe_ds p = Some s -> fe_dl p = None -> (0 < bs)%Z ->
  exists q, build_log_dataloader bs fl p = (q, Ok (LDL s (Z.to_nat bs) (negb fl))).
Proof. exact (loader_over bs fl p s). Qed.
Print Assumptions C83_loader_over.
(** ... and what it delivers: nested batches, flat batches, nested batches again when only the loader is asked to flatten, and no batch when only
    the dataset was. *)
Theorem C83_nested ds ms dt shs k kept : NoDup ms -> 0 < k ->
  all_nested ds = Ok (map (fun x => (fst x, nested_of ms (snd x))) kept) -> uniform ms dt shs kept ->
  iterate (LDL (LDS ds false) k true) = (map (batch_nested ms) (chunks k kept), None).
Proof. exact (nested_loader ds ms dt shs k kept). Qed.
Print Assumptions C83_nested.
Theorem C83_flat ds dt n k (kept : list (did * array)) (ids : list (did * array) -> list did) : 0 < k ->
  all_flat ds = Ok kept -> Forall (fun x => a_shape (snd x) = [n] /\ a_dtype (snd x) = dt) kept ->
  (forall c, In c (chunks k kept) -> torch_ids (map fst c) (ids c)) ->
  iterate (LDL (LDS ds true) k false) = (map (fun c => batch_flat (ids c) n dt c) (chunks k kept), None).
Proof. exact (flat_loader ds dt n k kept ids). Qed.
Print Assumptions C83_flat.
Theorem C83_nested_flatten ds ms dt shs k kept (ids : list (did * list array) -> list did) : NoDup ms -> 0 < k ->
  all_nested ds = Ok (map (fun x => (fst x, nested_of ms (snd x))) kept) -> uniform ms dt shs kept ->
  (forall c, In c (chunks k kept) -> torch_ids (map fst c) (ids c)) ->
  iterate (LDL (LDS ds false) k false) = (map (fun c => batch_as (ids c) ms c) (chunks k kept), None).
Proof. exact (nested_default_loader ds ms dt shs k kept ids). Qed.
Print Assumptions C83_nested_flatten.
Theorem C83_flat_nested_refuted ds k (kept : list (did * array)) : 0 < k -> all_flat ds = Ok kept -> kept <> [] ->
  iterate (LDL (LDS ds true) k true) = ([], Some AttributeError).
Proof. exact (flat_nested_loader ds k kept). Qed.
Print Assumptions C83_flat_nested_refuted.
(** A record that cannot be read: the batches before its batch are delivered. *)
Theorem C83_broken_record ds ms dt shs k q j kept more e : NoDup ms -> 0 < k ->
  mapM (get_nested ds) (seq 0 (q * k)) = Ok (map (fun x => (fst x, nested_of ms (snd x))) kept) -> uniform ms dt shs kept ->
  j < k -> q * k + j < ds_len ds -> mapM (get_nested ds) (seq (q * k) j) = Ok more -> get_nested ds (q * k + j) = Err e ->
  iterate (LDL (LDS ds false) k true) = (map (batch_nested ms) (chunks k kept), Some e).
Proof. exact (broken_record ds ms dt shs k q j kept more e). Qed.
Print Assumptions C83_broken_record.
(** The influence calls: without a loader they use this one, without a source the current log. *)
Theorem C83_default_loader {F} `{OField F} (eigh : tensor F -> res (tensor F * tensor F)) (inverse : tensor F -> res (tensor F)) (fsqrt : F -> F) dec show src mode prec h g d (p q : @fe F) l :
  build_log_dataloader 16 false p = (q, Ok l) ->
  fe_influence_all eigh inverse fsqrt dec show (Some src) None mode prec h g d p = fe_influence_all eigh inverse fsqrt dec show (Some src) (Some (feed_of dec show l)) mode prec h g d q.
Proof. exact (default_loader eigh inverse fsqrt dec show src mode prec h g d p q l). Qed.
Print Assumptions C83_default_loader.
Theorem C83_default_loader_fails {F} `{OField F} (eigh : tensor F -> res (tensor F * tensor F)) (inverse : tensor F -> res (tensor F)) (fsqrt : F -> F) dec show src mode prec h g d (p q : @fe F) e :
  build_log_dataloader 16 false p = (q, Err e) -> fe_influence_all eigh inverse fsqrt dec show (Some src) None mode prec h g d p = (q, Err e).
Proof. exact (default_loader_fails eigh inverse fsqrt dec show src mode prec h g d p q e). Qed.
Print Assumptions C83_default_loader_fails.
Theorem C83_default_source {F} `{OField F} (eigh : tensor F -> res (tensor F * tensor F)) (inverse : tensor F -> res (tensor F)) (fsqrt : F -> F) dec show ids (p : @fe F) : x_ids (lm_x (fe_lm p)) = Some ids ->
  let cur := (map show ids, Nest (leaf_map (fun t => VT t) (ModelLogger.log_nd (fun t => t) (x_heap (lm_x (fe_lm p))) (x_log (lm_x (fe_lm p)))))) in
  (forall loader mode prec h g d, fe_influence_all eigh inverse fsqrt dec show None loader mode prec h g d p = fe_influence_all eigh inverse fsqrt dec show (Some cur) loader mode prec h g d p) /\
  (forall prec h g d, fe_self_influence eigh inverse show None prec h g d p = fe_self_influence eigh inverse show (Some cur) prec h g d p).
Proof. exact (default_source eigh inverse fsqrt dec show ids p). Qed.
Print Assumptions C83_default_source.
Theorem C83_value {F} `{OField F} (eigh : tensor F -> res (tensor F * tensor F)) (inverse : tensor F -> res (tensor F)) (fsqrt : F -> F) dec show src batches mode prec h g d (p : @fe F) s r :
  call_value eigh inverse fsqrt (ICall _ src batches mode prec h g d) (x_state (lm_x (fe_lm p))) = (s, Ok (Some r)) ->
  exists q o, fe_influence_all eigh inverse fsqrt dec show (Some src) (Some (batches, None)) mode prec h g d p = (q, Ok (Some o)) /\ view (fe_ifn q) o = r /\ x_state (lm_x (fe_lm q)) = s.
Proof. exact (explicit_value eigh inverse fsqrt dec show src batches mode prec h g d p s r). Qed.
Print Assumptions C83_value.
Theorem C83_broken_loader {F} `{OField F} (eigh : tensor F -> res (tensor F * tensor F)) (inverse : tensor F -> res (tensor F)) (fsqrt : F -> F) dec show src batches e mode prec h g d (p : @fe F) :
  exists q e', fe_influence_all eigh inverse fsqrt dec show (Some src) (Some (batches, Some e)) mode prec h g d p = (q, Err e') /\
    (forall s x, call_value eigh inverse fsqrt (ICall _ src batches mode prec h g d) (x_state (lm_x (fe_lm p))) = (s, Ok x) -> e' = e).
Proof. exact (broken_feed eigh inverse fsqrt dec show src batches e mode prec h g d p). Qed.
Print Assumptions C83_broken_loader.
(** No call of the front end changes saved scores or a result handed out before. *)
Theorem C83_results_stay {F} `{OField F} (eigh : tensor F -> res (tensor F * tensor F)) (inverse : tensor F -> res (tensor F)) (fsqrt : F -> F) dec show os (p : @fe F) :
  fe_scores (run_rops eigh inverse fsqrt dec show os p) = fe_scores p /\
  (forall o, obj_ok (fe_ifn p) o -> view (fe_ifn (run_rops eigh inverse fsqrt dec show os p)) o = view (fe_ifn p) o).
Proof. exact (results_stay eigh inverse fsqrt dec show os p). Qed.
Print Assumptions C83_results_stay.
(** Three samples in the log, a loader of batch size 2, then three more samples: the later influence call scores the first three only; without the early
    loader it scores all six. A flattened dataset makes the same call fail. A refused batch size keeps the flattened dataset. A record cut off. *)
Example C83_example :
  (fe_ds r0 = None /\ fe_dl r0 = None) /\ open_dataset (x_dir (lm_x (fe_lm r0))) (dkeys (x_dir (lm_x (fe_lm r0)))) = Ok rds /\
  rview (rall (Some rq) None "dot" false "none" None None (rrun [RLoader 2 false; RLib (fun _ => rmore)] r0)) = Ok (["q"], ["a"; "b"; "c"], [("", ([1; 3], [(-2)%Q; 8%Q; (-6)%Q]))]) /\
  rview (rall (Some rq) None "dot" false "none" None None (rrun [RLib (fun _ => rmore)] r0)) = Ok (["q"], ["a"; "b"; "c"; "u"; "v"; "w"], [("", ([1; 6], [(-2)%Q; 8%Q; (-6)%Q; 0%Q; (-2)%Q; (-8)%Q]))]) /\
  rview (rall (Some rq) None "dot" false "none" None None (rrun [RDataset true] r0)) = Err AttributeError /\
  snd (build_log_dataloader 0 true r0) = Err ValueError /\
  rview (rall (Some rq) None "dot" false "none" None None (rrun [RLoader 0 true] r0)) = Err AttributeError /\
  (let kept := map (fun x => (fst x, match snd x with Node [(_, Node [(_, Leaf a)])] => [a] | _ => [] end)) (match all_nested rds with Ok l => l | Err _ => [] end) in
   all_nested rds = Ok (map (fun x => (fst x, nested_of ["fc"] (snd x))) kept) /\ uniform ["fc"] F32 [[1; 2]] kept /\ map fst kept = [DStr "a"; DStr "b"; DStr "c"] /\
   mapM (get_nested rcut) (seq 0 (1 * 2)) = Ok (map (fun x => (fst x, nested_of ["fc"] (snd x))) (firstn 2 kept))) /\
  match all_flat rds with Ok l => Forall (fun x => a_shape (snd x) = [2] /\ a_dtype (snd x) = F32) l /\ length l = 3 | Err _ => False end /\
  ds_len rcut = 3 /\ mapM (get_nested rcut) (seq (1 * 2) 0) = Ok [] /\ get_nested rcut (1 * 2 + 0) = Err TypeError /\
  map fst (fst (iterate (LDL (LDS rcut false) 2 true))) = [[DStr "a"; DStr "b"]] /\ snd (iterate (LDL (LDS rcut false) 2 true)) = Some TypeError /\
  rview (rall None None "dot" false "none" None None r0) = Ok (["c"], ["a"; "b"; "c"], [("", ([1; 3], [12%Q; (-8)%Q; 20%Q]))]).
Proof.
  split; [split; reflexivity|]. split; [reflexivity|]. repeat (split; [vm_compute; reflexivity|]).
  split; [cbv zeta; split; [vm_compute; reflexivity|split; [|split; vm_compute; reflexivity]]; split; [reflexivity|vm_compute; repeat constructor]|].
  split; [vm_compute; split; [repeat constructor|reflexivity]|].
  repeat (split; [vm_compute; reflexivity|]). vm_compute; reflexivity.
Qed.

(** C84. The functions of the module [logix] act on the first LogIX object that [init] has constructed. *)
(** Before: every function raises, and nothing happens. *)
Theorem C84_uninitialised {W O A R} (methods : string -> O -> A -> W -> W * res R) name a (s : @mw W O) :
  In name ["add_analysis"; "add_lora"; "build_log_dataloader"; "clear"; "eval"; "finalize"; "get_log"; "initialize_from_log"; "log"; "setup"; "watch"; "watch_activation"] ->
  mw_inst s = None -> module_call methods name a s = (s, Err RuntimeError).
Proof. exact (uninitialised methods name a s). Qed.
Print Assumptions C84_uninitialised.
(** The first initialisation; one whose constructor raises leaves the module uninitialised. *)
Theorem C84_first_init {W O} (construct : string -> string -> W -> W * res O) p c (s : @mw W O) w r : mw_inst s = None ->
  construct p (match c with Some f => f | None => "./config.yaml" end) (mw_world s) = (w, r) ->
  init construct p c s = match r with Ok o => (MW (Some o) w, Ok (Some o)) | Err e => (MW None w, Err e) end.
Proof. exact (first_init construct p c s w r). Qed.
Print Assumptions C84_first_init.
(** Later ones construct nothing and return nothing. *)
Theorem C84_later_init {W O A R} (construct : string -> string -> W -> W * res O) (methods : string -> O -> A -> W -> W * res R) p c (s s1 : @mw W O) o cs p' c' :
  init construct p c s = (s1, Ok (Some o)) -> let t := run_mcalls construct methods cs s1 in mw_inst t = Some o /\ init construct p' c' t = (t, Ok None).
Proof. exact (later_init construct methods p c s s1 o cs p' c'). Qed.
Print Assumptions C84_later_init.
(** After it, the functions are the methods of that object ... *)
Theorem C84_delegates {W O A R} (construct : string -> string -> W -> W * res O) (methods : string -> O -> A -> W -> W * res R) p c (s s1 : @mw W O) o cs name a :
  init construct p c s = (s1, Ok (Some o)) ->
  In name ["add_analysis"; "add_lora"; "build_log_dataloader"; "clear"; "eval"; "finalize"; "get_log"; "initialize_from_log"; "log"; "setup"; "watch"; "watch_activation"] -> name <> "add_analysis" ->
  let t := run_mcalls construct methods cs s1 in
  module_call methods name a t = (MW (Some o) (fst (methods name o a (mw_world t))), snd (methods name o a (mw_world t))).
Proof. exact (delegates construct methods p c s s1 o cs name a). Qed.
Print Assumptions C84_delegates.
(** ... except [add_analysis], which no LogIX object has. *)
Theorem C84_add_analysis_refuted {W O A R} (methods : string -> O -> A -> W -> W * res R) a (s : @mw W O) :
  module_call methods "add_analysis" a s = (s, Err (match mw_inst s with None => RuntimeError | Some _ => AttributeError end)).
Proof. exact (no_analysis methods a s). Qed.
Print Assumptions C84_add_analysis_refuted.
(** Without a configuration file [init] fails, also when no file is named. *)
Theorem C84_init_needs_file p c (s : @mw ModelConfig.fs ModelConfig.run) :
  mw_inst s = None -> dget (match c with Some f => f | None => "./config.yaml" end) (ModelConfig.f_files (mw_world s)) = None ->
  init (fun pr cf => ModelConfig.new_run (Some pr) (Some cf) None) p c s = (s, Err AssertionError).
Proof. exact (init_needs_file p c s). Qed.
Print Assumptions C84_init_needs_file.
(** A directory with the file my.yaml but no config.yaml. *)
Example C84_example : let construct := fun pr cf => ModelConfig.new_run (Some pr) (Some cf) None in let s0 := MW None ExConfig.cfs0 in
  init construct "p" None s0 = (s0, Err AssertionError) /\
  module_call (fun _ (_ : ModelConfig.run) (_ : unit) w => (w, Ok tt)) "watch" tt s0 = (s0, Err RuntimeError) /\
  init construct "p" (Some "my.yaml") s0 = (MW (Some ExConfig.crun) ExConfig.cfs1, Ok (Some ExConfig.crun)) /\
  init construct "q" (Some "nowhere.yaml") (MW (Some ExConfig.crun) ExConfig.cfs1) = (MW (Some ExConfig.crun) ExConfig.cfs1, Ok None) /\
  module_call (fun n (_ : ModelConfig.run) (_ : unit) w => (w, Ok n)) "watch" tt (MW (Some ExConfig.crun) ExConfig.cfs1) = (MW (Some ExConfig.crun) ExConfig.cfs1, Ok "watch").
Proof. cbv zeta. repeat split; vm_compute; reflexivity. Qed.
