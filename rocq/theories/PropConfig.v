(** C61: configurations (logix/config.py, logix/logix.py). *)
From Coq Require Import ZArith.
From Verif Require Import Py PyStr Monad ModelConfig SpecConfig ConfigProofs2 ConfigProofs3 ConfigProofs4 ExConfig.
Local Open Scope string_scope.
Local Open Scope list_scope.
Local Open Scope nat_scope.

(** C61. Settings of a run, saved and restored. *)
(** A new run takes its settings from the file, then from the defaults; project and root directory give the log directory, which is created. *)
Theorem C61_new_run_ok p path d f :
  settings path f d -> (forall k, In k (dkeys d) -> In k config_keys) ->
  good_sec logging_keys (dget "logging" d) -> good_sec lora_fields (dget "lora" d) ->
  forall r, match dget "root_dir" d with Some v => v = PStr r | None => r = "./logix" end -> (join r p <> "" \/ In "" (f_dirs f)) ->
  exists R f' lg lo, new_run (Some p) path None f = (f', Ok R) /\ valid (r_cfg R) r p lg lo /\ r_dir R = join r p /\ with_dir (join r p) f f' /\
    (forall k, In k logging_keys -> dget k lg = given d "logging" k) /\ (forall k, In k lora_fields -> dget k lo = given d "lora" k).
Proof. exact (new_run_ok p path d f). Qed.
Print Assumptions C61_new_run_ok.
(** A LoggingConfig object replaces the logging section. *)
Theorem C61_new_run_logging p path a f f' R r lg lo :
  new_run (Some p) path None f = (f', Ok R) -> valid (r_cfg R) r p lg lo -> r_dir R = join r p -> plain_sec logging_keys a ->
  exists R' lg', new_run (Some p) path (Some a) f = (f', Ok R') /\ valid (r_cfg R') r p lg' lo /\ r_dir R' = join r p /\ forall k, k <> "log_dir" -> dget k lg' = dget k a.
Proof. exact (new_run_logging p path a f f' R r lg lo). Qed.
Print Assumptions C61_new_run_logging.
(** Settings that are refused; nothing is created then. *)
Theorem C61_new_run_no_file project pa f :
  dget pa (f_files f) = None -> rejects project (Some pa) f AssertionError.
Proof. exact (new_run_no_file project pa f). Qed.
Print Assumptions C61_new_run_no_file.
Theorem C61_new_run_no_project path f :
  rejects None path f AssertionError.
Proof. exact (new_run_no_project path f). Qed.
Print Assumptions C61_new_run_no_project.
Theorem C61_new_run_no_dict p pa f v :
  dget pa (f_files f) = Some v -> is_dict v = false -> rejects (Some p) (Some pa) f TypeError.
Proof. exact (new_run_no_dict p pa f v). Qed.
Print Assumptions C61_new_run_no_dict.
Theorem C61_new_run_unknown p pa f d k :
  dget pa (f_files f) = Some (PDict d) -> In k (dkeys d) -> ~ In k config_keys -> rejects (Some p) (Some pa) f TypeError.
Proof. exact (new_run_unknown p pa f d k). Qed.
Print Assumptions C61_new_run_unknown.
Theorem C61_new_run_unknown_sec p pa f d sec x k :
  dget pa (f_files f) = Some (PDict d) -> dget sec d = Some (PDict x) -> In k (dkeys x) ->
  (sec = "logging" /\ ~ In k logging_keys) \/ (sec = "lora" /\ ~ In k lora_fields) -> rejects (Some p) (Some pa) f TypeError.
Proof. exact (new_run_unknown_sec p pa f d sec x k). Qed.
Print Assumptions C61_new_run_unknown_sec.
Theorem C61_new_run_root p pa f d v :
  dget pa (f_files f) = Some (PDict d) -> dget "root_dir" d = Some v -> (forall s, v <> PStr s) -> rejects (Some p) (Some pa) f TypeError.
Proof. exact (new_run_root p pa f d v). Qed.
Print Assumptions C61_new_run_root.
Theorem C61_new_run_logging_null p pa f d v r :
  dget pa (f_files f) = Some (PDict d) -> (forall k, In k (dkeys d) -> In k config_keys) -> good_sec lora_fields (dget "lora" d) ->
  match dget "root_dir" d with Some w => w = PStr r | None => r = "./logix" end -> dget "logging" d = Some v -> is_dict v = false -> rejects (Some p) (Some pa) f AttributeError.
Proof. exact (new_run_logging_null p pa f d v r). Qed.
Print Assumptions C61_new_run_logging_null.
Theorem C61_new_run_nowhere p path d f :
  settings path f d -> (forall k, In k (dkeys d) -> In k config_keys) ->
  good_sec logging_keys (dget "logging" d) -> good_sec lora_fields (dget "lora" d) ->
  forall r, match dget "root_dir" d with Some v => v = PStr r | None => r = "./logix" end -> join r p = "" -> ~ In "" (f_dirs f) -> rejects (Some p) path f FileNotFoundError.
Proof. exact (new_run_nowhere p path d f). Qed.
Print Assumptions C61_new_run_nowhere.
Theorem C61_run_set_lora R r p lg lo a f :
  valid (r_cfg R) r p lg lo -> plain_sec lora_fields a -> exists R', set_lora_config a (R, f) = ((R', f), Ok tt) /\ valid (r_cfg R') r p lg a /\ r_dir R' = r_dir R.
Proof. exact (run_set_lora R r p lg lo a f). Qed.
Print Assumptions C61_run_set_lora.
(** finalize() writes the configuration to the log directory. *)
Theorem C61_run_finalize R r p lg lo f :
  valid (r_cfg R) r p lg lo -> In (r_dir R) (f_dirs f) -> r_dir R <> "" ->
  exists f' v, finalize_config (R, f) = ((R, f'), Ok tt) /\ saved (r_cfg R) v /\ f_dirs f' = f_dirs f /\
    forall path, dget path (f_files f') = if String.eqb path (join (r_dir R) "config.yaml") then Some v else dget path (f_files f).
Proof. exact (run_finalize R r p lg lo f). Qed.
Print Assumptions C61_run_finalize.
Theorem C61_save_config_default c r p lg lo f :
  valid c r p lg lo -> save_config None (c, f) = save_config (Some (join r p)) (c, f) /\ save_config (Some "") (c, f) = save_config (Some (join r p)) (c, f).
Proof. exact (save_config_default c r p lg lo f). Qed.
Print Assumptions C61_save_config_default.
Theorem C61_save_config_missing c r p lg lo d f :
  valid c r p lg lo -> ~ In d (f_dirs f) -> d <> "" -> save_config (Some d) (c, f) = ((c, f), Err FileNotFoundError).
Proof. exact (save_config_missing c r p lg lo d f). Qed.
Print Assumptions C61_save_config_missing.
(** initialize_from_log() in a run with any settings, in whatever directory the file has been put: every field is restored, attributes that are no fields stay, and the directory named by the restored root and project is created if it is missing, while the run goes on using its own. *)
Theorem C61_run_initialize c r p lg lo v R r2 p2 lg2 lo2 f :
  valid c r p lg lo -> saved c v -> valid (r_cfg R) r2 p2 lg2 lo2 -> In (r_dir R) (f_dirs f) -> dget (join (r_dir R) "config.yaml") (f_files f) = Some v -> (join r p <> "" \/ In "" (f_dirs f)) ->
  exists R' f' lg' lo', config_from_log (R, f) = ((R', f'), Ok tt) /\ r_dir R' = r_dir R /\ valid (r_cfg R') r p lg' lo' /\ (forall k, In k logging_fields -> dget k lg' = dget k lg) /\ (forall k, In k lora_fields -> dget k lo' = dget k lo) /\
    (forall k, ~ In k config_fields -> dget k (r_cfg R') = dget k (r_cfg R)) /\ (forall k, ~ In k logging_fields -> dget k lg' = dget k lg2) /\ (forall k, ~ In k lora_fields -> dget k lo' = dget k lo2) /\ with_dir (join r p) f f'.
Proof. exact (run_initialize c r p lg lo v R r2 p2 lg2 lo2 f). Qed.
Print Assumptions C61_run_initialize.
Theorem C61_run_initialize_bad R f :
  (~ In (r_dir R) (f_dirs f) \/ dget (join (r_dir R) "config.yaml") (f_files f) = None) -> config_from_log (R, f) = ((R, f), Err AssertionError).
Proof. exact (run_initialize_bad R f). Qed.
Print Assumptions C61_run_initialize_bad.
(** The saved file is not accepted as settings of a new run. *)
Theorem C61_new_saved c r p lg lo v path q f :
  valid c r p lg lo -> saved c v -> dget path (f_files f) = Some v -> init_config (Some q) (Some path) f = (f, Err TypeError).
Proof. exact (new_saved c r p lg lo v path q f). Qed.
Print Assumptions C61_new_saved.
Theorem C61_load_saved c r p lg lo v c2 r2 p2 lg2 lo2 path f :
  valid c r p lg lo -> saved c v -> valid c2 r2 p2 lg2 lo2 -> dget path (f_files f) = Some v -> (join r p <> "" \/ In "" (f_dirs f)) ->
  exists c' f' lg' lo', load_config path (c2, f) = ((c', f'), Ok tt) /\ valid c' r p lg' lo' /\ (forall k, In k logging_fields -> dget k lg' = dget k lg) /\ (forall k, In k lora_fields -> dget k lo' = dget k lo) /\
    (forall k, ~ In k config_fields -> dget k c' = dget k c2) /\ (forall k, ~ In k logging_fields -> dget k lg' = dget k lg2) /\ (forall k, ~ In k lora_fields -> dget k lo' = dget k lo2) /\ with_dir (join r p) f f'.
Proof. exact (load_saved c r p lg lo v c2 r2 p2 lg2 lo2 path f). Qed.
Print Assumptions C61_load_saved.
(** Loading any file: entries with unknown names become attributes without complaint. *)
Theorem C61_load_file path d c f r p :
  dget path (f_files f) = Some (PDict d) -> NoDup (dkeys d) -> (forall k v, In (k, v) d -> fits c k v) ->
  exists c1, updated c d c1 /\
    forall fl a, dget "root_dir" c1 = Some (V (PStr r)) -> dget "project" c1 = Some (V (PStr p)) -> dget "logging" c1 = Some (Sec fl a) -> (join r p <> "" \/ In "" (f_dirs f)) ->
    exists c' f', load_config path (c, f) = ((c', f'), Ok tt) /\ located c1 r p c' /\ with_dir (join r p) f f'.
Proof. exact (load_file path d c f r p). Qed.
Print Assumptions C61_load_file.
Theorem C61_load_file_homeless path d c f :
  dget path (f_files f) = Some (PDict d) -> NoDup (dkeys d) -> (forall k v, In (k, v) d -> fits c k v) ->
  (exists v w, dget "root_dir" c = Some v /\ dget "project" c = Some w) ->
  exists c1, updated c d c1 /\
    (forall v, (dget "root_dir" c1 = Some v \/ dget "project" c1 = Some v) -> (forall s, v <> V (PStr s)) -> load_config path (c, f) = ((c1, f), Err TypeError)) /\
    (forall v r p, dget "root_dir" c1 = Some (V (PStr r)) -> dget "project" c1 = Some (V (PStr p)) -> dget "logging" c1 = Some (V v) ->
       exists c', load_config path (c, f) = ((c', f), Err AttributeError) /\ forall k, dget k c' = if String.eqb k "log_dir" then Some (V (PStr (join r p))) else dget k c1).
Proof. exact (load_file_homeless path d c f). Qed.
Print Assumptions C61_load_file_homeless.
(** Loading stops at the first entry that does not fit; what was loaded before stays. *)
Theorem C61_load_file_bad path d1 k v d2 c f e x1 :
  dget path (f_files f) = Some (PDict (d1 ++ (k, v) :: d2)) -> NoDup (dkeys d1) -> ~ In k (dkeys d1) -> (forall k v, In (k, v) d1 -> fits c k v) -> misfit c k v e x1 ->
  exists c1 c', load_config path (c, f) = ((c', f), Err e) /\ updated c d1 c1 /\ (forall x, x <> k -> dget x c' = dget x c1) /\
    match dget k c with
    | Some (Sec fl a) => exists a', dget k c' = Some (Sec fl a') /\ forall j, dget j a' = match dget j x1 with Some v => Some v | None => dget j a end
    | o => dget k c' = o
    end.
Proof. exact (load_file_bad path d1 k v d2 c f e x1). Qed.
Print Assumptions C61_load_file_bad.
Theorem C61_load_no_file path c f :
  dget path (f_files f) = None -> load_config path (c, f) = ((c, f), Err AssertionError).
Proof. exact (load_no_file path c f). Qed.
Print Assumptions C61_load_no_file.
Theorem C61_load_no_dict path c f v :
  dget path (f_files f) = Some v -> is_dict v = false -> load_config path (c, f) = ((c, f), Err AttributeError).
Proof. exact (load_no_dict path c f v). Qed.
Print Assumptions C61_load_no_dict.
(** settings of a file, saved, and loaded into a run of another project whose directory contains a copy of the saved file *)
Example C61_example :
  settings (Some "my.yaml") cfs0 cfile /\ (forall k, In k (dkeys cfile) -> In k config_keys) /\ good_sec logging_keys (dget "logging" cfile) /\ good_sec lora_fields (dget "lora" cfile) /\ join "/data/" "p" = "/data/p" /\
  (exists lg lo, valid (r_cfg crun) "/data/" "p" lg lo /\ dget "rank" lo = Some (PInt 8) /\ dget "num_workers" lg = Some (PInt 2) /\ dget "flush_threshold" lg = Some (PInt 1000000000)) /\ r_dir crun = "/data/p" /\ f_dirs cfs1 = ["/data/p"] /\
  snd (finalize_config (crun, cfs1)) = Ok tt /\
  (exists lg lo, valid (r_cfg crun2) "./logix" "q" lg lo /\ dget "rank" lo = Some (PInt 64)) /\
  (forall v, dget "/data/p/config.yaml" (f_files cfs2) = Some v ->
     let f3 := FS [("./logix/q/config.yaml", v)] ["./logix/q"] in let (s, r) := config_from_log (crun2, f3) in
     r = Ok tt /\ r_dir (fst s) = "./logix/q" /\ dget "log_dir" (r_cfg (fst s)) = Some (V (PStr "/data/p")) /\ f_dirs (snd s) = ["/data/p"; "./logix/q"] /\
     exists lo, dget "lora" (r_cfg (fst s)) = Some (Sec lora_fields lo) /\ dget "rank" lo = Some (PInt 8) /\ dget "parameter_sharing_groups" lo = Some (PList [PStr "mlp"; PStr "attn"])) /\
  rejects (Some "p") (Some "empty.yaml") cfs0 TypeError /\ rejects (Some "p") (Some "typo.yaml") cfs0 TypeError /\ rejects (Some "p") (Some "none.yaml") cfs0 AssertionError /\ rejects (Some "p") (Some "/data/p/config.yaml") cfs2 TypeError /\
  snd (load_config "odd.yaml" (r_cfg crun, cfs0)) = Err AttributeError /\ dget "extra" (fst (fst (load_config "odd.yaml" (r_cfg crun, cfs0)))) = Some (V (PInt 1)) /\
  misfit (r_cfg crun) "logging" (PDict [("log_dtype", PStr "float16"); ("rank", PDict [])]) AttributeError [("log_dtype", PStr "float16")].
Proof.
  split; [reflexivity|]. split; [cbn; intuition|]. split; [cbn; split; [repeat constructor; intros []|intros k v [[= <- <-]|[]]; auto]|].
  split; [cbn; split; [repeat constructor; cbn; intuition discriminate|intros k v [[= <- <-]|[[= <- <-]|[[= <- <-]|[]]]]; auto 8]|].
  split; [reflexivity|]. split; [exact crun_valid|]. do 3 (split; [vm_compute; reflexivity|]). split; [exact crun2_valid|].
  split; [intros v Hv; vm_compute in Hv; injection Hv as <-; vm_compute; do 4 (split; [reflexivity|]); eexists; split; [reflexivity|split; reflexivity]|].
  do 4 (split; [intros a; vm_compute; reflexivity|]). do 2 (split; [vm_compute; reflexivity|]).
  exact (misfit_inner (r_cfg crun) "logging" [("log_dtype", PStr "float16")] "rank" [] [] logging_fields _ eq_refl ltac:(repeat constructor; intros []) ltac:(intros i w [[= <- <-]|[]]; reflexivity) ltac:(cbn; intuition discriminate)).
Qed.

