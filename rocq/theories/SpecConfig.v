(** Specification vocabulary for configurations. *)
From Coq Require Import ZArith.
From Verif Require Import Py PyStr Monad ModelConfig.
Local Open Scope string_scope.
Local Open Scope list_scope.
Local Open Scope nat_scope.

(** all fields are there and are plain values *)
Definition plain_sec (fields : list string) (a : dict string pv) : Prop := forall f, In f fields -> exists v, dget f a = Some v /\ is_dict v = false.
(** a complete configuration: project [p] in root directory [r], logging section [lg], LoRA section [lo] *)
Record valid (c : cfg) (r p : string) (lg lo : dict string pv) : Prop := {
  v_project : dget "project" c = Some (V (PStr p));
  v_root : dget "root_dir" c = Some (V (PStr r));
  v_dir : dget "log_dir" c = Some (V (PStr (join r p)));
  v_logging : dget "logging" c = Some (Sec logging_fields lg);
  v_logging_plain : plain_sec logging_fields lg;
  v_logging_dir : dget "log_dir" lg = Some (PStr (join r p));
  v_lora : dget "lora" c = Some (Sec lora_fields lo);
  v_lora_plain : plain_sec lora_fields lo;
}.
(** files, and directory [d] exists in addition *)
Definition with_dir (d : string) (f f' : fs) : Prop := f_files f' = f_files f /\ forall x, In x (f_dirs f') <-> x = d \/ In x (f_dirs f).
(** what a settings file says about field [k] of section [sec] *)
Definition setting (d : dict string pv) (sec k : string) : option pv := match dget sec d with Some (PDict x) => dget k x | _ => None end.
(** a section of a settings file that the constructor accepts *)
Definition good_sec (defaults : list string) (v : option pv) : Prop :=
  match v with
  | None => True
  | Some (PDict x) => NoDup (dkeys x) /\ forall k v, In (k, v) x -> In k defaults /\ is_dict v = false
  | Some _ => False
  end.
Definition logging_keys : list string := ["flush_threshold"; "num_workers"; "cpu_offload"; "log_dtype"].
Definition config_keys : list string := ["project"; "root_dir"; "logging"; "lora"].
(** the defaults *)
Definition default (k : string) : option pv :=
  if String.eqb k "flush_threshold" then Some (PInt 1000000000) else if String.eqb k "num_workers" then Some (PInt 1)
  else if String.eqb k "cpu_offload" then Some (PBool false) else if String.eqb k "log_dtype" then Some (PStr "none")
  else if String.eqb k "init" then Some (PStr "random") else if String.eqb k "rank" then Some (PInt 64)
  else if String.eqb k "parameter_sharing" then Some (PBool false) else if String.eqb k "parameter_sharing_groups" then Some PNone else None.
(** the settings of a run: none, or those of a file *)
Definition settings (path : option string) (f : fs) (d : dict string pv) : Prop :=
  match path with None => d = [] | Some p => dget p (f_files f) = Some (PDict d) end.
Definition given (d : dict string pv) (sec k : string) : option pv := match setting d sec k with Some v => Some v | None => default k end.

(** entry [k: v] of a file can be loaded into [c] *)
Definition fits (c : cfg) (k : string) (v : pv) : Prop :=
  match v with
  | PDict x => NoDup (dkeys x) /\ (exists f a, dget k c = Some (Sec f a)) /\ forall k' v', In (k', v') x -> is_dict v' = false
  | _ => True
  end.
(** [c'] is [c] with the entries of [d] *)
Definition updated (c : cfg) (d : dict string pv) (c' : cfg) : Prop := forall k,
  match dget k d with
  | None => dget k c' = dget k c
  | Some (PDict x) => exists f a a', dget k c = Some (Sec f a) /\ dget k c' = Some (Sec f a') /\ forall j, dget j a' = match dget j x with Some v => Some v | None => dget j a end
  | Some v => dget k c' = Some (V v)
  end.
(** [c'] is [c] with the log directory made from root directory and project *)
Definition located (c : cfg) (r p : string) (c' : cfg) : Prop :=
  dget "root_dir" c = Some (V (PStr r)) /\ dget "project" c = Some (V (PStr p)) /\ dget "log_dir" c' = Some (V (PStr (join r p))) /\
  (exists f a a', dget "logging" c = Some (Sec f a) /\ dget "logging" c' = Some (Sec f a') /\ forall j, dget j a' = if String.eqb j "log_dir" then Some (PStr (join r p)) else dget j a) /\
  forall k, k <> "log_dir" -> k <> "logging" -> dget k c' = dget k c.
(** what save_config writes for a complete configuration *)
Definition saved (c : cfg) (v : pv) : Prop := exists f f' d, In d (f_dirs f) /\ save_config (Some d) (c, f) = ((c, f'), Ok tt) /\ d <> "" /\ dget (join d "config.yaml") (f_files f') = Some v.
(** entry [k: v] cannot be loaded into [c]: the exception, and the part [x1] of the entry that is loaded nevertheless *)
Inductive misfit (c : cfg) (k : string) : pv -> exn -> dict string pv -> Prop :=
| misfit_none x : dget k c = None -> misfit c k (PDict x) AttributeError []
| misfit_plain x v : dget k c = Some (V v) -> misfit c k (PDict x) AssertionError []
| misfit_inner x1 j y x2 f a : dget k c = Some (Sec f a) -> NoDup (dkeys x1) -> (forall i w, In (i, w) x1 -> is_dict w = false) -> ~ In j (dkeys x1) ->
    misfit c k (PDict (x1 ++ (j, PDict y) :: x2)) (match dget j a with Some _ => AssertionError | None => AttributeError end) x1.
(** no run is created, with or without a LoggingConfig, and nothing is changed *)
Definition rejects (project path : option string) (f : fs) (e : exn) : Prop := forall a, new_run project path a f = (f, Err e).
