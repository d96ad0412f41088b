(** Model of /repo/logix/config.py and of the configuration part of /repo/logix/logix.py. One process. *)
From Coq Require Import ZArith.
From Verif Require Import Py PyStr Monad.
Local Open Scope string_scope.
Local Open Scope list_scope.
Local Open Scope nat_scope.

(** Values that YAML files can hold (string keys; floats as written). The order of keys inside a plain value is not
    observable. *)
Inductive pv := PNone | PBool (b : bool) | PInt (z : Z) | PFloat (lit : string) | PStr (s : string) | PList (l : list pv) | PDict (d : list (string * pv)).
Definition is_dict (v : pv) : bool := match v with PDict _ => true | _ => false end.
(** An attribute of a Config: a plain value, or a dataclass object (the names of its fields, its attributes) *)
Inductive cval := V (v : pv) | Sec (fields : list string) (a : dict string pv).
(** A Config object: its attributes *)
Definition cfg := dict string cval.
(** Parsed YAML files and existing directories. A config path that names a directory, and creating parent directories,
    are not modelled. *)
Record fs := FS { f_files : dict string pv; f_dirs : list string }.
Notation CM := (SM (cfg * fs)).

(** os.path.join of two strings (posixpath) *)
Definition join (a b : string) : string :=
  if startswith b "/" then b else if String.eqb a "" || endswith a "/" then (a ++ b)%string else (a ++ "/" ++ b)%string.
(** os.path.join of two values *)
Definition join_v (a b : option cval) : res string :=
  match a, b with
  | Some (V (PStr r)), Some (V (PStr p)) => Ok (join r p)
  | None, _ | _, None => Err AttributeError
  | _, _ => Err TypeError
  end.
Definition getattr (k : string) (c : cfg) : option cval := dget k c.
Definition set_cfg (k : string) (v : cval) : CM unit := fun s => ((dset k v (fst s), snd s), Ok tt).

(** config.py:47-68: LoggingConfig *)
Definition logging_fields : list string := ["log_dir"; "flush_threshold"; "num_workers"; "cpu_offload"; "log_dtype"].
Definition logging_defaults : dict string pv :=
  [("flush_threshold", PInt 1000000000); ("num_workers", PInt 1); ("cpu_offload", PBool false); ("log_dtype", PStr "none")].
(** config.py:84-105: LoRAConfig *)
Definition lora_fields : list string := ["init"; "rank"; "parameter_sharing"; "parameter_sharing_groups"].
Definition lora_defaults : dict string pv :=
  [("init", PStr "random"); ("rank", PInt 64); ("parameter_sharing", PBool false); ("parameter_sharing_groups", PNone)].
(** a dataclass constructor called with keywords: fields with init=False are not keywords *)
Definition new_sec (fields : list string) (defaults kw : dict string pv) : res cval :=
  if forallb (fun e => dmem (fst e) defaults) kw then Ok (Sec fields (fold_left (fun a e => dset (fst e) (snd e) a) kw defaults))
  else Err TypeError.
(** a value given for a section *)
Definition section (fields : list string) (defaults : dict string pv) (v : option pv) : res cval :=
  match v with
  | None => new_sec fields defaults []
  | Some (PDict kw) => new_sec fields defaults kw
  | Some v => Ok (V v)
  end.

(** config.py:168-176 *)
Definition configure_log_dir : CM unit :=
  let! s := sget in
  let! d := lift (join_v (getattr "root_dir" (fst s)) (getattr "project" (fst s))) in
  set_cfg "log_dir" (V (PStr d)) ;;
  (match getattr "logging" (fst s) with
   | Some (Sec f a) => set_cfg "logging" (Sec f (dset "log_dir" (PStr d) a))
   | _ => sfail AttributeError
   end) ;;
  (fun s => if mem d (f_dirs (snd s)) then (s, Ok tt)
            else if String.eqb d "" then (s, Err FileNotFoundError)
            else ((fst s, FS (f_files (snd s)) (d :: f_dirs (snd s))), Ok tt)).

(** config.py:133-166: Config(keywords) *)
Definition new_config (kw : dict string pv) : SM fs cfg := fun f =>
  match dget "project" kw with
  | Some p =>
      if forallb (fun e => mem (fst e) ["project"; "root_dir"; "logging"; "lora"]) kw then
        let init :=
          let* lg := section logging_fields logging_defaults (dget "logging" kw) in
          let* lo := section lora_fields lora_defaults (dget "lora" kw) in
          Ok ([("project", V p); ("root_dir", V (match dget "root_dir" kw with Some r => r | None => PStr "./logix" end)); ("logging", lg); ("lora", lo); ("log_dir", V PNone)] : cfg) in
        match init with
        | Ok c => let (s, r) := configure_log_dir (c, f) in (snd s, match r with Ok _ => Ok (fst s) | Err e => Err e end)
        | Err e => (f, Err e)
        end
      else (f, Err TypeError)
  | None => (f, Err TypeError)
  end.
(** config.py:25-35; [project]: None or a string *)
Definition init_config (project : option string) (path : option string) : SM fs cfg := fun f =>
  match (match path with
         | None => Ok (PDict [])
         | Some p => match dget p (f_files f) with Some v => Ok v | None => Err AssertionError end
         end) with
  | Err e => (f, Err e)
  | Ok v =>
      match project, v with
      | None, _ => (f, Err AssertionError)
      | Some p, PDict d => new_config (dset "project" (PStr p) d) f
      | Some _, _ => (f, Err TypeError)
      end
  end.

(** config.py:38-44 on a section: its attributes are no dataclasses *)
Fixpoint load_sec (d : dict string pv) : SM (dict string pv) unit := fun a =>
  match d with
  | [] => (a, Ok tt)
  | (k, v) :: d' =>
      if is_dict v then (a, match dget k a with None => Err AttributeError | Some _ => Err AssertionError end)
      else load_sec d' (dset k v a)
  end.
(** config.py:38-44 *)
Fixpoint load_dict (d : dict string pv) : CM unit :=
  match d with
  | [] => sret tt
  | (k, v) :: d' =>
      (match v with
       | PDict x => fun s =>
           match getattr k (fst s) with
           | None => (s, Err AttributeError)
           | Some (V _) => (s, Err AssertionError)
           | Some (Sec f a) => let (a', r) := load_sec x a in ((dset k (Sec f a') (fst s), snd s), r)
           end
       | _ => set_cfg k (V v)
       end) ;;
      load_dict d'
  end.
(** config.py:178-191 *)
Definition load_config (path : string) : CM unit :=
  let! s := sget in
  match dget path (f_files (snd s)) with
  | None => sfail AssertionError
  | Some (PDict d) => load_dict d ;; configure_log_dir
  | Some _ => sfail AttributeError
  end.

(** yaml.dump sorts the keys *)
Fixpoint kinsert {A} (k : string) (v : A) (d : dict string A) : dict string A :=
  match d with
  | [] => [(k, v)]
  | (k', v') :: r => if String.leb k k' then (k, v) :: d else (k', v') :: kinsert k v r
  end.
Fixpoint ksort {A} (d : dict string A) : dict string A := match d with [] => [] | (k, v) :: r => kinsert k v (ksort r) end.
(** dataclasses.asdict: the fields, in order *)
Fixpoint fields_of {A B} (get : A -> res B) (fs : list string) (a : dict string A) : res (dict string B) :=
  match fs with
  | [] => Ok []
  | f :: r => let* v := (match dget f a with Some v => get v | None => Err AttributeError end) in
              let* l := fields_of get r a in Ok ((f, v) :: l)
  end.
Definition config_fields : list string := ["project"; "log_dir"; "root_dir"; "logging"; "lora"].
(** the saved form of a field *)
Definition as_yaml (v : cval) : res pv :=
  match v with
  | V v => Ok v
  | Sec f a => let* l := fields_of (fun v => Ok v) f a in Ok (PDict (ksort l))
  end.
(** config.py:193-202 *)
Definition save_config (log_dir : option string) : CM unit := fun s =>
  let dir := match log_dir with
             | Some d => if String.eqb d "" then getattr "log_dir" (fst s) else Some (V (PStr d))
             | None => getattr "log_dir" (fst s)
             end in
  match join_v dir (Some (V (PStr "config.yaml"))), dir with
  | Ok file, Some (V (PStr d)) =>
      match fields_of as_yaml config_fields (fst s) with
      | Ok l => if mem d (f_dirs (snd s)) then ((fst s, FS (dset file (PDict (ksort l)) (f_files (snd s))) (f_dirs (snd s))), Ok tt)
                else (s, Err FileNotFoundError)
      | Err e => (s, Err e)
      end
  | Err e, _ => (s, Err e)
  | _, _ => (s, Err TypeError)
  end.

(** A LogIX object, as far as the configuration is concerned: its config and its own log_dir *)
Record run := Run { r_cfg : cfg; r_dir : string }.
(** logix.py:71-77, 565-567; [logging]: attributes of a LoggingConfig object *)
Definition new_run (project config : option string) (logging : option (dict string pv)) : SM fs run :=
  let! c := init_config project config in
  lift (match getattr "log_dir" c with
        | Some (V (PStr d)) =>
            Ok (Run (match logging with Some a => dset "logging" (Sec logging_fields (dset "log_dir" (PStr d) a)) c | None => c end) d)
        | _ => Err TypeError
        end).
Definition on_cfg (m : CM unit) : SM (run * fs) unit := fun s =>
  let (s', r) := m (r_cfg (fst s), snd s) in ((Run (fst s') (r_dir (fst s)), snd s'), r).
(** logix.py:535 *)
Definition finalize_config : SM (run * fs) unit := let! s := sget in on_cfg (save_config (Some (r_dir (fst s)))).
(** logix.py:504-507 *)
Definition config_from_log : SM (run * fs) unit :=
  let! s := sget in
  if mem (r_dir (fst s)) (f_dirs (snd s)) then on_cfg (load_config (join (r_dir (fst s)) "config.yaml")) else sfail AssertionError.
(** logix.py:569-570 *)
Definition set_lora_config (a : dict string pv) : SM (run * fs) unit := on_cfg (set_cfg "lora" (Sec lora_fields a)).
