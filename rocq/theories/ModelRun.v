(** Model of the analysis front end of /repo/logix/logix.py (log dataset, log loader, influence calls with their defaults) and
    of the module-level functions of /repo/logix/__init__.py. *)
From Coq Require Import ZArith.
From Verif Require Import Py PyStr Field Tensor ModelGrad Monad ModelState ModelMmap ModelSaver ModelLoader ModelLogger ModelModules ModelLora ModelScheduler ModelInfluence ModelTrainer.
Local Open Scope string_scope.
Local Open Scope list_scope.
Local Open Scope nat_scope.

(** ---- the loader object: iteration reads the records lazily, batch by batch ---- *)
(** torch default_collate on nested dictionaries: the keys of the first element, in its order; [d[key]] of every element.
    Where one element has a dictionary and another a tensor the exception's kind is not claimed. *)
Section DefaultCollate.
  Context {A B : Type}.
  Variable stack : list A -> res B.
  Fixpoint default_collate (first : nd A) (all : list (nd A)) {struct first} : res (nd B) :=
    match first with
    | Leaf _ =>
        let* xs := mapM (fun x => match x with Leaf a => Ok a | Node _ => Err TypeError end) all in
        let* b := stack xs in Ok (Leaf b)
    | Node l =>
        let* l' := (fix go (l : list (string * nd A)) : res (list (string * nd B)) :=
           match l with
           | [] => Ok []
           | (k, v) :: r =>
               let* col := mapM (fun x => match x with Node d => dgetM k d | Leaf _ => Err TypeError end) all in
               let* v' := default_collate v col in
               let* r' := go r in
               Ok ((k, v') :: r')
           end) l in
        Ok (Node l')
    end.
End DefaultCollate.

(** log_loader.py:28-40: a dataset with its [flatten] flag *)
Record lds := LDS { ld_data : dataset; ld_flat : bool }.
(** logix.py:353-362: a DataLoader over the dataset; [dl_nested]: its collate function is collate_nested_dicts *)
Record ldl := LDL { dl_set : lds; dl_bs : nat; dl_nested : bool }.

(** log_loader.py:57-82; a flattened record is one tensor *)
Definition ld_item (s : lds) (i : nat) : res (did * nd array) :=
  if ld_flat s then let* x := get_flat (ld_data s) i in Ok (fst x, Leaf (snd x)) else get_nested (ld_data s) i.
(** one batch: logix.py:354 selects the collate function. *)
Definition dl_collate (l : ldl) (batch : list (did * nd array)) : res (list did * nd array) :=
  if dl_nested l then collate_nested_dicts stack_arrays batch
  else match batch with
       | [] => Err IndexError
       | x :: _ => let* ids := default_ids (map fst batch) in
                  let* t := default_collate stack_arrays (snd x) (map snd batch) in Ok (ids, t)
       end.
(** a [for] loop over an iterator that may raise: the values delivered, and the exception that ends it *)
Fixpoint ok_prefix {A B} (f : A -> res B) (l : list A) : list B * option exn :=
  match l with
  | [] => ([], None)
  | a :: r => match f a with
              | Ok b => let (p, e) := ok_prefix f r in (b :: p, e)
              | Err e => ([], Some e)
              end
  end.
Definition iterate (l : ldl) : list (list did * nd array) * option exn :=
  ok_prefix (fun idx => let* items := mapM (ld_item (dl_set l)) idx in dl_collate l items)
            (chunks (dl_bs l) (seq 0 (ds_len (ld_data (dl_set l))))).

Section Run.
  Context {F : Type} `{OField F}.
  Notation tensor := (tensor F).
  Notation dten := (@dten F).
  Notation lm := (@lm F).
  Notation glog := (@glog F).
  Context (eigh : tensor -> res (tensor * tensor)) (inverse : tensor -> res tensor) (fsqrt : F -> F).
  (** tensors from stored arrays; data ids as the influence model names them *)
  Context (dec : array -> dten) (show : did -> string).

  (** The LogIX object: logging part and model, the results its InfluenceFunction has handed out, and the dataset and loader
      it keeps (logix.py:91-92, 95). *)
  Record fe := FE {
    fe_lm : lm;
    fe_lists : list (list string); fe_dicts : list (dict string tensor); fe_scores : option (@robj F);
    fe_ds : option lds; fe_dl : option ldl }.
  Definition fe_set_lm (p : fe) s := FE s (fe_lists p) (fe_dicts p) (fe_scores p) (fe_ds p) (fe_dl p).
  Definition fe_set_ds (p : fe) d := FE (fe_lm p) (fe_lists p) (fe_dicts p) (fe_scores p) d (fe_dl p).
  Definition fe_set_dl (p : fe) l := FE (fe_lm p) (fe_lists p) (fe_dicts p) (fe_scores p) (fe_ds p) l.
  (** the influence function shares the state of the LogIX object (logix.py:95) *)
  Definition fe_ifn (p : fe) : @ifn F := IFn (x_state (lm_x (fe_lm p))) (fe_lists p) (fe_dicts p) (fe_scores p).
  Definition fe_put_ifn (p : fe) (f : @ifn F) : fe :=
    FE (lm_set_x (fe_lm p) (with_state (lm_x (fe_lm p)) (if_state f))) (h_lists f) (h_dicts f) (if_scores f) (fe_ds p) (fe_dl p).
  Definition on_flm {A} (m : SM lm A) : SM fe A := fun p => let (s, r) := m (fe_lm p) in (fe_set_lm p s, r).
  Definition on_fifn {A} (m : SM (@ifn F) A) : SM fe A := fun p => let (f, r) := m (fe_ifn p) in (fe_put_ifn p f, r).

  (** logix.py:315-329. The files mapped by an opened dataset do not change afterwards (chunk files of a run are written once). *)
  Definition build_log_dataset (flatten : bool) : SM fe lds := fun p =>
    match fe_ds p with
    | Some s => (p, Ok s)
    | None =>
        let d := x_dir (lm_x (fe_lm p)) in
        match open_dataset d (dkeys d) with
        | Ok ds => let s := LDS ds flatten in (fe_set_ds p (Some s), Ok s)
        | Err e => (p, Err e)
        end
    end.
  (** logix.py:331-363. torch's DataLoader refuses batch sizes below 1. Workers and pinned memory are not modelled. *)
  Definition build_log_dataloader (batch_size : Z) (flatten : bool) : SM fe ldl :=
    let! p := sget in
    match fe_dl p with
    | Some l => sret l
    | None =>
        let! s := build_log_dataset flatten in
        if (batch_size <=? 0)%Z then sfail ValueError
        else let l := LDL s (Z.to_nat batch_size) (negb flatten) in
             fun p => (fe_set_dl p (Some l), Ok l)
    end.
  (** a batch as the influence function reads it: a dictionary, or one matrix *)
  Definition to_glog (b : list did * nd array) : glog :=
    (map show (fst b), match snd b with
                       | Leaf a => Flat (dec a)
                       | Node _ => Nest (leaf_map (fun a => VT (dec a)) (snd b))
                       end).
  (** what a loader handed to the influence function delivers *)
  Definition feed := (list glog * option exn)%type.
  Definition feed_of (l : ldl) : feed := let (bs, e) := iterate l in (map to_glog bs, e).

  (** logix.py:365-378 as the source of an influence call. Without data ids the call fails; the exception's kind and the state
      it leaves are not claimed. *)
  Definition own_log : SM fe glog :=
    let! g := on_flm (on_x (lx_get_log false)) in
    fun p => let l := read_got (lm_x (fe_lm p)) g in
             (p, match fst l with Some ids => Ok (map show ids, Nest (leaf_map VT (snd l))) | None => Err TypeError end).
  (** influence_function.py:242-289 with a loader that may raise in the middle; the front end never saves *)
  Definition influence_over (src : glog) (l : feed) (mode : string) (prec : bool) (hessian : string)
      (groups : option (list string)) (damping : option F) : SM (@ifn F) (option (@robj F)) :=
    match snd l with
    | None => compute_influence_all eigh inverse fsqrt src (fst l) mode prec false hessian groups damping
    | Some e =>
        fun f => match influence_all eigh inverse fsqrt src (fst l) mode prec hessian groups damping (if_state f) with
                 | (s, Ok _) => (IFn s (h_lists f) (h_dicts f) (if_scores f), Err e)
                 | (s, Err e') => (IFn s (h_lists f) (h_dicts f) (if_scores f), Err e')
                 end
    end.
  Definition or_own (src : option glog) : SM fe glog := match src with Some l => sret l | None => own_log end.
  (** logix.py:414-449 *)
  Definition fe_influence_all (src : option glog) (loader : option feed) (mode : string) (prec : bool) (hessian : string)
      (groups : option (list string)) (damping : option F) : SM fe (option (@robj F)) :=
    let! s := or_own src in
    let! l := (match loader with Some l => sret l | None => let! d := build_log_dataloader 16 false in sret (feed_of d) end) in
    on_fifn (influence_over s l mode prec hessian groups damping).
  (** logix.py:451-478 *)
  Definition fe_self_influence (src : option glog) (prec : bool) (hessian : string) (groups : option (list string))
      (damping : option F) : SM fe (list string * @ival F) :=
    let! s := or_own src in
    on_fifn (on_lstate (compute_self_influence eigh inverse s prec hessian groups damping)).

  (** What a program does with the object. [RLib m]: any other operation of the library or the program; none of them touches
      the dataset and the loader (logix.py:91-92 and 315-363 are the only places that do). Exceptions are caught. *)
  Inductive rop :=
  | RLib (m : lm -> lm)
  | RDataset (flatten : bool) | RLoader (batch_size : Z) (flatten : bool)
  | RAll (src : option glog) (loader : option feed) (mode : string) (prec : bool) (hessian : string) (groups : option (list string)) (damping : option F)
  | RSelf (src : option glog) (prec : bool) (hessian : string) (groups : option (list string)) (damping : option F).
  Definition run_rop (o : rop) (p : fe) : fe :=
    match o with
    | RLib m => fe_set_lm p (m (fe_lm p))
    | RDataset fl => fst (build_log_dataset fl p)
    | RLoader bs fl => fst (build_log_dataloader bs fl p)
    | RAll src l mode prec h g d => fst (fe_influence_all src l mode prec h g d p)
    | RSelf src prec h g d => fst (fe_self_influence src prec h g d p)
    end.
  Definition run_rops (os : list rop) (p : fe) : fe := fold_left (fun p o => run_rop o p) os p.
End Run.

(** ---- __init__.py ---- *)
(** logix.py:61-575: the public methods of the class *)
Definition logix_methods : list string :=
  ["watch"; "watch_activation"; "add_lora"; "log"; "start"; "end"; "build_log_dataset"; "build_log_dataloader"; "get_log";
   "compute_influence"; "compute_influence_all"; "compute_self_influence"; "save_lora"; "initialize_from_log"; "finalize";
   "setup"; "save"; "eval"; "clear"; "set_logging_config"; "set_lora_config"; "get_logging_config"; "get_lora_config"].

Section Singleton.
  (** LogIX objects, the rest of the world, the arguments and results of methods; the constructor; the methods by name *)
  Context {W O A R : Type}.
  Context (construct : string -> string -> W -> W * res O).
  Context (methods : string -> O -> A -> W -> W * res R).

  (** __init__.py:7 [_LOGIX_INSTANCE], and the world *)
  Record mw := MW { mw_inst : option O; mw_world : W }.
  (** __init__.py:10-30; [None]: the second initialisation returns nothing *)
  Definition default_config : string := "./config.yaml".
  Definition init (project : string) (config : option string) : SM mw (option O) := fun s =>
    match mw_inst s with
    | Some _ => (s, Ok None)
    | None =>
        match construct project (match config with Some c => c | None => default_config end) (mw_world s) with
        | (w, Ok o) => (MW (Some o) w, Ok (Some o))
        | (w, Err e) => (MW None w, Err e)
        end
    end.
  (** __init__.py:33-126: twelve functions of the same shape *)
  Definition wrapper (name : string) (a : A) : SM mw R := fun s =>
    match mw_inst s with
    | None => (s, Err RuntimeError)
    | Some o => if mem name logix_methods then let (w, r) := methods name o a (mw_world s) in (MW (Some o) w, r)
                else (s, Err AttributeError)
    end.
  (** the twelve names, __init__.py:33, 41, 49, 57, 65, 73, 81, 89, 97, 105, 113, 121 *)
  Definition wrapped : list string :=
    ["add_analysis"; "add_lora"; "build_log_dataloader"; "clear"; "eval"; "finalize"; "get_log"; "initialize_from_log"; "log";
     "setup"; "watch"; "watch_activation"].
  (** calling a function of the module by its name *)
  Definition module_call (name : string) (a : A) : SM mw R := if mem name wrapped then wrapper name a else sfail AttributeError.

  (** calls of the module's functions, of which the program catches the exceptions, and anything else it does *)
  Inductive mcall := MInit (project : string) (config : option string) | MWrap (name : string) (a : A) | MOther (f : W -> W).
  Definition run_mcall (c : mcall) (s : mw) : mw :=
    match c with
    | MInit p cf => fst (init p cf s)
    | MWrap n a => fst (module_call n a s)
    | MOther f => MW (mw_inst s) (f (mw_world s))
    end.
  Definition run_mcalls (cs : list mcall) (s : mw) : mw := fold_left (fun s c => run_mcall c s) cs s.
End Singleton.
