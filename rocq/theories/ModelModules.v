(** Model of module trees: nn.Module.named_modules, /repo/logix/utils.py module_check,
    /repo/logix/lora/utils.py is_lora and find_parameter_sharing_group, and LogIX.watch of /repo/logix/logix.py. *)
From Verif Require Import Py PyStr Field Tensor ModelGrad Monad ModelState ModelMmap ModelSaver ModelLogger.
Local Open Scope nat_scope.

(** Identity of a parameter. *)
Definition pid := nat.
(** A module: identity, class, the user-defined classes it is an instance of, its own parameters, and its
    children by attribute name in registration order. The same identity may occur at several places (with equal subtrees). *)
Inductive mtree := MT (id : mid) (k : mkind) (cls : list nat) (ps : list pid) (kids : list (string * mtree)).
Definition t_id (t : mtree) := let 'MT i _ _ _ _ := t in i.
Definition t_kind (t : mtree) := let 'MT _ k _ _ _ := t in k.
Definition t_cls (t : mtree) := let 'MT _ _ c _ _ := t in c.
Definition t_params (t : mtree) := let 'MT _ _ _ p _ := t in p.
Definition t_kids (t : mtree) := let 'MT _ _ _ _ c := t in c.

(** A class in a type filter. *)
Inductive fclass := FLinear | FConv1d | FConv2d | FEmbedding | FUser (n : nat).
(** [isinstance(module, c)] *)
Definition isinst (t : mtree) (c : fclass) : bool :=
  match c, t_kind t with
  | FLinear, KLinear _ _ | FConv1d, KConv1d | FConv2d, KConv2d _ | FEmbedding, KEmbedding => true
  | FUser n, _ => existsb (Nat.eqb n) (t_cls t)
  | _, _ => false
  end.

(** One item of named_modules: dotted name, the parent object, the attribute name in it, the module.
    lora/utils.py:50-58 [_get_submodules] looks the parent up by the dotted name from the root; attribute names contain
    no dots, so it finds the parent the traversal came from. *)
Record item := Item { i_name : string; i_parent : mid; i_key : string; i_mod : mtree }.
Definition dotted (prefix n : string) : string := if String.eqb prefix "" then n else (prefix ++ "." ++ n)%string.
(** torch.nn.Module.named_modules: depth first, every object once *)
Fixpoint named (prefix : string) (parent : mid) (key : string) (t : mtree) (memo : list mid) : list item * list mid :=
  match t with
  | MT id _ _ _ kids =>
      if mem id memo then ([], memo)
      else
        let fix go kids memo :=
          match kids with
          | [] => ([], memo)
          | (n, c) :: r =>
              let (l1, m1) := named (dotted prefix n) id n c memo in
              let (l2, m2) := go r m1 in (l1 ++ l2, m2)
          end in
        let (l, m) := go kids (id :: memo) in (Item prefix parent key t :: l, m)
  end.
Definition named_modules (root : mtree) : list item := fst (named "" (t_id root) "" root []).

(** logix.py:59, lora.py:31 *)
Definition supported : list fclass := [FLinear; FConv1d; FConv2d].
Definition is_nil {A} (l : list A) : bool := match l with [] => true | _ => false end.
(** a missing or empty filter does not filter *)
Definition flt {A} (o : option (list A)) : list A := match o with Some l => l | None => [] end.
(** utils.py:124-156 *)
Definition module_check (i : item) (tf : option (list fclass)) (nf : option (list string)) (lora : bool) : bool :=
  if negb (is_nil (t_kids (i_mod i))) then false
  else if negb (existsb (isinst (i_mod i)) supported) then false
  else if negb (is_nil (flt tf)) && negb (existsb (isinst (i_mod i)) (flt tf)) then false
  else if negb (is_nil (flt nf)) && negb (existsb (fun k => contains k (i_name i)) (flt nf)) then false
  else if lora && negb (contains "logix_lora_B" (i_name i)) then false
  else true.
(** lora/utils.py:20-24 *)
Definition is_lora (root : mtree) : bool := existsb (fun i => contains "logix_lora_B" (i_name i)) (named_modules root).
(** lora/utils.py:37-47 *)
Definition find_group (name : string) (groups : option (list string)) : res string :=
  match groups with
  | None => Ok "logix_lora_none"%string
  | Some gs => match filter (fun g => contains g name) gs with [g] => Ok g | _ => Err AssertionError end
  end.

(** [a or b] for filters *)
Definition or_filter {A} (a b : option (list A)) : option (list A) := if is_nil (flt a) then b else a.

(** the LoRA section of the configuration (config.py:84-104) and the handler's copy of it (lora.py:33-39) *)
Record lora_cfg := LoraCfg { lc_init : string; lc_rank : nat; lc_share : bool; lc_groups : option (list string) }.

Section Watch.
  Context {F : Type} `{OField F}.
  Notation lx := (@lx F).
  (** The LogIX object together with the model: module tree, next free identity, parameters with requires_grad False,
      weight and bias of the layers, filters, LoRA configuration and handler, the saved LoRA weights
      (lora/lora_state_dict.pt in the log directory), the LoRA section of config.yaml in the log directory. *)
  Record lm := LM {
    lm_x : lx; lm_root : option mtree; lm_next : nat; lm_frozen : list pid; lm_w : dict mid (tensor F * option (tensor F));
    lm_tf : option (list fclass); lm_nf : option (list string);
    lm_cfg : lora_cfg; lm_handler : option lora_cfg; lm_file : option (dict string (tensor F)); lm_conf : option lora_cfg
  }.
  Definition lm_set_x (s : lm) x := LM x (lm_root s) (lm_next s) (lm_frozen s) (lm_w s) (lm_tf s) (lm_nf s) (lm_cfg s) (lm_handler s) (lm_file s) (lm_conf s).
  Definition lm_set_model (s : lm) root nxt w := LM (lm_x s) root nxt (lm_frozen s) w (lm_tf s) (lm_nf s) (lm_cfg s) (lm_handler s) (lm_file s) (lm_conf s).
  Definition lm_set_frozen (s : lm) fr := LM (lm_x s) (lm_root s) (lm_next s) fr (lm_w s) (lm_tf s) (lm_nf s) (lm_cfg s) (lm_handler s) (lm_file s) (lm_conf s).
  Definition lm_set_filters (s : lm) tf nf := LM (lm_x s) (lm_root s) (lm_next s) (lm_frozen s) (lm_w s) tf nf (lm_cfg s) (lm_handler s) (lm_file s) (lm_conf s).
  Definition lm_set_lora (s : lm) c h := LM (lm_x s) (lm_root s) (lm_next s) (lm_frozen s) (lm_w s) (lm_tf s) (lm_nf s) c h (lm_file s) (lm_conf s).
  Definition lm_set_file (s : lm) f := LM (lm_x s) (lm_root s) (lm_next s) (lm_frozen s) (lm_w s) (lm_tf s) (lm_nf s) (lm_cfg s) (lm_handler s) f (lm_conf s).
  Definition lm_set_conf (s : lm) c := LM (lm_x s) (lm_root s) (lm_next s) (lm_frozen s) (lm_w s) (lm_tf s) (lm_nf s) (lm_cfg s) (lm_handler s) (lm_file s) c.
  (** an operation of the logging part *)
  Definition on_x {A} (m : SM lx A) : SM lm A := fun s => let (x, r) := m (lm_x s) in (lm_set_x s x, r).

  (** number of entries of a module's weight *)
  Definition wsize_of (s : lm) (m : mid) : nat := match dget m (lm_w s) with Some (w, _) => prod (shape w) | None => 0 end.
  (** logix.py:126-145, one module: logger.add_module, or freezing the parameters of a leaf *)
  Definition watch_item (tf : option (list fclass)) (nf : option (list string)) (lora : bool) (fr : list pid) (i : item) : list pid :=
    if module_check i tf nf lora then fr
    else if is_nil (t_kids (i_mod i)) then fr ++ t_params (i_mod i) else fr.
  (** logix.py:101-148. The model is not wrapped in DistributedDataParallel. *)
  Definition lm_watch (root : mtree) (tf : option (list fclass)) (nf : option (list string)) : SM lm unit := fun s =>
    let tf' := or_filter tf (lm_tf s) in
    let nf' := or_filter nf (lm_nf s) in
    let lora := is_lora root in
    let s := lm_set_filters (lm_set_model s (Some root) (lm_next s) (lm_w s)) tf' nf' in
    let s := lm_set_frozen s (fold_left (watch_item tf' nf' lora) (named_modules root) (lm_frozen s)) in
    on_x (watch (wsize_of s)
            (map (fun i => (i_name i, t_id (i_mod i))) (filter (fun i => module_check i tf' nf' lora) (named_modules root)))) s.
End Watch.
