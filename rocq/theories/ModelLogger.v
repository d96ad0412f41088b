(** Model of /repo/logix/logging/option.py, /repo/logix/logging/logger.py, /repo/logix/batch_info.py,
    /repo/logix/statistic/log.py and of the logging part of /repo/logix/logix.py, together with the part of
    torch the hooks rely on: tensors with identity, forward-pre, forward, full-backward and tensor hooks. *)
From Coq Require Import ZArith.
From Verif Require Import Py Field Tensor ModelGrad Monad ModelState ModelMmap ModelSaver.
Local Open Scope nat_scope.

(** ---- option.py ---- *)
(** option.py:20-27 *)
Inductive plugin := PLog | PMean | PVariance | PCovariance | PCorrectedEigval.
Definition plugin_eqb (a b : plugin) : bool :=
  match a, b with
  | PLog, PLog | PMean, PMean | PVariance, PVariance | PCovariance, PCovariance | PCorrectedEigval, PCorrectedEigval => true
  | _, _ => false
  end.
Definition plugin_in (p : plugin) (l : list plugin) : bool := existsb (plugin_eqb p) l.
(** option.py:30-44, the canonical order *)
Definition plugin_list : list plugin := [PLog; PMean; PVariance; PCovariance; PCorrectedEigval].
(** option.py:20-27 *)
Definition plugin_mapping : dict string plugin :=
  [("log", PLog); ("mean", PMean); ("variance", PVariance); ("covariance", PCovariance);
   ("corrected_eigval", PCorrectedEigval)]%string.
(** What a user may put into a plugin list: a name, a statistic class, any other object. *)
Inductive parg := AStr (s : string) | AClass (p : plugin) | AOther.

(** option.py:30-44 *)
Definition reorder_plugins (l : list plugin) : list plugin := filter (fun p => plugin_in p l) plugin_list.
(** option.py:51-56, one element: the element written back into the caller's list, and the plugin *)
Definition to_plugin (a : parg) : parg * res plugin :=
  match a with
  | AStr s => match dget s plugin_mapping with
              | Some p => (AClass p, if plugin_in p plugin_list then Ok p else Err AssertionError)
              | None => (a, Err AssertionError)
              end
  | AClass p => (a, if plugin_in p plugin_list then Ok p else Err AssertionError)
  | AOther => (a, Err AssertionError)
  end.
(** option.py:51-56, the loop; it rewrites the caller's list in place, also when it raises *)
Fixpoint to_plugins_loop (l : list parg) : list parg * res (list plugin) :=
  match l with
  | [] => ([], Ok [])
  | a :: r =>
      match to_plugin a with
      | (a', Err e) => (a' :: r, Err e)
      | (a', Ok p) => let (r', o) := to_plugins_loop r in (a' :: r', let* ps := o in Ok (p :: ps))
      end
  end.
(** option.py:47-70. [is_grad] is never passed by the callers (option.py:96-98); the branch is kept. *)
Definition to_plugins (l : list parg) (is_grad : bool) : list parg * res (list plugin) :=
  let (l', o) := to_plugins_loop l in
  (l', let* ps := o in
       let ps := reorder_plugins ps in
       if is_grad then
         if (0 <? length ps) && negb (plugin_in PLog ps) then Ok (PLog :: ps) else Ok ps
       else Ok ps).

(** option.py:73-79 *)
Record opts := Opts { o_forward : list plugin; o_backward : list plugin; o_grad : list plugin }.
(** option.py:100-106 *)
Definition opts_clear : opts := Opts [] [] [].
(** the caller's option dictionary; unknown keys are ignored *)
Definition okwargs := dict string (list parg).
Definition kw_get (k : string) (kw : okwargs) : list parg := match dget k kw with Some l => l | None => [] end.
Definition kw_put (k : string) (l : list parg) (kw : okwargs) : okwargs := if dmem k kw then dset k l kw else kw.
(** option.py:81-98: a failing phase leaves the earlier phases set and the later ones empty. The dictionary's lists
    are distinct objects. *)
Definition opt_setup (kw : okwargs) : opts * okwargs * res unit :=
  match to_plugins (kw_get "forward" kw) false with
  | (l1, Err e) => (opts_clear, kw_put "forward" l1 kw, Err e)
  | (l1, Ok f) =>
      let kw1 := kw_put "forward" l1 kw in
      match to_plugins (kw_get "backward" kw1) false with
      | (l2, Err e) => (Opts f [] [], kw_put "backward" l2 kw1, Err e)
      | (l2, Ok b) =>
          let kw2 := kw_put "backward" l2 kw1 in
          match to_plugins (kw_get "grad" kw2) false with
          | (l3, Err e) => (Opts f b [], kw_put "grad" l3 kw2, Err e)
          | (l3, Ok g) => (Opts f b g, kw_put "grad" l3 kw2, Ok tt)
          end
      end
  end.

(** ---- torch: modules, tensors and hooks ---- *)
(** Identity of a module object and of a tensor object. *)
Definition mid := nat.
Definition tid := nat.
(** The callbacks the library registers. A handle's [remove] removes one registration of that callback; two
    registrations of the same callback are interchangeable. [HGradT out m name inp] is the closure
    [_grad_backward_hook_fn] on the tensor [out]; [HActT t name] the hook of [watch_activation]. *)
Inductive hook :=
| HPre (m : mid) (name : string)
| HBack (m : mid) (name : string)
| HFwd (m : mid) (name : string)
| HGradT (out : tid) (m : mid) (name : string) (inp : tid)
| HActT (t : tid) (name : string).
Definition hook_eqb (a b : hook) : bool :=
  match a, b with
  | HPre m n, HPre m' n' | HBack m n, HBack m' n' | HFwd m n, HFwd m' n' | HActT m n, HActT m' n' =>
      (m =? m') && String.eqb n n'
  | HGradT o m n i, HGradT o' m' n' i' => (o =? o') && ((m =? m') && (String.eqb n n' && (i =? i')))
  | _, _ => false
  end.
(** [handle.remove()] *)
Fixpoint hook_remove (h : hook) (l : list hook) : list hook :=
  match l with [] => [] | x :: r => if hook_eqb h x then r else x :: hook_remove h r end.
Definition hooks_remove (hs l : list hook) : list hook := fold_left (fun l h => hook_remove h l) hs l.

Section Logger.
  Context {F : Type} `{OField F}.
  Notation tensor := (tensor F).
  Notation dten := (@dten F).
  Notation sval := (@sval F).
  Notation lstate := (@lstate F).
  Notation binfo := (@binfo F).

  (** A torch tensor: device and values, [requires_grad], [is_leaf]. *)
  Record uten := UT { u_d : dten; u_req : bool; u_leaf : bool }.
  Definition heap := dict tid uten.
  (** A tensor in the batch log: an object only the log holds, or an object it shares with the program. *)
  Inductive lref := Own (u : uten) | Ref (t : tid).
  Definition blog := dict string (dict string lref).
  (** A row of the saver's buffer that shares its memory with a tensor only the batch log holds: log_saver.py:49 makes the
      row with [to_numpy(value[idx])], and [value[idx]], [.cpu()] of a CPU tensor, [.detach()] and [.numpy()] (utils.py:76-77)
      copy nothing. [v_read] reads the row from the tensor as it is. Rows of tensors of the program are not followed: they
      are never written to the files, whose paths end in "grad" (utils.py:112). *)
  Record view := View { v_id : did; v_mod : string; v_typ : string; v_read : dten -> res array }.

  (** The LogIX object (logix.py:76-99), its HookLogger (logger.py:40-57), BatchInfo (batch_info.py:23-26),
      LogState and LogSaver, and the torch side: tensors, registered hooks, and for each module call the backward
      hooks it captured. *)
  Record lx := LX {
    x_state : lstate;
    x_ids : option (list did); x_mask : option dten; x_log : blog;
    x_opt : opts;
    x_mods : list mid; x_names : dict mid string;
    x_fh : list hook; x_bh : list hook; x_gh : list hook; x_th : list hook;
    x_saver : saver; x_dir : fs; x_disk : @sdisk F;
    x_save : bool; x_save_batch : bool; x_offload : bool;
    x_heap : heap; x_reg : list hook; x_calls : dict nat (list hook);
    x_shared : bool; (* the LogSaver's [model_module] is the dictionary of the LogState *)
    x_views : list view (* buffered rows that are memory of tensors of the batch log *)
  }.
  Definition with_state (x : lx) s := LX s (x_ids x) (x_mask x) (x_log x) (x_opt x) (x_mods x) (x_names x) (x_fh x) (x_bh x) (x_gh x) (x_th x) (x_saver x) (x_dir x) (x_disk x) (x_save x) (x_save_batch x) (x_offload x) (x_heap x) (x_reg x) (x_calls x) (x_shared x) (x_views x).
  Definition with_batch (x : lx) ids mask log := LX (x_state x) ids mask log (x_opt x) (x_mods x) (x_names x) (x_fh x) (x_bh x) (x_gh x) (x_th x) (x_saver x) (x_dir x) (x_disk x) (x_save x) (x_save_batch x) (x_offload x) (x_heap x) (x_reg x) (x_calls x) (x_shared x) (x_views x).
  Definition with_log (x : lx) log := with_batch x (x_ids x) (x_mask x) log.
  Definition with_opt (x : lx) o := LX (x_state x) (x_ids x) (x_mask x) (x_log x) o (x_mods x) (x_names x) (x_fh x) (x_bh x) (x_gh x) (x_th x) (x_saver x) (x_dir x) (x_disk x) (x_save x) (x_save_batch x) (x_offload x) (x_heap x) (x_reg x) (x_calls x) (x_shared x) (x_views x).
  Definition with_mods (x : lx) ms ns := LX (x_state x) (x_ids x) (x_mask x) (x_log x) (x_opt x) ms ns (x_fh x) (x_bh x) (x_gh x) (x_th x) (x_saver x) (x_dir x) (x_disk x) (x_save x) (x_save_batch x) (x_offload x) (x_heap x) (x_reg x) (x_calls x) (x_shared x) (x_views x).
  Definition with_hooks (x : lx) f b g t reg := LX (x_state x) (x_ids x) (x_mask x) (x_log x) (x_opt x) (x_mods x) (x_names x) f b g t (x_saver x) (x_dir x) (x_disk x) (x_save x) (x_save_batch x) (x_offload x) (x_heap x) reg (x_calls x) (x_shared x) (x_views x).
  Definition with_store (x : lx) sv d dk := LX (x_state x) (x_ids x) (x_mask x) (x_log x) (x_opt x) (x_mods x) (x_names x) (x_fh x) (x_bh x) (x_gh x) (x_th x) sv d dk (x_save x) (x_save_batch x) (x_offload x) (x_heap x) (x_reg x) (x_calls x) (x_shared x) (x_views x).
  Definition with_saves (x : lx) a b := LX (x_state x) (x_ids x) (x_mask x) (x_log x) (x_opt x) (x_mods x) (x_names x) (x_fh x) (x_bh x) (x_gh x) (x_th x) (x_saver x) (x_dir x) (x_disk x) a b (x_offload x) (x_heap x) (x_reg x) (x_calls x) (x_shared x) (x_views x).
  Definition with_heap (x : lx) h := LX (x_state x) (x_ids x) (x_mask x) (x_log x) (x_opt x) (x_mods x) (x_names x) (x_fh x) (x_bh x) (x_gh x) (x_th x) (x_saver x) (x_dir x) (x_disk x) (x_save x) (x_save_batch x) (x_offload x) h (x_reg x) (x_calls x) (x_shared x) (x_views x).
  Definition with_calls (x : lx) c := LX (x_state x) (x_ids x) (x_mask x) (x_log x) (x_opt x) (x_mods x) (x_names x) (x_fh x) (x_bh x) (x_gh x) (x_th x) (x_saver x) (x_dir x) (x_disk x) (x_save x) (x_save_batch x) (x_offload x) (x_heap x) (x_reg x) c (x_shared x) (x_views x).
  Definition with_shared (x : lx) b := LX (x_state x) (x_ids x) (x_mask x) (x_log x) (x_opt x) (x_mods x) (x_names x) (x_fh x) (x_bh x) (x_gh x) (x_th x) (x_saver x) (x_dir x) (x_disk x) (x_save x) (x_save_batch x) (x_offload x) (x_heap x) (x_reg x) (x_calls x) b (x_views x).
  Definition with_views (x : lx) vs := LX (x_state x) (x_ids x) (x_mask x) (x_log x) (x_opt x) (x_mods x) (x_names x) (x_fh x) (x_bh x) (x_gh x) (x_th x) (x_saver x) (x_dir x) (x_disk x) (x_save x) (x_save_batch x) (x_offload x) (x_heap x) (x_reg x) (x_calls x) (x_shared x) vs.

  (** A freshly constructed LogIX object (logix.py:60-99, logger.py:31-57, option.py:74-79). *)
  Definition lx_init (workers thr : Z) (offload : bool) : lx :=
    LX state_init None None [] opts_clear [] [] [] [] [] [] (saver_init 0 workers thr []) [] (SDisk [] None)
       false false offload [] [] [] true [].

  (** External: the module behind an identity, its number of weights, torch.linalg.eigh, and the bytes of a tensor. *)
  Variable kind : mid -> mkind.
  Variable wsize : mid -> nat.
  Variable eigh : tensor -> res (tensor * tensor).
  Variable enc : dten -> array.

  (** values of tensors; the program only refers to tensors it created *)
  Definition no_tensor : uten := UT (Cpu, T [] []) false true.
  Definition uget (h : heap) (t : tid) : uten := match dget t h with Some u => u | None => no_tensor end.
  Definition deref (h : heap) (r : lref) : uten := match r with Own u => u | Ref t => uget h t end.
  Definition log_nd {A} (f : dten -> A) (h : heap) (l : blog) : nd A :=
    Node (map (fun p => (fst p, Node (map (fun q => (fst q, Leaf (f (u_d (deref h (snd q)))))) (snd p)))) l).
  (** what statistics see of the batch *)
  Definition binfo_of (x : lx) : binfo :=
    BInfo (match x_mask x with Some m => Some (snd m) | None => None end) (log_nd VT (x_heap x) (x_log x)).

  Definition buf_put (i : did) (m t : string) (a : array) (buf : dict did (nd array)) : dict did (nd array) :=
    match dget i buf with
    | Some (Node l) => match dget m l with
                       | Some (Node q) => dset i (Node (dset m (Node (dset t (Leaf a) q)) l)) buf
                       | _ => buf
                       end
    | _ => buf
    end.
  Definition log_at (x : lx) (m t : string) : option lref := match dget m (x_log x) with Some l => dget t l | None => None end.
  (** a view's row, read now *)
  Definition look (x : lx) (v : view) : option array :=
    match log_at x (v_mod v) (v_typ v) with
    | Some r => match v_read v (u_d (deref (x_heap x) r)) with Ok a => Some a | Err _ => None end
    | None => None
    end.
  Definition refresh (x : lx) (buf : dict did (nd array)) (v : view) : dict did (nd array) :=
    match look x v with Some a => buf_put (v_id v) (v_mod v) (v_typ v) a buf | None => buf end.
  (** The saver as a reader of its buffer finds it: [x_saver] keeps the rows as they were put, the rows that are views are read now. *)
  Definition settle (x : lx) : saver :=
    let s := x_saver x in
    Saver (s_rank s) (s_workers s) (s_threshold s) (s_path s) (s_count s) (fold_left (refresh x) (x_views x) (s_buffer s)) (s_size s).
  (** the batch log forgets its tensors: nobody changes them any more *)
  Definition detach (x : lx) : lx := with_views (with_store x (settle x) (x_dir x) (x_disk x)) [].
  (** batch_info.py:28-31 *)
  Definition binfo_clear : SM lx unit := fun x => (with_batch (detach x) None None [], Ok tt).

  (** log.py:36-43. The first tensor is stored without a copy; [+=] adds in place to the stored object, so it is
      seen by everyone who shares it. *)
  Definition log_put (m t : string) (r : lref) : SM lx unit := fun x =>
    let ml := match dget m (x_log x) with Some l => l | None => [] end in
    match dget t ml with
    | None => (with_log x (dset m (dset t r ml) (x_log x)), Ok tt)
    | Some old =>
        match iadd_ (u_d (deref (x_heap x) old)) (u_d (deref (x_heap x) r)) with
        | Err e => (x, Err e)
        | Ok new =>
            match old with
            | Own u => (with_log x (dset m (dset t (Own (UT new (u_req u) (u_leaf u))) ml) (x_log x)), Ok tt)
            | Ref i => let u := uget (x_heap x) i in
                       (with_heap x (dset i (UT new (u_req u) (u_leaf u)) (x_heap x)), Ok tt)
            end
        end
    end.

  Definition on_state (f : binfo -> bool -> SM lstate unit) : SM lx unit := fun x =>
    let (s', o) := f (binfo_of x) (x_offload x) (x_state x) in (with_state x s', o).
  Definition data_of (x : lx) (d : option lref) : option dten :=
    match d with Some r => Some (u_d (deref (x_heap x) r)) | None => None end.
  (** [plugin.update(state, binfo, module, module_name, log_type, data, cpu_offload)] *)
  Definition run_plugin (p : plugin) (module : option mkind) (m t : string) (d : option lref) : SM lx unit := fun x =>
    match p with
    | PLog => match d with Some r => log_put m t r x | None => (x, Err TypeError) end
    | PMean => on_state (fun b off => mean_update b module m t (data_of x d) off) x
    | PVariance => on_state (fun b off => variance_update b module m t (data_of x d) off) x
    | PCovariance => on_state (fun b off => covariance_update b module m t (data_of x d) off) x
    | PCorrectedEigval => on_state (fun b off => corrected_eigval_update eigh b m (data_of x d) off) x
    end.

  (** ---- logger.py ---- *)
  (** the views [buffer_write] creates for one sample, until a row cannot be taken (log_saver.py:46-53) *)
  Definition log_refs (l : blog) : list (string * (string * lref)) := concat (map (fun p => map (pair (fst p)) (snd p)) l).
  Definition row_read (k : nat) (d : dten) : res array := let* row := tensor_row (enc d) k in to_numpy row.
  Fixpoint row_views (h : heap) (l : list (string * (string * lref))) (i : did) (k : nat) : list view * bool :=
    match l with
    | [] => ([], true)
    | (m, (t, r)) :: q =>
        match row_read k (u_d (deref h r)) with
        | Err _ => ([], false)
        | Ok _ =>
            let (vs, b) := row_views h q i k in
            (match r with
             | Own u => if dev_eqb (fst (u_d u)) Cpu then View i m t (row_read k) :: vs else vs
             | Ref _ => vs
             end, b)
        end
    end.
  (** log_saver.py:55-56 *)
  Fixpoint batch_views (h : heap) (l : list (string * (string * lref))) (ids : list did) (k : nat) : list view :=
    match ids with
    | [] => []
    | i :: r => let (vs, b) := row_views h l i k in vs ++ (if b then batch_views h l r (S k) else [])
    end.
  (** a row put again replaces the earlier one *)
  Definition same_row (v w : view) : bool := did_eqb (v_id v) (v_id w) && (String.eqb (v_mod v) (v_mod w) && String.eqb (v_typ v) (v_typ w)).
  Definition add_view (vs : list view) (v : view) : list view := filter (fun w => negb (same_row v w)) vs ++ [v].
  (** an emptied buffer has no views *)
  Definition views_left (s : saver) (vs : list view) : list view := match s_buffer s with [] => [] | _ => vs end.
  (** logger.py:76-79 [save_log]; an unset data_id cannot be enumerated *)
  Definition lx_save_log : SM lx unit := fun x =>
    match x_ids x with
    | None => (x, Err TypeError)
    | Some ids => let '(d', s', o) := save_log (x_dir x) (settle x) ids (log_nd enc (x_heap x) (x_log x)) in
                  (with_views (with_store x s' d' (x_disk x))
                     (views_left s' (fold_left add_view (batch_views (x_heap x) (log_refs (x_log x)) ids 0) (x_views x))), o)
    end.
  (** logger.py:81-101 *)
  Definition update (save : bool) : SM lx unit :=
    let! x := sget in
    seach (fun p => let! x := sget in
                    seach (fun m => run_plugin p None m "grad" None) (dkeys (x_log x)))
          (skipn 1 (o_grad (x_opt x))) ;;
    (if save then lx_save_log else sret tt).
  (** logger.py:59-74 (the returned copy is dropped by logix.py:242) *)
  Definition logger_log (ids : list did) (mask : option dten) : SM lx unit :=
    binfo_clear ;;
    (fun x => (with_batch x (Some ids) mask (x_log x), Ok tt)) ;;
    update false.

  (** [a * m] with broadcasting of sizes 1; equal ranks *)
  Definition bmul (a m : dten) : res dten :=
    if dev_eqb (fst a) (fst m) then
      let* sh := bshape (shape (snd a)) (shape (snd m)) in
      Ok (fst a, tgen sh (fun i => fmul (tget (snd a) (bclip (shape (snd a)) i)) (tget (snd m) (bclip (shape (snd m)) i))))
    else Err RuntimeError.
  (** [shape[-1]], [shape[-2]] *)
  Definition size_m1 (t : tensor) : res nat := match rev (shape t) with n :: _ => Ok n | [] => Err IndexError end.
  Definition size_m2 (t : tensor) : res nat := match rev (shape t) with _ :: n :: _ => Ok n | _ => Err IndexError end.
  Definition unsqueeze_last (m : dten) : dten := (fst m, T (shape (snd m) ++ [1]) (data (snd m))).
  (** logger.py:121-130: [None] when the mask is not applied *)
  Definition apply_mask (mask act : dten) : res (option dten) :=
    if negb (length (shape (snd mask)) =? length (shape (snd act))) then
      if S (length (shape (snd mask))) =? length (shape (snd act)) then
        let* a := size_m1 (snd mask) in
        let* b := size_m2 (snd act) in
        if a =? b then let* r := bmul act (unsqueeze_last mask) in Ok (Some r) else Ok None
      else Err AssertionError
    else
      let* a := size_m1 (snd mask) in
      let* b := size_m1 (snd act) in
      if a =? b then let* r := bmul act mask in Ok (Some r) else Ok None.
  (** logger.py:103-143. [gm]: autograd is recording. The configured dtype is None; for others see ModelDtype.v. *)
  Definition forward_hook (gm : bool) (m : mid) (name : string) (inputs : list tid) : SM lx unit := fun x =>
    match inputs with
    | [t] =>
        let u := uget (x_heap x) t in
        (let! act := lift (match x_mask x with
                           | None => Ok (Ref t)
                           | Some mk => let* r := apply_mask mk (u_d u) in
                                        Ok (match r with
                                            | None => Ref t
                                            | Some d => Own (UT d (gm && u_req u) (negb (gm && u_req u)))
                                            end)
                           end) in
         seach (fun p => run_plugin p (Some (kind m)) name "forward" (Some act)) (o_forward (x_opt x))) x
    | _ => (x, Err AssertionError)
    end.
  (** logger.py:145-177 *)
  Definition backward_hook (m : mid) (name : string) (grad_outputs : list tid) : SM lx unit := fun x =>
    match grad_outputs with
    | [g] => seach (fun p => run_plugin p (Some (kind m)) name "backward" (Some (Ref g))) (o_backward (x_opt x)) x
    | _ => (x, Err AssertionError)
    end.
  (** What a module call returns: a tensor, another object, or an exception of its own. *)
  Inductive outcome := OutTensor (t : tid) (u : uten) | OutOther | OutRaise (e : exn).
  (** [Tensor.register_hook]: only tensors that require gradients; the handle is appended to [tensor_hooks] *)
  Definition register_tensor_hook (u : uten) (h : hook) : SM lx unit := fun x =>
    if u_req u
    then (with_hooks x (x_fh x) (x_bh x) (x_gh x) (x_th x ++ [h]) (x_reg x ++ [h]), Ok tt)
    else (x, Err RuntimeError).
  (** logger.py:179-222, the forward hook *)
  Definition grad_hook (m : mid) (name : string) (inputs : list tid) (out : outcome) : SM lx unit :=
    match inputs with
    | [i] => match out with
             | OutTensor o u => register_tensor_hook u (HGradT o m name i)
             | _ => sfail AttributeError
             end
    | _ => sfail AssertionError
    end.
  (** logger.py:202-219, the tensor hook. Backward passes do not record (no create_graph), so the gradient is computed outside the graph. *)
  Definition grad_tensor_hook (m : mid) (name : string) (inp g : tid) : SM lx unit := fun x =>
    match o_grad (x_opt x) with
    | [] => (x, Ok tt)
    | p :: _ =>
        if plugin_eqb p PLog then
          let a := u_d (uget (x_heap x) inp) in
          let b := u_d (uget (x_heap x) g) in
          (let! psg := lift (if dev_eqb (fst a) (fst b) then compute_per_sample_gradient (snd a) (snd b) (kind m) else Err RuntimeError) in
           seach (fun p => run_plugin p (Some (kind m)) name "grad" (Some (Own (UT (fst a, psg) false true))))
                 (firstn 1 (o_grad (x_opt x)))) x
        else (x, Err AssertionError)
    end.
  (** logger.py:224-247 and 249-272 *)
  Definition tensor_forward_hook (t : tid) (name : string) : SM lx unit := fun x =>
    seach (fun p => run_plugin p None name "forward" (Some (Ref t))) (o_forward (x_opt x)) x.
  (** logger.py:249-272 *)
  Definition tensor_backward_hook (name : string) (g : tid) : SM lx unit := fun x =>
    seach (fun p => run_plugin p None name "backward" (Some (Ref g))) (o_backward (x_opt x)) x.
  (** logger.py:274-294 *)
  Definition register_all_module_hooks : SM lx unit :=
    let! x := sget in
    seach (fun m => fun x =>
      match dget m (x_names x) with
      | None => (x, Err KeyError)
      | Some n => (with_hooks x (x_fh x ++ [HPre m n]) (x_bh x ++ [HBack m n]) (x_gh x ++ [HFwd m n]) (x_th x)
                     (x_reg x ++ [HPre m n; HBack m n; HFwd m n]), Ok tt)
      end) (x_mods x).
  (** logger.py:296-308 *)
  Definition register_all_tensor_hooks (ts : list (string * tid)) : SM lx unit :=
    seach (fun p => tensor_forward_hook (snd p) (fst p) ;;
                    let! x := sget in
                    register_tensor_hook (uget (x_heap x) (snd p)) (HActT (snd p) (fst p))) ts.
  (** logger.py:310-319 *)
  Definition add_module (name : string) (m : mid) : SM lx unit := fun x =>
    (with_mods x (x_mods x ++ [m]) (dset m name (x_names x)), Ok tt).
  (** logger.py:336-365 *)
  Definition clear_hooks : SM lx unit := fun x =>
    (with_hooks x [] [] [] [] (hooks_remove (x_fh x ++ x_bh x ++ x_gh x ++ x_th x) (x_reg x)), Ok tt).
  (** logger.py:336-365 *)
  Definition logger_clear (hook module buffer : bool) : SM lx unit :=
    (if hook then clear_hooks else sret tt) ;;
    (if module then fun x => (with_mods x [] [], Ok tt) else sret tt) ;;
    (if buffer then fun x => (with_views (with_store x (buffer_clear (x_saver x)) (x_dir x) (x_disk x)) [], Ok tt) else sret tt).

  (** ---- logix.py ---- *)
  (** logix.py:124-148 for the modules that pass the filters, in traversal order (see ModelModules.v);
      utils.py:106-113 [get_repr_dim]. The LogSaver holds the [model_module] dictionary it was created with (log_saver.py:27). *)
  Definition watch (ms : list (string * mid)) : SM lx unit :=
    seach (fun p => add_module (fst p) (snd p)) ms ;;
    let! x := sget in
    let paths := map (fun p => (snd p, "grad"%string)) (x_names x) in
    let dims := map (fun p => wsize (fst p)) (x_names x) in
    match dims with
    | [] => sfail TypeError
    | _ =>
        (fun x => let (s', o) := (set_state "model_module" "path" (VPath paths) ;;
                                  set_state "model_module" "path_dim" (VDims dims)) (x_state x) in
                  (with_state x s', o)) ;;
        (fun x => let s := x_saver x in
                  (if x_shared x
                   then with_store x (Saver (s_rank s) (s_workers s) (s_threshold s) (map (fun p => [fst p; snd p]) paths)
                                        (s_count s) (s_buffer s) (s_size s)) (x_dir x) (x_disk x)
                   else x, Ok tt))
    end.
  (** logix.py:150-160 *)
  Definition watch_activation := register_all_tensor_hooks.
  (** logix.py:232-242 *)
  Definition lx_log (ids : list did) (mask : option dten) : SM lx unit := logger_log ids mask.
  (** logix.py:244-264 *)
  Definition lx_call (ids : list did) (mask : option dten) (save : bool) : SM lx unit :=
    binfo_clear ;;
    (fun x => (with_saves (with_batch x (Some ids) mask (x_log x)) (x_save x) save, Ok tt)).
  (** logix.py:266-276 *)
  Definition lx_enter : SM lx unit := logger_clear true false false ;; register_all_module_hooks.
  (** logix.py:278-285 *)
  Definition lx_exit : SM lx unit := let! x := sget in update (x_save_batch x || x_save x).
  (** logix.py:287-306 *)
  Definition lx_start (ids : list did) (mask : option dten) : SM lx unit :=
    binfo_clear ;;
    (fun x => (with_batch x (Some ids) mask (x_log x), Ok tt)) ;;
    logger_clear true false false ;; register_all_module_hooks.
  (** logix.py:308-313 *)
  Definition lx_end (save : bool) : SM lx unit := let! x := sget in update (save || x_save x).
  (** logix.py:537-544 *)
  Definition lx_setup (kw : okwargs) : SM lx unit := fun x =>
    let '(o, _, r) := opt_setup kw in (with_opt x o, r).
  (** logix.py:546-556 *)
  Definition lx_save (enable : bool) : SM lx unit := fun x => (with_saves x enable (x_save_batch x), Ok tt).
  (** logix.py:552-556 *)
  Definition lx_eval : SM lx unit := lx_save false.
  (** logix.py:558-563 *)
  Definition lx_clear : SM lx unit :=
    (fun x => let (s', o) := state_clear (x_state x) in (with_state x s', o)) ;;
    logger_clear true true true.
  (** logix.py:522-532; the configuration file is written by [lm_finalize] (ModelLora.v) *)
  Definition lx_finalize : SM lx unit :=
    (fun x => match finalize (x_disk x) (x_state x) with
              | (s', Ok dk) => (with_store (with_state x s') (x_saver x) (x_dir x) dk, Ok tt)
              | (s', Err e) => (with_state x s', Err e)
              end) ;;
    (fun x => let '(d', sv, o) := saver_finalize (x_dir x) (settle x) in
              (with_views (with_store x sv d' (x_disk x)) (views_left sv (x_views x)), o)).
  (** logix.py:519-520, state.py:243-255: the state part of initialize_from_log. Loading replaces the dictionaries of the
      LogState; the LogSaver keeps the one it has. *)
  Fixpoint take_while {A} (f : A -> bool) (l : list A) : list A := match l with [] => [] | a :: r => if f a then a :: take_while f r else [] end.
  Definition replaced (dk : @sdisk F) : list string :=
    match d_others dk with None => [] | Some (_, sv, _) => take_while (fun a => dmem a (d_states dk)) sv end.
  (** logix.py:519-520, state.py:243-255 *)
  Definition lx_load_from (dk : @sdisk F) : SM lx unit := fun x =>
    let (s', r) := load_state dk (x_state x) in
    (with_shared (with_state x s') (x_shared x && negb (mem "model_module"%string (replaced dk))), r).
  Definition lx_load : SM lx unit := fun x => lx_load_from (x_disk x) x.
  (** logix.py:365-378. Without a copy the caller gets the log object itself. deepcopy refuses tensors that require
      gradients and are not leaves. *)
  Inductive got := GView (ids : option (list did)) | GCopy (ids : option (list did)) (l : nd dten).
  Definition blog_vals (l : blog) : list lref := concat (map (fun p => map snd (snd p)) l).
  Definition copyable (h : heap) (r : lref) : bool := let u := deref h r in negb (u_req u && negb (u_leaf u)).
  (** logix.py:365-378 *)
  Definition lx_get_log (copy : bool) : SM lx got := fun x =>
    if copy then
      (x, if forallb (copyable (x_heap x)) (blog_vals (x_log x))
          then Ok (GCopy (x_ids x) (log_nd (fun d => d) (x_heap x) (x_log x))) else Err RuntimeError)
    else (x, Ok (GView (x_ids x))).
  (** what the caller reads from the result later, in state [x] *)
  Definition read_got (x : lx) (g : got) : option (list did) * nd dten :=
    match g with
    | GView ids => (ids, log_nd (fun d => d) (x_heap x) (x_log x))
    | GCopy ids l => (ids, l)
    end.

  (** ---- what the program does between the library calls ---- *)
  (** [MTensor t u]: a tensor is created or overwritten. [MCall c m ins out gm]: a module is called; torch's
      Module._call_impl captures the full backward hooks first, runs the forward-pre hooks, the module, and the
      forward hooks. [MGrad t g]: the backward pass delivers gradient [g] to the tensor hooks of [t] that are
      registered then. [MBack c gs]: the backward pass runs the full backward hooks captured by call [c]. *)
  Inductive ev :=
  | MTensor (t : tid) (u : uten)
  | MCall (c : nat) (m : mid) (ins : list tid) (out : outcome) (gm : bool)
  | MGrad (t g : tid)
  | MBack (c : nat) (gs : list tid)
  | MRaise (e : exn).
  Definition pre_of (m : mid) (l : list hook) : list string :=
    concat (map (fun h => match h with HPre m' n => if m =? m' then [n] else [] | _ => [] end) l).
  Definition fwd_of (m : mid) (l : list hook) : list string :=
    concat (map (fun h => match h with HFwd m' n => if m =? m' then [n] else [] | _ => [] end) l).
  Definition back_of (m : mid) (l : list hook) : list hook :=
    filter (fun h => match h with HBack m' _ => m =? m' | _ => false end) l.
  Definition on_tensor (t : tid) (l : list hook) : list hook :=
    filter (fun h => match h with HGradT o _ _ _ => t =? o | HActT o _ => t =? o | _ => false end) l.
  Definition run_ev (e : ev) : SM lx unit :=
    match e with
    | MTensor t u => fun x => (with_heap x (dset t u (x_heap x)), Ok tt)
    | MCall c m ins out gm =>
        (fun x => (with_calls x (dset c (back_of m (x_reg x)) (x_calls x)), Ok tt)) ;;
        let! x := sget in
        seach (fun n => forward_hook gm m n ins) (pre_of m (x_reg x)) ;;
        match out with
        | OutRaise e => sfail e
        | OutOther => let! x := sget in seach (fun n => grad_hook m n ins out) (fwd_of m (x_reg x))
        | OutTensor t u =>
            (fun x => (with_heap x (dset t u (x_heap x)), Ok tt)) ;;
            let! x := sget in
            seach (fun n => grad_hook m n ins out) (fwd_of m (x_reg x))
        end
    | MGrad t g =>
        let! x := sget in
        seach (fun h => match h with
                        | HGradT _ m n i => grad_tensor_hook m n i g
                        | HActT _ n => tensor_backward_hook n g
                        | _ => sret tt
                        end) (on_tensor t (x_reg x))
    | MBack c gs =>
        let! x := sget in
        seach (fun h => match h with HBack m n => backward_hook m n gs | _ => sret tt end)
              (match dget c (x_calls x) with Some l => l | None => [] end)
    | MRaise e => sfail e
    end.
  Definition run_evs (es : list ev) : SM lx unit := seach run_ev es.

  (** [with logix(data_id=ids, mask=mask, save=save): body]: logix.py:244-285 with Python's with-statement: [__exit__]
      also runs when the body raises, and its own exception replaces the body's *)
  Definition with_block (ids : list did) (mask : option dten) (save : bool) (body : SM lx unit) : SM lx unit :=
    lx_call ids mask save ;; lx_enter ;;
    fun x => match body x with
             | (x', Ok _) => lx_exit x'
             | (x', Err e) => match lx_exit x' with (x'', Ok _) => (x'', Err e) | (x'', Err e') => (x'', Err e') end
             end.

  (** The public operations, for arbitrary programs; an exception is caught by the program and what was done
      before it stays. *)
  Inductive op :=
  | XWatch (ms : list (string * mid)) | XWatchAct (ts : list (string * tid))
  | XCall (ids : list did) (mask : option dten) (save : bool) | XEnter | XExit
  | XStart (ids : list did) (mask : option dten) | XEnd (save : bool)
  | XLog (ids : list did) (mask : option dten) | XSetup (kw : okwargs)
  | XSave (enable : bool) | XEval | XClear | XFinalize | XLoad | XEv (e : ev).
  Definition run_op (o : op) : SM lx unit :=
    match o with
    | XWatch ms => watch ms
    | XWatchAct ts => watch_activation ts
    | XCall ids mask save => lx_call ids mask save
    | XEnter => lx_enter
    | XExit => lx_exit
    | XStart ids mask => lx_start ids mask
    | XEnd save => lx_end save
    | XLog ids mask => lx_log ids mask
    | XSetup kw => lx_setup kw
    | XSave b => lx_save b
    | XEval => lx_eval
    | XClear => lx_clear
    | XFinalize => lx_finalize
    | XLoad => lx_load
    | XEv e => run_ev e
    end.
  Definition run_ops (os : list op) (x : lx) : lx := fold_left (fun x o => fst (run_op o x)) os x.
End Logger.
