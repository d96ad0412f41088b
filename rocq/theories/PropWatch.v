(** C85, C86: which logs can be copied; watch() on module trees (logix/logging/logger.py, logix/logix.py). *)
From Coq Require Import ZArith QArith Qcanon.
From Verif Require Import Py PyStr Field Tensor ModelGrad Monad ModelState ModelMmap ModelSaver ModelLogger ModelModules ModelLora SpecGrad SpecState SpecLogger SpecLora SpecWatch CopyProofs WatchProofs3 ExNum ExState ExLogger ExLora.
Local Open Scope string_scope.
Local Open Scope list_scope.
Local Open Scope nat_scope.

(** C85. Which logs get_log(copy=True) can copy. *)
(** If only gradients are logged the copy always succeeds, whatever happened in the batch, an exception included. *)
Theorem C85_gradients {F} `{OField F} (kind : mid -> mkind) (wsize : mid -> nat) (eigh : tensor F -> res (tensor F * tensor F)) (enc : @dten F -> array) ids mask es (x x1 x2 : @lx F) r :
  reachable kind wsize eigh enc x -> begins ids mask x x1 ->
  ~ In PLog (o_forward (x_opt x)) -> ~ In PLog (o_backward (x_opt x)) -> run_evs kind eigh es x1 = (x2, r) ->
  lx_get_log true x2 = (x2, Ok (GCopy (Some ids) (log_nd (fun d => d) (x_heap x2) (x_log x2)))).
Proof. exact (batch_copy kind wsize eigh enc ids mask es x x1 x2 r). Qed.
Print Assumptions C85_gradients.
(** No logged gradient is attached to the autograd graph or shared with the program, in any state. *)
Theorem C85_detached {F} `{OField F} (kind : mid -> mkind) (wsize : mid -> nat) (eigh : tensor F -> res (tensor F * tensor F)) (enc : @dten F -> array) (x : @lx F) n l r :
  reachable kind wsize eigh enc x -> dget n (x_log x) = Some l -> dget "grad" l = Some r -> exists d, r = Own (UT d false true).
Proof. exact (grad_detached kind wsize eigh enc x n l r). Qed.
Print Assumptions C85_detached.
(** Logging the input of a call destroys copyability exactly if the mask was applied and the result is recorded by autograd, or it was not applied and the input itself is attached to the graph. *)
Theorem C85_forward {F} `{OField F} (kind : mid -> mkind) (eigh : tensor F -> res (tensor F * tensor F)) ps gm m n i (x x' : @lx F) :
  o_forward (x_opt x) = PLog :: ps -> ~ In PLog ps ->
  (forall l, dget n (x_log x) = Some l -> dget "forward" l = None) ->
  forward_hook kind eigh gm m n [i] x = (x', Ok tt) ->
  ((exists g, lx_get_log true x' = (x', Ok g)) <->
   (exists g, lx_get_log true x = (x, Ok g)) /\
   ~ match x_mask x with
     | Some mk => match apply_mask mk (mem_get (x_heap x) i) with
                  | Ok (Some _) => gm = true /\ u_req (uget (x_heap x) i) = true
                  | _ => u_req (uget (x_heap x) i) = true /\ u_leaf (uget (x_heap x) i) = false
                  end
     | None => u_req (uget (x_heap x) i) = true /\ u_leaf (uget (x_heap x) i) = false
     end).
Proof. exact (forward_copy kind (fun _ => 0) eigh (fun _ => Arr [] F32 []) ps gm m n i x x'). Qed.
Print Assumptions C85_forward.
Theorem C85_backward {F} `{OField F} (kind : mid -> mkind) (eigh : tensor F -> res (tensor F * tensor F)) ps m n g (x x' : @lx F) :
  o_backward (x_opt x) = PLog :: ps -> ~ In PLog ps ->
  (forall l, dget n (x_log x) = Some l -> dget "backward" l = None) ->
  backward_hook kind eigh m n [g] x = (x', Ok tt) ->
  ((exists c, lx_get_log true x' = (x', Ok c)) <->
   (exists c, lx_get_log true x = (x, Ok c)) /\ ~ (u_req (uget (x_heap x) g) = true /\ u_leaf (uget (x_heap x) g) = false)).
Proof. exact (backward_copy kind eigh ps m n g x x'). Qed.
Print Assumptions C85_backward.
(** A gradient log after an exception; an attached and a detached input; a masked leaf with and without autograd. *)
Example C85_example :
  let x := lrun (watched kgrad) lnew in let x1 := lrun [XStart [DStr "a"; DStr "b"] None] x in
  let y u gm mask := lrun (watched [("forward", [AStr "log"; AStr "mean"])] ++ [XStart [DStr "a"] mask; XEv (MTensor 1 u)]) lnew in
  let z u gm mask := forward_hook lk ex_eigh gm 0 "fc" [1] (y u gm mask) in
  let copies s := match snd (lx_get_log true s) with Ok _ => true | Err _ => false end in
  let leaf := UT (Cpu, zt [1; 2] [1; 2]%Z) true true in let att := UT (Cpu, zt [1; 2] [1; 2]%Z) true false in
  let mk := Some (Cpu, zt [1; 2] [1; 0]%Z) in
  reachable lk lw ex_eigh lenc x /\ begins [DStr "a"; DStr "b"] None x x1 /\ o_forward (x_opt x) = [] /\ o_backward (x_opt x) = [] /\
  (let (x2, r) := run_evs lk ex_eigh (les ++ lback ++ [MRaise ValueError]) x1 in r = Err ValueError /\ logged x2 "fc" "grad" <> None /\ copies x2 = true) /\
  o_forward (x_opt (y leaf true None)) = [PLog; PMean] /\ x_log (y leaf true None) = [] /\
  map (fun u => snd (z u true None)) [leaf; att] = [Ok tt; Ok tt] /\ map (fun u => copies (fst (z u true None))) [leaf; att] = [true; false] /\
  map (fun gm => snd (z leaf gm mk)) [true; false] = [Ok tt; Ok tt] /\ map (fun gm => copies (fst (z leaf gm mk))) [true; false] = [false; true].
Proof.
  cbv zeta. split; [apply lreach|]. split; [left; vm_compute; reflexivity|]. do 2 (split; [vm_compute; reflexivity|]).
  split; [vm_compute; repeat split; discriminate|]. repeat split; vm_compute; reflexivity.
Qed.

(** C86. What watch() tracks and what it freezes. *)
(** Whatever the outcome: the model and the filters are remembered, exactly the layers to be tracked are added, names given by earlier calls stay unless the module is named again, and the parameters of all other leaves are frozen. *)
Theorem C86_watch {F} `{OField F} root tf nf n (s s' : @lm F) o :
  tree_ok root n -> lm_watch root tf nf s = (s', o) ->
  let tf' := chosen tf (lm_tf s) in let nf' := chosen nf (lm_nf s) in
  lm_root s' = Some root /\ lm_tf s' = tf' /\ lm_nf s' = nf' /\ lm_w s' = lm_w s /\
  (exists l, x_mods (lm_x s') = x_mods (lm_x s) ++ map (fun i => t_id (i_mod i)) l /\ NoDup (map (fun i => t_id (i_mod i)) l) /\ forall i, In i l <-> to_track tf' nf' root i) /\
  (forall m name, dget m (x_names (lm_x s')) = Some name <->
     (exists i, to_track tf' nf' root i /\ t_id (i_mod i) = m /\ i_name i = name) \/
     ((forall i, to_track tf' nf' root i -> t_id (i_mod i) <> m) /\ dget m (x_names (lm_x s)) = Some name)) /\
  (forall p, In p (lm_frozen s') <-> In p (lm_frozen s) \/
     exists i, In i (named_modules root) /\ t_kids (i_mod i) = [] /\ In p (t_params (i_mod i)) /\ ~ to_track tf' nf' root i).
Proof. exact (watch_tree root tf nf n s s' o). Qed.
Print Assumptions C86_watch.
Theorem C86_watch_ok {F} `{OField F} root tf nf (s : @lm F) d :
  mem "model_module" (st_states (x_state (lm_x s))) = true -> dget "model_module" (attrs (x_state (lm_x s))) = Some (Node d) ->
  (exists i, to_track (chosen tf (lm_tf s)) (chosen nf (lm_nf s)) root i) \/ x_names (lm_x s) <> [] ->
  exists s', lm_watch root tf nf s = (s', Ok tt).
Proof. exact (watch_ok root tf nf s d). Qed.
Print Assumptions C86_watch_ok.
(** Nothing to track: TypeError, after everything has been frozen. *)
Theorem C86_watch_nothing {F} `{OField F} root tf nf (s : @lm F) d :
  mem "model_module" (st_states (x_state (lm_x s))) = true -> dget "model_module" (attrs (x_state (lm_x s))) = Some (Node d) ->
  (forall i, ~ to_track (chosen tf (lm_tf s)) (chosen nf (lm_nf s)) root i) -> x_names (lm_x s) = [] ->
  exists s', lm_watch root tf nf s = (s', Err TypeError) /\ lm_x s' = lm_x s.
Proof. exact (watch_nothing root tf nf s d). Qed.
Print Assumptions C86_watch_nothing.
(** A layer that only a second call selects is tracked, but its parameters stay frozen. *)
Theorem C86_watch_again {F} `{OField F} root tf nf tf2 nf2 n (s s1 s2 : @lm F) o1 o2 i p :
  tree_ok root n -> lm_watch root tf nf s = (s1, o1) -> lm_watch root tf2 nf2 s1 = (s2, o2) ->
  let tf1 := chosen tf (lm_tf s) in let nf1 := chosen nf (lm_nf s) in
  to_track (chosen tf2 tf1) (chosen nf2 nf1) root i -> ~ to_track tf1 nf1 root i -> In p (t_params (i_mod i)) ->
  dget (t_id (i_mod i)) (x_names (lm_x s2)) = Some (i_name i) /\ In p (lm_frozen s2).
Proof. exact (watch_again root tf nf tf2 nf2 n s s1 s2 o1 o2 i p). Qed.
Print Assumptions C86_watch_again.
(** Without a watched model add_lora and save_lora raise; so does saving a model that contains itself. *)
Theorem C86_add_lora_first {F} `{OField F} (rnd : mid -> list nat -> F) (svd : tensor F -> res (tensor F)) watch clear tf nf path cfg (s : @lm F) :
  lm_root s = None ->
  exists s', lm_add_lora rnd svd watch clear tf nf path cfg s = (s', Err AttributeError) /\ lm_root s' = None /\ lm_x s' = lm_x s /\ lm_w s' = lm_w s /\ lm_file s' = lm_file s.
Proof. exact (add_lora_no_model rnd svd watch clear tf nf path cfg s). Qed.
Print Assumptions C86_add_lora_first.
Theorem C86_save_lora_first {F} `{OField F} (s : @lm F) : lm_root s = None -> save_lora s = (s, Err AttributeError).
Proof. exact (save_lora_no_model s). Qed.
Print Assumptions C86_save_lora_first.
Theorem C86_save_lora_cycle {F} `{OField F} (s : @lm F) root u : lm_root s = Some root -> inside u root -> t_id u = t_id root -> save_lora s = (s, Err RuntimeError).
Proof. exact (save_lora_cycle s root u). Qed.
Print Assumptions C86_save_lora_cycle.
(** Both layers; one by name, then the other: it stays frozen; no such name; after add_lora; a bare layer after the failed add_lora. *)
Example C86_example :
  let run nf s := lm_watch lroot None nf s in let s1 := fst (run (Some ["fc1"]) ls0) in let s2 := fst (run (Some ["fc2"]) s1) in
  tree_ok lroot 5 /\ mem "model_module" (st_states (x_state (lm_x ls0))) = true /\ dget "model_module" (attrs (x_state (lm_x ls0))) = Some (Node []) /\ x_names (lm_x ls0) = [] /\
  (let (s, o) := run None ls0 in o = Ok tt /\ x_names (lm_x s) = [(1, "fc1"); (3, "fc2")] /\ lm_frozen s = []) /\
  snd (run (Some ["fc1"]) ls0) = Ok tt /\ x_mods (lm_x s1) = [1] /\ lm_frozen s1 = [3] /\ lm_nf s1 = Some ["fc1"] /\
  to_track None (Some ["fc2"]) lroot (it lroot 3) /\ ~ to_track None (Some ["fc1"]) lroot (it lroot 3) /\
  snd (run (Some ["fc2"]) s1) = Ok tt /\ x_names (lm_x s2) = [(1, "fc1"); (3, "fc2")] /\ lm_frozen s2 = [3; 1; 4] /\
  (let (s, o) := run (Some ["conv"]) ls0 in o = Err TypeError /\ lm_frozen s = [1; 4; 3]) /\
  (let (s, o) := lm_watch lroot1 None None ls0 in o = Ok tt /\ x_names (lm_x s) = [(6, "fc1.logix_lora_B"); (10, "fc2.logix_lora_B")] /\ lm_frozen s = [5; 7; 1; 4; 9; 11; 3]) /\
  (let s := fst (ladd true false None None None bs0) in exists root u, lm_root s = Some root /\ inside u root /\ t_id u = t_id root /\ snd (save_lora s) = Err RuntimeError) /\
  snd (ladd true true None None None (LM (@lx_init Qc 0 100 false) None 0 [] [] None None (lcfg "random" 2 false None) None None None)) = Err AttributeError.
Proof.
  cbv zeta. split; [apply tree_okb_ok; reflexivity|]. do 3 (split; [reflexivity|]). split; [vm_compute; repeat split|]. do 4 (split; [vm_compute; reflexivity|]).
  split; [split; [apply sel_it; reflexivity|intros (j & Hj & Sj); exfalso; revert Hj; vm_compute; intros [E|[E|[E|[E|[]]]]]; subst j; revert Sj; apply no_sub; reflexivity]|].
  split; [intros [[_ (_ & _ & k & [<-|[]] & Sk)] _]; revert Sk; apply no_sub; reflexivity|].
  do 3 (split; [vm_compute; reflexivity|]). do 2 (split; [vm_compute; repeat split|]).
  split; [|vm_compute; reflexivity].
  eexists. eexists. split; [vm_compute; reflexivity|]. split; [eexists; eexists; split; [left; reflexivity|]; eapply below_kid; [right; right; right; left; reflexivity|apply below_refl]|]. split; [reflexivity|vm_compute; reflexivity].
Qed.
