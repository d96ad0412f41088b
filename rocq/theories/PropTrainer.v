(** C69-C73: the Hugging Face trainer (logix/huggingface). *)
From Coq Require Import ZArith QArith Qcanon.
From Verif Require Import Py PyStr Field Tensor ModelGrad Monad ModelState ModelMmap ModelSaver ModelLoader ModelLogger ModelModules ModelLora ModelScheduler ModelInfluence ModelUtils ModelTrainer SpecGrad SpecState SpecInfluence SpecRows SpecTrainer TrainProofs4 TrainProofs5 ExNum ExState ExInfluence ExLogger ExLora ExRows ExTrainer.
Local Open Scope string_scope.
Local Open Scope list_scope.
Local Open Scope nat_scope.

(** C69. An influence run, whatever the steps and micro-batches. *)
Theorem C69_influence {F} `{OField F} (rnd : mid -> list nat -> F) (svd : tensor F -> res (tensor F)) (kind : mid -> mkind) (eigh : tensor F -> res (tensor F * tensor F)) (inverse : tensor F -> res (tensor F)) (fsqrt : F -> F)
    (enc : @dten F -> array) (dec : array -> @dten F) (show : did -> string) (tok : option (data -> res (list string))) (hash : string -> string) a epochs (p p0 p2 : @tr F) loader ls x1 ks n sids (M : @tlog F) s' r :
  on_train_begin rnd svd a (tr_set_mode p "influence") = (p0, Ok tt) -> log_dataloader dec show a p0 = (p2, Ok loader) ->
  tr_scores p = None -> tr_acc p = [] -> plain_state (x_state (lm_x (tr_lm p0))) -> Forall (fun ms => ms <> []) (concat epochs) ->
  trained kind eigh enc show tok hash a (lm_x (tr_lm p0)) (concat (concat epochs)) ls x1 -> map as_nest ls = batches 0 ks sids M ->
  uniform n M -> ok_log M -> length sids = n -> splits ks n ->
  influence_all eigh inverse fsqrt (sids, Nest (log_nd M)) loader (ha_imode a) true "auto" (ha_groups a) (ha_damping a) (x_state (lm_x (tr_lm p0))) = (s', Ok (Some r)) ->
  exists p' o, influence rnd svd kind eigh inverse fsqrt enc dec show tok hash a epochs p = (p', Ok (Some o)) /\ tr_scores p' = Some o /\ saved (tr_ifn p') r /\ tr_acc p' = [] /\
    lm_x (tr_lm p') = with_state x1 s' /\ x_dir x1 = x_dir (lm_x (tr_lm p0)).
Proof. exact (influence_run rnd svd kind eigh inverse fsqrt enc dec show tok hash a epochs p p0 p2 loader ls x1 ks n sids M s' r). Qed.
Print Assumptions C69_influence.
(** Logs of three training samples on disk; four test samples in three micro-batches and two optimizer steps. *)
Example C69_example : on_train_begin lrnd lsvd targs (tr_set_mode t2 "influence") = (t3, Ok tt) /\ snd (log_dataloader tdec tshow_id targs t3) = Ok tload /\
  tr_scores t2 = None /\ tr_acc t2 = [] /\ plain_state (x_state tx3) /\ ttrained targs tx3 [tu; tv; tz] tlogs tx4 /\
  map as_nest tlogs = batches 0 [1; 2; 1] ["u"; "v"; "w"; "z"] tM /\ uniform 4 tM /\ ok_log tM /\ splits [1; 2; 1] 4 /\
  (let w := Ok (Some (["u"; "v"; "w"; "z"], ["a"; "b"; "c"], [("", ([4; 3], [5208 # 1867; 5568 # 1867; 5064 # 1867; 1048 # 1867; 88 # 1867; 1432 # 1867; 2456 # 1867; -1504 # 1867; 4040 # 1867; -180 # 1867; 840 # 1867; -588 # 1867]%Q))])) in
   oa (influence_all xeigh xinverse xsqrt (["u"; "v"; "w"; "z"], Nest (log_nd tM)) tload "dot" true "auto" None xd (x_state tx3)) = w /\
   Ok (tview (fst (tinfluence targs [[[tu; tv]; [tz]]] t2))) = w /\ Ok (tview (fst (tinfluence targs [[[tu]; [tv]]; [[tz]]] t2))) = w).
Proof.
  split; [apply t_pair; vm_compute; reflexivity|]. split; [vm_compute; reflexivity|]. split; [vm_compute; reflexivity|]. split; [vm_compute; reflexivity|]. split; [apply plain_ok; vm_compute; reflexivity|].
  split; [apply train_logs_ok; vm_compute; reflexivity|]. split; [vm_compute; reflexivity|]. split; [apply uniform_ok; vm_compute; reflexivity|]. split; [apply ok_b_ok; vm_compute; reflexivity|].
  split; [repeat split; [discriminate|repeat constructor; discriminate]|]. repeat split; vm_compute; reflexivity.
Qed.

(** C70. The other runs compute no score anybody can read. *)
Theorem C70_other_runs {F} `{OField F} (rnd : mid -> list nat -> F) (svd : tensor F -> res (tensor F)) (kind : mid -> mkind) (eigh : tensor F -> res (tensor F * tensor F)) (inverse : tensor F -> res (tensor F)) (fsqrt : F -> F)
    (enc : @dten F -> array) (dec : array -> @dten F) (show : did -> string) (tok : option (data -> res (list string))) (hash : string -> string) a epochs (p p' : @tr F) r :
  self_influence rnd svd kind eigh inverse fsqrt enc dec show tok hash a epochs p = (p', r) \/ extract_log rnd svd kind eigh inverse fsqrt enc dec show tok hash a epochs p = (p', r) -> same_results p p'.
Proof. exact (other_runs rnd svd kind eigh inverse fsqrt enc dec show tok hash a epochs p p' r). Qed.
Print Assumptions C70_other_runs.
(** The log directory is read once: later runs use the batches of the first one. *)
Theorem C70_loader_kept {F} `{OField F} (rnd : mid -> list nat -> F) (svd : tensor F -> res (tensor F)) (kind : mid -> mkind) (eigh : tensor F -> res (tensor F * tensor F)) (inverse : tensor F -> res (tensor F)) (fsqrt : F -> F)
    (enc : @dten F -> array) (dec : array -> @dten F) (show : did -> string) (tok : option (data -> res (list string))) (hash : string -> string) a epochs (p p' : @tr F) r l :
  tr_loader p = Some l -> influence rnd svd kind eigh inverse fsqrt enc dec show tok hash a epochs p = (p', r) -> tr_loader p' = Some l.
Proof. exact (loader_kept rnd svd kind eigh inverse fsqrt enc dec show tok hash a epochs p p' r l). Qed.
Print Assumptions C70_loader_kept.
Example C70_example : snd (tself targs [[[tu; tv]; [tz]]] t2) = Ok tt /\ tview (fst (tself targs [[[tu; tv]; [tz]]] t2)) = None /\
  tr_loader (fst (tinfluence targs [[[tu]]] t2)) = Some tload /\
  hasattr "covariance_inverse_state" (x_state (lm_x (tr_lm t2))) = false /\ hasattr "covariance_inverse_state" (x_state (lm_x (tr_lm (fst (tself targs [[[tu; tv]; [tz]]] t2))))) = true.
Proof. repeat split; vm_compute; reflexivity. Qed.

(** C71. A step scores all logs that are kept, and forgets them only if it succeeds. *)
Theorem C71_step {F} `{OField F} (kind : mid -> mkind) (eigh : tensor F -> res (tensor F * tensor F)) (inverse : tensor F -> res (tensor F)) (fsqrt : F -> F)
    (enc : @dten F -> array) (dec : array -> @dten F) (show : did -> string) (tok : option (data -> res (list string))) (hash : string -> string) a ms (p p2 : @tr F) ls x1 loader ids d f' r :
  ms <> [] -> tr_mode p = "influence" -> log_only (lm_x (tr_lm p)) -> x_save (lm_x (tr_lm p)) = false ->
  trained kind eigh enc show tok hash a (lm_x (tr_lm p)) ms ls x1 -> log_dataloader dec show a p = (p2, Ok loader) -> merge_kept (tr_acc p ++ map kept ls) = Ok (ids, d) ->
  compute_influence_all eigh inverse fsqrt (ids, Nest d) loader (ha_imode a) true true "auto" (ha_groups a) (ha_damping a) (tr_ifn p) = (f', r) ->
  exists p', do_step kind eigh inverse fsqrt enc dec show tok hash a ms p = (p', match r with Ok _ => Ok tt | Err e => Err e end) /\ tr_ifn p' = f' /\ lm_x (tr_lm p') = with_state x1 (if_state f') /\
    tr_acc p' = (match r with Ok _ => [] | Err _ => tr_acc p ++ map kept ls end) /\ tr_loader p' = Some loader /\ tr_mode p' = "influence".
Proof. exact (one_step kind eigh inverse fsqrt enc dec show tok hash a ms p p2 ls x1 loader ids d f' r). Qed.
Print Assumptions C71_step.
Theorem C71_unmerged {F} `{OField F} (kind : mid -> mkind) (eigh : tensor F -> res (tensor F * tensor F)) (inverse : tensor F -> res (tensor F)) (fsqrt : F -> F)
    (enc : @dten F -> array) (dec : array -> @dten F) (show : did -> string) (tok : option (data -> res (list string))) (hash : string -> string) a ms (p : @tr F) ls x1 e :
  ms <> [] -> tr_mode p = "influence" -> log_only (lm_x (tr_lm p)) -> trained kind eigh enc show tok hash a (lm_x (tr_lm p)) ms ls x1 ->
  merge_kept (tr_acc p ++ map kept ls) = Err e ->
  exists p', do_step kind eigh inverse fsqrt enc dec show tok hash a ms p = (p', Err e) /\ tr_ifn p' = tr_ifn p /\ tr_acc p' = tr_acc p ++ map kept ls /\ tr_loader p' = tr_loader p.
Proof. exact (one_step_unmerged kind eigh inverse fsqrt enc dec show tok hash a ms p ls x1 e). Qed.
Print Assumptions C71_unmerged.
(** A run with a misspelt mode fails in its first step; the next run scores that step's samples twice. *)
Example C71_example :
  let bad := tinfluence tbad [[[tu; tv]; [tz]]] t2 in
  snd bad = Err AssertionError /\ map fst (tr_acc (fst bad)) = [Some ["u"]; Some ["v"; "w"]] /\ tview (fst bad) = None /\
  option_map (fun v => fst (fst v)) (tview (fst (tinfluence targs [[[tu; tv]; [tz]]] (fst bad)))) = Some ["u"; "v"; "w"; "u"; "v"; "w"; "z"] /\
  option_map (fun v => fst (fst v)) (tview (fst (tinfluence targs [[[tu; tv]; [tz]]] t2))) = Some ["u"; "v"; "w"; "z"].
Proof. repeat split; vm_compute; reflexivity. Qed.

(** C72. The schedule is used up. *)
Theorem C72_consumes {F} `{OField F} (rnd : mid -> list nat -> F) (svd : tensor F -> res (tensor F)) (kind : mid -> mkind) (eigh : tensor F -> res (tensor F * tensor F)) (inverse : tensor F -> res (tensor F)) (fsqrt : F -> F)
    (enc : @dten F -> array) (dec : array -> @dten F) (show : did -> string) (tok : option (data -> res (list string))) (hash : string -> string) a epochs (p p' : @tr F) :
  extract_log rnd svd kind eigh inverse fsqrt enc dec show tok hash a epochs p = (p', Ok tt) -> epochs_left p = length epochs + epochs_left p'.
Proof. exact (extract_consumes rnd svd kind eigh inverse fsqrt enc dec show tok hash a epochs p p'). Qed.
Print Assumptions C72_consumes.
Theorem C72_exhausted {F} `{OField F} (rnd : mid -> list nat -> F) (svd : tensor F -> res (tensor F)) (kind : mid -> mkind) (eigh : tensor F -> res (tensor F * tensor F)) (inverse : tensor F -> res (tensor F)) (fsqrt : F -> F)
    (enc : @dten F -> array) (dec : array -> @dten F) (show : did -> string) (tok : option (data -> res (list string))) (hash : string -> string) a ss epochs (p p0 : @tr F) :
  epochs_left p = 0 -> on_train_begin rnd svd a (tr_set_mode p "log") = (p0, Ok tt) -> extract_log rnd svd kind eigh inverse fsqrt enc dec show tok hash a (ss :: epochs) p = (p0, Err StopIteration).
Proof. exact (extract_exhausted rnd svd kind eigh inverse fsqrt enc dec show tok hash a ss epochs p p0). Qed.
Print Assumptions C72_exhausted.
Example C72_example : epochs_left t1 = 1 /\ snd (textract targs [[[ta]; [tc]]] t1) = Ok tt /\ epochs_left t2 = 0 /\
  snd (textract targs [[[ta]; [tc]]] t2) = Err StopIteration /\ x_dir (lm_x (tr_lm (fst (textract targs [[[ta]; [tc]]] t2)))) = x_dir (lm_x (tr_lm t2)).
Proof. repeat split; vm_compute; reflexivity. Qed.

(** C73. Data ids and the scale of the loss. *)
Theorem C73_runs {F} `{OField F} (kind : mid -> mkind) (eigh : tensor F -> res (tensor F * tensor F)) (enc : @dten F -> array) (tok : option (data -> res (list string))) (hash : string -> string) a (m : @micro F) x ids l :
  get_data_id tok hash (ha_logic a) (mi_input m) = Ok ids -> mi_labels m = Some l ->
  training_step kind eigh enc tok hash a m x = block eigh enc ids (mi_mask m) (run_evs kind eigh (mi_body m (length l - count_occ Z.eq_dec l (ha_ignore a)))) x.
Proof. exact (step_runs kind eigh enc tok hash a m x ids l). Qed.
Print Assumptions C73_runs.
Theorem C73_no_labels {F} `{OField F} (kind : mid -> mkind) (eigh : tensor F -> res (tensor F * tensor F)) (enc : @dten F -> array) (tok : option (data -> res (list string))) (hash : string -> string) a (m : @micro F) x :
  (forall e, get_data_id tok hash (ha_logic a) (mi_input m) = Err e -> training_step kind eigh enc tok hash a m x = (x, Err e)) /\
  (forall ids, get_data_id tok hash (ha_logic a) (mi_input m) = Ok ids -> mi_labels m = None -> training_step kind eigh enc tok hash a m x = (x, Err AttributeError)).
Proof. exact (conj (step_bad_ids kind eigh enc tok hash a m x) (step_no_labels kind eigh enc tok hash a m x)). Qed.
Print Assumptions C73_no_labels.
Theorem C73_ids (tok : option (data -> res (list string))) (hash : string -> string) logic d :
  (logic = "detokenize" -> get_data_id tok hash logic d = match tok with None => Err AssertionError | Some f => let* l := f d in Ok (Some (map DStr l)) end) /\
  (logic = "hash" -> get_data_id tok hash logic d = let* l := snd (gen_call hash d (new_gen "hash", [])) in Ok (Some (map DStr l))) /\
  (~ In logic ["detokenize"; "hash"] -> get_data_id tok hash logic d = Ok None).
Proof. exact (id_cases tok hash logic d). Qed.
Print Assumptions C73_ids.
(** Without ids nothing can be saved and no influence step succeeds. *)
Theorem C73_no_ids_saved {F} `{OField F} (kind : mid -> mkind) (eigh : tensor F -> res (tensor F * tensor F)) (enc : @dten F -> array) (tok : option (data -> res (list string))) (hash : string -> string) a (m : @micro F) x x' :
  ~ In (ha_logic a) ["detokenize"; "hash"] -> training_step kind eigh enc tok hash a m x = (x', Ok tt) -> x_ids x' = None /\ x_save x = false.
Proof. exact (fun N => step_no_ids kind eigh enc tok hash a m x x' (unknown_logic tok hash _ _ N)). Qed.
Print Assumptions C73_no_ids_saved.
Theorem C73_no_ids_influence {F} `{OField F} (kind : mid -> mkind) (eigh : tensor F -> res (tensor F * tensor F)) (inverse : tensor F -> res (tensor F)) (fsqrt : F -> F)
    (enc : @dten F -> array) (dec : array -> @dten F) (show : did -> string) (tok : option (data -> res (list string))) (hash : string -> string) (a : @hfargs F) :
  ~ In (ha_logic a) ["detokenize"; "hash"] -> forall ms (p p' : @tr F) r, ms <> [] -> In (tr_mode p) ["influence"; "self_influence"] ->
  do_step kind eigh inverse fsqrt enc dec show tok hash a ms p = (p', r) -> r <> Ok tt.
Proof. exact (run_no_ids kind eigh inverse fsqrt enc dec show tok hash a). Qed.
Print Assumptions C73_no_ids_influence.
Example C73_example : ha_logic tnone = "index" /\ snd (tinfluence tnone [[[tu]]] t2) = Err TypeError /\ snd (textract tnone [[[tu]]] t1) = Err TypeError /\
  get_sum_scale (-100) (mi_labels tu) = Ok 2 /\ snd (training_step tkind xeigh tenc None (fun s => s) targs tu tx3) = Err AssertionError /\
  snd (training_step tkind xeigh tenc (Some ttok) (fun s => s) targs (Micro (mi_input tu) None None (mi_body tu)) tx3) = Err AttributeError.
Proof. repeat split; vm_compute; reflexivity. Qed.
