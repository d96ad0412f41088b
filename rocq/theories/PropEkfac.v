(** C101: a logging run with corrected eigenvalues and the influence run that follows. *)
From Coq Require Import ZArith QArith Qcanon.
From Verif Require Import Py PyStr Field Tensor ModelGrad Monad ModelState ModelMmap ModelSaver ModelLoader ModelLogger ModelModules ModelLora ModelScheduler ModelInfluence ModelUtils ModelTrainer SpecGrad SpecState SpecStore SpecLogger SpecInfluence SpecRows SpecTrainer SpecDisk SpecWhole SpecDrift SpecEkfac EkfacProofs3 EkfacProofs4 ExNum ExState ExInfluence ExLogger ExLora ExRows ExTrainer ExDisk ExWhole ExDrift ExEkfac.
Local Open Scope string_scope.
Local Open Scope list_scope.
Local Open Scope nat_scope.

(** The first epoch succeeds, writes no samples, and leaves the covariances of activations and output gradients. *)
Theorem C101_factors {F} `{OField F} (rnd : mid -> list nat -> F) (svd : tensor F -> res (tensor F)) (kind : mid -> mkind) (wsize : mid -> nat) (eigh : tensor F -> res (tensor F * tensor F)) (inverse : tensor F -> res (tensor F)) (fsqrt : F -> F)
    (enc : @dten F -> array) (dec : array -> @dten F) (show : did -> string) (tok : option (data -> res (list string))) (hash : string -> string) ms a (p : @tr F) steps :
  new_run kind wsize eigh enc "ekfac" ms a p -> first_epoch rnd svd kind eigh enc show tok hash a p steps -> let cs := factor_calls kind a p steps in Forall call_ok cs ->
  exists p2, do_epoch rnd svd kind eigh inverse fsqrt enc dec show tok hash a steps (tr_set_mode p "log") = (p2, Ok tt) /\ tr_acc p2 = tr_acc p /\ same_results p p2 /\
    (let x := lm_x (tr_lm p2) in x_dir x = x_dir (lm_x (tr_lm p)) /\ x_saver x = x_saver (lm_x (tr_lm p)) /\
     forall m t, let ccs := calls_for SCov m t cs in
       (ccs = [] -> stored (x_state x) SCov m t = None) /\
       (ccs <> [] -> stored (x_state x) SCov m t = Some (factor cs m t) /\ lookup2 (x_state x) "covariance_counter" m t = Some (VN (all_count ccs)))).
Proof. exact (factors_run rnd svd kind wsize eigh inverse fsqrt enc dec show tok hash ms a p steps). Qed.
Print Assumptions C101_factors.
(** The whole run: on disk the gradients of the second epoch; in the state the factors divided by their counts once more, the
    eigenvectors of the factors, and for every module the mean squares of the gradients in that basis. *)
Theorem C101_extract {F} `{OField F} (rnd : mid -> list nat -> F) (svd : tensor F -> res (tensor F)) (kind : mid -> mkind) (wsize : mid -> nat) (eigh : tensor F -> res (tensor F * tensor F)) (inverse : tensor F -> res (tensor F)) (fsqrt : F -> F)
    (enc : @dten F -> array) (dec : array -> @dten F) (show : did -> string) (tok : option (data -> res (list string))) (hash : string -> string) ms a (p : @tr F) steps1 p2 steps2 sids (M : @tlog F) :
  new_run kind wsize eigh enc "ekfac" ms a p -> first_epoch rnd svd kind eigh enc show tok hash a p steps1 -> let cs := factor_calls kind a p steps1 in Forall call_ok cs ->
  do_epoch rnd svd kind eigh inverse fsqrt enc dec show tok hash a steps1 (tr_set_mode p "log") = (p2, Ok tt) -> training rnd svd kind eigh enc dec show tok hash ms a p2 steps2 sids M ->
  exists p' C EC E, extract_log rnd svd kind eigh inverse fsqrt enc dec show tok hash a [steps1; steps2] p = (p', Ok tt) /\ tr_acc p' = tr_acc p /\ same_results p p' /\
    log_batches dec show (ha_bs a) (x_dir (lm_x (tr_lm p'))) = Ok (batches 0 (map (@length string) (chunks (ha_bs a) sids)) sids (regrad ms M)) /\
    ekfac_state (x_state (lm_x (tr_lm p'))) C EC E /\
    (forall m t, calls_for SCov m t cs = [] -> look C m t = None /\ look EC m t = None) /\
    (forall m t, calls_for SCov m t cs <> [] -> exists dv w v, look C m t = Some (dv, divided_again cs m t) /\ eigh (factor cs m t) = Ok (w, v) /\ look EC m t = Some (dv, v)) /\
    (forall m, In m ms -> exists dv vf vb d t, look EC m "forward" = Some vf /\ look EC m "backward" = Some vb /\ grad_of M m = Some (d, t) /\ dget m E = Some (dv, mean_squares (snd vb) (snd vf) t)) /\
    (forall m, ~ In m ms -> dget m E = None).
Proof. exact (extract_ekfac rnd svd kind wsize eigh inverse fsqrt enc dec show tok hash ms a p steps1 p2 steps2 sids M). Qed.
Print Assumptions C101_extract.
(** The influence run that follows: in the eigenbasis of the factors, test sample k of optimizer step s is divided by the mean
    squares of the training gradients plus s + 1 times the damping. *)
Theorem C101_influence {F} `{OField F} (rnd : mid -> list nat -> F) (svd : tensor F -> res (tensor F)) (kind : mid -> mkind) (wsize : mid -> nat) (eigh : tensor F -> res (tensor F * tensor F)) (inverse : tensor F -> res (tensor F)) (fsqrt : F -> F)
    (enc : @dten F -> array) (dec : array -> @dten F) (show : did -> string) (tok : option (data -> res (list string))) (hash : string -> string) ms a (p : @tr F) steps1 p2 steps2 sids (M : @tlog F)
    p' epochs qids (Q : @tlog F) d p0 ls x1 ks :
  new_run kind wsize eigh enc "ekfac" ms a p -> first_epoch rnd svd kind eigh enc show tok hash a p steps1 -> let cs := factor_calls kind a p steps1 in Forall call_ok cs ->
  do_epoch rnd svd kind eigh inverse fsqrt enc dec show tok hash a steps1 (tr_set_mode p "log") = (p2, Ok tt) -> training rnd svd kind eigh enc dec show tok hash ms a p2 steps2 sids M -> no_results p -> matrices ms M ->
  extract_log rnd svd kind eigh inverse fsqrt enc dec show tok hash a [steps1; steps2] p = (p', Ok tt) -> on_train_begin rnd svd a (tr_set_mode p' "influence") = (p0, Ok tt) ->
  Forall (fun l => l <> []) (concat epochs) -> trained kind eigh enc show tok hash a (lm_x (tr_lm p0)) (concat (concat epochs)) ls x1 -> map as_nest ls = batches 0 ks qids Q -> splits ks (length qids) ->
  uniform (length qids) Q -> ok_log Q -> (forall m, In m (dkeys Q) -> factored cs Q m) ->
  ha_imode a = "dot" -> ha_damping a = Some d -> fle f0 d -> d <> f0 -> eigh_contract eigh ->
  groups_ok (ha_groups a) -> groups_hit (ha_groups a) (dkeys Q) -> Q <> [] -> plain_log Cpu (length qids) Q -> within Q M -> (forall m, In m ms -> In m (dkeys Q)) ->
  exists pf o P C EC E, influence rnd svd kind eigh inverse fsqrt enc dec show tok hash a epochs p' = (pf, Ok (Some o)) /\ tr_scores pf = Some o /\
    saved (tr_ifn pf) (InfRes qids sids (final (fun l => score_matrix P M l (length qids) (length sids)) (ha_groups a) (dkeys Q))) /\
    dkeys P = dkeys Q /\ ekfac_state (x_state (lm_x (tr_lm p'))) C EC E /\
    (forall m g n i j, grad_of Q m = Some (Cpu, g) -> shape g = [n; i; j] ->
       exists wf vf wb vb dm t e q, eigh (factor cs m "forward") = Ok (wf, vf) /\ eigh (factor cs m "backward") = Ok (wb, vb) /\ grad_of M m = Some (dm, t) /\
         dget m E = Some (e, mean_squares vb vf t) /\ grad_of P m = Some (Cpu, q) /\ shape q = shape g /\
         forall k, k < n -> eig_row (if dev_eqb e Cpu then fmul (fnat (S (step_of (step_sizes (map (@length _) (concat epochs)) ks) k))) d else d) vb vf (mean_squares vb vf t) (slice q k) (slice g k) i j).
Proof. exact (influence_ekfac rnd svd kind wsize eigh inverse fsqrt enc dec show tok hash ms a p steps1 p2 steps2 sids M p' epochs qids Q d p0 ls x1 ks). Qed.
Print Assumptions C101_influence.
(** Two epochs over three samples. The factors of the first epoch are divided by three again; the mean squares are 500/3 and 400/3. *)
Example C101_example : hnew "ekfac" ["fc"] targs te1 /\ hfirst targs te1 [[tka]; [tkc]] /\ Forall call_ok tfcalls /\ tepoch targs [[tka]; [tkc]] (tr_set_mode te1 "log") = (tf2, Ok tt) /\
  htraining ["fc"] targs tf2 [[tka]; [tkc]] ["a"; "b"; "c"] tkM /\ no_results te1 /\ matrices ["fc"] tkM /\ textract targs [[[tka]; [tkc]]; [[tka]; [tkc]]] te1 = (te2, Ok tt) /\
  on_train_begin lrnd lsvd targs (tr_set_mode te2 "influence") = (te3, Ok tt) /\ ttrained targs (lm_x (tr_lm te3)) [tu; tv; tz] teQlogs tex4 /\ map as_nest teQlogs = batches 0 [1; 2; 1] ["u"; "v"; "w"; "z"] tM /\
  uniform 4 tM /\ ok_log tM /\ (forall m, In m (dkeys tM) -> factored tfcalls tM m) /\ eigh_contract xeigh /\ plain_log Cpu 4 tM /\ within tM tkM /\
  oshow (Some (factor tfcalls "fc" "forward")) = Some ([2; 2], [61 # 3; -16; -16; 89 # 3]%Q) /\ oshow (Some (divided_again tfcalls "fc" "forward")) = Some ([2; 2], [61 # 9; -16 # 3; -16 # 3; 89 # 9]%Q) /\
  oshow (Some (divided_again tfcalls "fc" "backward")) = Some ([1; 1], [8 # 3]%Q) /\
  escores [[[tu; tv]; [tz]]] = Some (["u"; "v"; "w"; "z"], ["a"; "b"; "c"], [("", ([4; 3], [-72 # 503; 1008 # 403; -144 # 503; -48 # 503; 72 # 403; -96 # 503; -168 # 503; -48 # 403; -336 # 503; 18 # 253; 48 # 203; 36 # 253]%Q))]).
Proof.
  split; [exact ek_new|]. split; [exact ek_first|]. split; [apply call_okb_ok; vm_compute; reflexivity|]. split; [exact ek_epoch|]. split; [exact ek_training|]. split; [repeat split; vm_compute; reflexivity|]. split; [eapply tM_plain; reflexivity|].
  split; [apply t_pair; vm_compute; reflexivity|]. split; [apply t_pair; vm_compute; reflexivity|]. split; [apply train_logs_ok; vm_compute; reflexivity|]. split; [vm_compute; reflexivity|]. split; [apply uniform_ok; vm_compute; reflexivity|]. split; [apply ok_b_ok; vm_compute; reflexivity|].
  split; [exact ek_factored|]. split; [exact xeigh_ok|]. split; [eapply tM_plain; reflexivity|]. split; [eapply tM_within; reflexivity|]. repeat (split; [vm_compute; reflexivity|]). vm_compute; reflexivity.
Qed.
