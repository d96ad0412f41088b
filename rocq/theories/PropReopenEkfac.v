(** C109: scores with corrected eigenvalues in a later process. *)
From Coq Require Import ZArith QArith Qcanon.
From Verif Require Import Py PyStr Field Tensor ModelGrad Monad ModelState ModelMmap ModelSaver ModelLoader ModelLogger ModelModules ModelLora ModelScheduler ModelInfluence ModelUtils ModelTrainer SpecGrad SpecState SpecStore SpecLogger SpecInfluence SpecRows SpecTrainer SpecDisk SpecWhole SpecDrift SpecEkfac SpecReopen ReopenEkfac ExNum ExState ExInfluence ExLogger ExLora ExRows ExTrainer ExDisk ExWhole ExDrift ExEkfac ExReopen ExReopenEkfac.
Local Open Scope string_scope.
Local Open Scope list_scope.
Local Open Scope nat_scope.

(** C109. An influence run of another trainer in the same directory, restored with initialize_from_log, uses the corrected
    eigenvalues of the logging process: test sample k of its optimizer step s is divided by the mean squares of the training
    gradients plus s + 1 times the damping. *)
Theorem C109_influence {F} `{OField F} (rnd : mid -> list nat -> F) (svd : tensor F -> res (tensor F)) (kind : mid -> mkind) (wsize : mid -> nat) (eigh : tensor F -> res (tensor F * tensor F)) (inverse : tensor F -> res (tensor F)) (fsqrt : F -> F)
    (enc : @dten F -> array) (dec : array -> @dten F) (show : did -> string) (tok : option (data -> res (list string))) (hash : string -> string) ms a (p : @tr F) steps1 p2 steps2 sids (M : @tlog F)
    p' (r : @tr F) a2 epochs qids (Q : @tlog F) d p0 ls x1 ks :
  new_run kind wsize eigh enc "ekfac" ms a p -> first_epoch rnd svd kind eigh enc show tok hash a p steps1 -> let cs := factor_calls kind a p steps1 in Forall call_ok cs ->
  do_epoch rnd svd kind eigh inverse fsqrt enc dec show tok hash a steps1 (tr_set_mode p "log") = (p2, Ok tt) -> training rnd svd kind eigh enc dec show tok hash ms a p2 steps2 sids M -> matrices ms M ->
  extract_log rnd svd kind eigh inverse fsqrt enc dec show tok hash a [steps1; steps2] p = (p', Ok tt) -> reopened p' r -> ha_init a2 = true -> 0 < ha_bs a2 -> on_train_begin rnd svd a2 (tr_set_mode r "influence") = (p0, Ok tt) ->
  Forall (fun l => l <> []) (concat epochs) -> trained kind eigh enc show tok hash a2 (lm_x (tr_lm p0)) (concat (concat epochs)) ls x1 -> map as_nest ls = batches 0 ks qids Q -> splits ks (length qids) ->
  uniform (length qids) Q -> ok_log Q -> (forall m, In m (dkeys Q) -> factored cs Q m) ->
  ha_imode a2 = "dot" -> ha_damping a2 = Some d -> fle f0 d -> d <> f0 -> eigh_contract eigh ->
  groups_ok (ha_groups a2) -> groups_hit (ha_groups a2) (dkeys Q) -> Q <> [] -> plain_log Cpu (length qids) Q -> within Q M -> (forall m, In m ms -> In m (dkeys Q)) ->
  exists pf o P C EC E, influence rnd svd kind eigh inverse fsqrt enc dec show tok hash a2 epochs r = (pf, Ok (Some o)) /\ tr_scores pf = Some o /\
    saved (tr_ifn pf) (InfRes qids sids (final (fun l => score_matrix P M l (length qids) (length sids)) (ha_groups a2) (dkeys Q))) /\
    dkeys P = dkeys Q /\ ekfac_state (x_state (lm_x (tr_lm p'))) C EC E /\
    (forall m g n i j, grad_of Q m = Some (Cpu, g) -> shape g = [n; i; j] ->
       exists wf vf wb vb dm t e q, eigh (factor cs m "forward") = Ok (wf, vf) /\ eigh (factor cs m "backward") = Ok (wb, vb) /\ grad_of M m = Some (dm, t) /\
         dget m E = Some (e, mean_squares vb vf t) /\ grad_of P m = Some (Cpu, q) /\ shape q = shape g /\
         forall k, k < n -> eig_row (if dev_eqb e Cpu then fmul (fnat (S (step_of (step_sizes (map (@length _) (concat epochs)) ks) k))) d else d) vb vf (mean_squares vb vf t) (slice q k) (slice g k) i j).
Proof. exact (reopened_ekfac_any rnd svd kind wsize eigh inverse fsqrt enc dec show tok hash ms a p steps1 p2 steps2 sids M p' r a2 epochs qids Q d p0 ls x1 ks). Qed.
Print Assumptions C109_influence.
(** The runs of C101_example, the second one in another process: the same scores. *)
Example C109_example : hnew "ekfac" ["fc"] targs te1 /\ hfirst targs te1 [[tka]; [tkc]] /\ Forall call_ok tfcalls /\ tepoch targs [[tka]; [tkc]] (tr_set_mode te1 "log") = (tf2, Ok tt) /\
  htraining ["fc"] targs tf2 [[tka]; [tkc]] ["a"; "b"; "c"] tkM /\ matrices ["fc"] tkM /\ textract targs [[[tka]; [tkc]]; [[tka]; [tkc]]] te1 = (te2, Ok tt) /\ reopened te2 roe1 /\ ha_init ro_args = true /\ (ha_bs targs, ha_bs ro_args) = (2, 3) /\
  on_train_begin lrnd lsvd ro_args (tr_set_mode roe1 "influence") = (roe3, Ok tt) /\ ttrained ro_args (lm_x (tr_lm roe3)) [tu; tv; tz] roelogs roex4 /\ map as_nest roelogs = batches 0 [1; 2; 1] ["u"; "v"; "w"; "z"] tM /\
  uniform 4 tM /\ ok_log tM /\ (forall m, In m (dkeys tM) -> factored tfcalls tM m) /\ eigh_contract xeigh /\ plain_log Cpu 4 tM /\ within tM tkM /\
  tview (fst (tinfluence ro_args [[[tu; tv]; [tz]]] roe1)) = Some (["u"; "v"; "w"; "z"], ["a"; "b"; "c"], [("", ([4; 3], [-72 # 503; 1008 # 403; -144 # 503; -48 # 503; 72 # 403; -96 # 503; -168 # 503; -48 # 403; -336 # 503; 18 # 253; 48 # 203; 36 # 253]%Q))]).
Proof.
  split; [exact ek_new|]. split; [exact ek_first|]. split; [apply call_okb_ok; vm_compute; reflexivity|]. split; [exact ek_epoch|]. split; [exact ek_training|]. split; [eapply tM_plain; reflexivity|].
  split; [apply t_pair; vm_compute; reflexivity|]. split; [exact roe_reopened|]. split; [reflexivity|]. split; [reflexivity|]. split; [apply t_pair; vm_compute; reflexivity|]. split; [apply train_logs_ok; vm_compute; reflexivity|]. split; [vm_compute; reflexivity|]. split; [apply uniform_ok; vm_compute; reflexivity|]. split; [apply ok_b_ok; vm_compute; reflexivity|].
  split; [exact ek_factored|]. split; [exact xeigh_ok|]. split; [eapply tM_plain; reflexivity|]. split; [eapply tM_within; reflexivity|]. vm_compute; reflexivity.
Qed.
