(** Property C108: scores computed in a later process. *)
From Coq Require Import ZArith QArith Qcanon Lia.
From Verif Require Import Py PyStr Field Tensor ModelGrad Monad ModelState ModelMmap ModelSaver ModelLoader ModelLogger ModelModules ModelLora ModelScheduler ModelInfluence ModelUtils ModelTrainer SpecGrad SpecState SpecStore SpecLogger SpecInfluence SpecRows SpecTrainer SpecDisk SpecWhole SpecReopen ReopenProofs ReopenProofs2 ExNum ExState ExInfluence ExLogger ExLora ExRows ExTrainer ExDisk ExWhole ExReopen.
Local Open Scope string_scope.
Local Open Scope list_scope.
Local Open Scope nat_scope.

(** C108. An influence run of another trainer in the same directory, restored with initialize_from_log, stores the scores of
    C96: p . g, where (C + d I) p = (test gradient) and C is the second moment of the gradients the first process logged. *)
Theorem C108_raw {F} `{OField F} (rnd : mid -> list nat -> F) (svd : tensor F -> res (tensor F)) (kind : mid -> mkind) (wsize : mid -> nat) (eigh : tensor F -> res (tensor F * tensor F)) (inverse : tensor F -> res (tensor F)) (fsqrt : F -> F)
    (enc : @dten F -> array) (dec : array -> @dten F) (show : did -> string) (tok : option (data -> res (list string))) (hash : string -> string) ms a (p : @tr F) steps sids (M : @tlog F) p' (r : @tr F) a2 epochs qids (Q : @tlog F) d :
  new_run kind wsize eigh enc "raw" ms a p -> training rnd svd kind eigh enc dec show tok hash ms a p steps sids M -> matrices ms M ->
  extract_log rnd svd kind eigh inverse fsqrt enc dec show tok hash a [steps] p = (p', Ok tt) -> reopened p' r -> ha_init a2 = true -> 0 < ha_bs a2 -> testing rnd svd kind eigh enc show tok hash a2 r epochs qids Q ->
  ha_imode a2 = "dot" -> ha_damping a2 = Some d -> fle f0 d -> d <> f0 -> inverse_contract inverse -> (forall m x, grad_of M m = Some x -> inverts inverse (prod (tl (shape (snd x))))) ->
  groups_ok (ha_groups a2) -> groups_hit (ha_groups a2) (dkeys Q) -> Q <> [] -> plain_log Cpu (length qids) Q -> within Q M -> (forall m, In m ms -> In m (dkeys Q)) ->
  exists pf o P, influence rnd svd kind eigh inverse fsqrt enc dec show tok hash a2 epochs r = (pf, Ok (Some o)) /\ tr_scores pf = Some o /\
    saved (tr_ifn pf) (InfRes qids sids (final (fun l => score_matrix P M l (length qids) (length sids)) (ha_groups a2) (dkeys Q))) /\
    dkeys P = dkeys Q /\
    (forall m g, grad_of Q m = Some (Cpu, g) -> exists q, grad_of P m = Some (Cpu, q) /\ raw_solution d (second_moment M m) q g).
Proof. exact (reopened_raw_any rnd svd kind wsize eigh inverse fsqrt enc dec show tok hash ms a p steps sids M p' r a2 epochs qids Q d). Qed.
Print Assumptions C108_raw.
(** The runs of C96_example, the second one in another process: the same scores. *)
Example C108_example : hnew "raw" ["fc"] targs t1 /\ htraining ["fc"] targs t1 [[ta]; [tc]] ["a"; "b"; "c"] tdM /\ matrices ["fc"] tdM /\
  textract targs [[[ta]; [tc]]] t1 = (t2, Ok tt) /\ reopened t2 ro1 /\ ha_init ro_args = true /\ (ha_bs targs, ha_bs ro_args) = (2, 3) /\ htesting ro_args ro1 [[[tu; tv]; [tz]]] ["u"; "v"; "w"; "z"] tM /\ inverse_contract xinverse /\
  (forall m x, grad_of tdM m = Some x -> inverts xinverse (prod (tl (shape (snd x))))) /\ plain_log Cpu 4 tM /\ within tM tdM /\ ha_damping ro_args = Some (qz 1) /\
  tview (fst (tinfluence ro_args [[[tu; tv]; [tz]]] ro1)) =
    Some (["u"; "v"; "w"; "z"], ["a"; "b"; "c"], [("", ([4; 3], [5208 # 1867; 5568 # 1867; 5064 # 1867; 1048 # 1867; 88 # 1867; 1432 # 1867; 2456 # 1867; -1504 # 1867; 4040 # 1867; -180 # 1867; 840 # 1867; -588 # 1867]%Q))]).
Proof.
  split; [exact whole_new|]. split; [exact whole_training|]. split; [eapply tM_plain; reflexivity|]. split; [apply t_pair; vm_compute; reflexivity|]. split; [exact ro_reopened|]. split; [reflexivity|]. split; [reflexivity|]. split; [exact ro_testing|]. split; [exact xinverse_ok|].
  split; [eapply tM_inverts; reflexivity|]. split; [eapply tM_plain; reflexivity|]. split; [eapply tM_within; reflexivity|]. repeat split; vm_compute; reflexivity.
Qed.

(** With Kronecker factors the scores are those of C97. *)
Theorem C108_kfac {F} `{OField F} (rnd : mid -> list nat -> F) (svd : tensor F -> res (tensor F)) (kind : mid -> mkind) (wsize : mid -> nat) (eigh : tensor F -> res (tensor F * tensor F)) (inverse : tensor F -> res (tensor F)) (fsqrt : F -> F)
    (enc : @dten F -> array) (dec : array -> @dten F) (show : did -> string) (tok : option (data -> res (list string))) (hash : string -> string) ms a (p : @tr F) steps sids (M : @tlog F) p' (r : @tr F) a2 epochs qids (Q : @tlog F) d :
  new_run kind wsize eigh enc "kfac" ms a p -> training rnd svd kind eigh enc dec show tok hash ms a p steps sids M -> let cs := factor_calls kind a p steps in Forall call_ok cs -> matrices ms M ->
  extract_log rnd svd kind eigh inverse fsqrt enc dec show tok hash a [steps] p = (p', Ok tt) -> one_device (x_state (lm_x (tr_lm p'))) -> reopened p' r -> ha_init a2 = true -> 0 < ha_bs a2 -> testing rnd svd kind eigh enc show tok hash a2 r epochs qids Q -> (forall m, In m (dkeys Q) -> factored cs Q m) ->
  ha_imode a2 = "dot" -> ha_damping a2 = Some d -> fle f0 d -> d <> f0 -> eigh_contract eigh -> decomposes eigh cs ->
  groups_ok (ha_groups a2) -> groups_hit (ha_groups a2) (dkeys Q) -> Q <> [] -> plain_log Cpu (length qids) Q -> within Q M -> (forall m, In m ms -> In m (dkeys Q)) ->
  exists pf o P, influence rnd svd kind eigh inverse fsqrt enc dec show tok hash a2 epochs r = (pf, Ok (Some o)) /\ tr_scores pf = Some o /\
    saved (tr_ifn pf) (InfRes qids sids (final (fun l => score_matrix P M l (length qids) (length sids)) (ha_groups a2) (dkeys Q))) /\
    dkeys P = dkeys Q /\
    (forall m g, grad_of Q m = Some (Cpu, g) -> exists q, grad_of P m = Some (Cpu, q) /\ kron_solution d (factor cs m "backward") (factor cs m "forward") q g).
Proof. exact (reopened_kfac_any rnd svd kind wsize eigh inverse fsqrt enc dec show tok hash ms a p steps sids M p' r a2 epochs qids Q d). Qed.
Print Assumptions C108_kfac.
Example C108_kfac_example : hnew "kfac" ["fc"] targs tk1 /\ htraining ["fc"] targs tk1 [[tka]; [tkc]] ["a"; "b"; "c"] tkM /\ Forall call_ok tkcalls /\ matrices ["fc"] tkM /\
  textract targs [[[tka]; [tkc]]] tk1 = (tk2, Ok tt) /\ one_device (x_state (lm_x (tr_lm tk2))) /\ reopened tk2 rok1 /\ htesting ro_args rok1 [[[tu; tv]; [tz]]] ["u"; "v"; "w"; "z"] tM /\
  (forall m, In m (dkeys tM) -> factored tkcalls tM m) /\ eigh_contract xeigh /\ decomposes xeigh tkcalls /\ plain_log Cpu 4 tM /\ within tM tkM /\
  tview (fst (tinfluence ro_args [[[tu; tv]; [tz]]] rok1)) =
    Some (["u"; "v"; "w"; "z"], ["a"; "b"; "c"], [("", ([4; 3], [-72 # 1003; 144 # 29; -144 # 1003; -48 # 1003; 72 # 203; -96 # 1003; -168 # 1003; -48 # 203; -336 # 1003; 36 # 1003; 96 # 203; 72 # 1003]%Q))]).
Proof.
  split; [exact kwhole_new|]. split; [exact kwhole_training|]. split; [apply call_okb_ok; vm_compute; reflexivity|]. split; [eapply tM_plain; reflexivity|]. split; [apply t_pair; vm_compute; reflexivity|]. split; [exact k_device|]. split; [exact rok_reopened|]. split; [exact rok_testing|].
  split; [exact k_factored|]. split; [exact xeigh_ok|]. split; [exact k_decomposes|]. split; [eapply tM_plain; reflexivity|]. split; [eapply tM_within; reflexivity|]. vm_compute; reflexivity.
Qed.

(** Without initialize_from_log the run succeeds as well, and stores the inner products of the gradients themselves: neither
    the statistics on disk nor the damping are used. *)
Theorem C108_forgotten {F} `{OField F} (rnd : mid -> list nat -> F) (svd : tensor F -> res (tensor F)) (kind : mid -> mkind) (wsize : mid -> nat) (eigh : tensor F -> res (tensor F * tensor F)) (inverse : tensor F -> res (tensor F)) (fsqrt : F -> F)
    (enc : @dten F -> array) (dec : array -> @dten F) (show : did -> string) (tok : option (data -> res (list string))) (hash : string -> string) hes ms a (p : @tr F) steps sids (M : @tlog F) p' (r : @tr F) a2 epochs qids (Q : @tlog F) :
  hes = "raw" \/ hes = "kfac" -> new_run kind wsize eigh enc hes ms a p -> training rnd svd kind eigh enc dec show tok hash ms a p steps sids M -> (hes = "kfac" -> Forall call_ok (factor_calls kind a p steps)) -> matrices ms M ->
  extract_log rnd svd kind eigh inverse fsqrt enc dec show tok hash a [steps] p = (p', Ok tt) -> reopened p' r -> ha_init a2 = false -> 0 < ha_bs a2 -> testing rnd svd kind eigh enc show tok hash a2 r epochs qids Q -> ha_imode a2 = "dot" ->
  groups_ok (ha_groups a2) -> groups_hit (ha_groups a2) (dkeys Q) -> Q <> [] -> plain_log Cpu (length qids) Q -> within Q M -> (forall m, In m ms -> In m (dkeys Q)) ->
  exists pf o, influence rnd svd kind eigh inverse fsqrt enc dec show tok hash a2 epochs r = (pf, Ok (Some o)) /\ tr_scores pf = Some o /\
    saved (tr_ifn pf) (InfRes qids sids (final (fun l => score_matrix Q M l (length qids) (length sids)) (ha_groups a2) (dkeys Q))).
Proof. exact (forgotten_any rnd svd kind wsize eigh inverse fsqrt enc dec show tok hash hes ms a p steps sids M p' r a2 epochs qids Q). Qed.
Print Assumptions C108_forgotten.
Example C108_forgotten_example : reopened t2 ro1 /\ ha_init targs = false /\ htesting targs ro1 [[[tu; tv]; [tz]]] ["u"; "v"; "w"; "z"] tM /\
  tview (fst (tinfluence targs [[[tu; tv]; [tz]]] ro1)) =
    Some (["u"; "v"; "w"; "z"], ["a"; "b"; "c"], [("", ([4; 3], [72; 192; 24; 8; 8; 8; 8; -32; 24; 4; 24; -4]%Q))]).
Proof. split; [exact ro_reopened|]. split; [reflexivity|]. split; [exact rof_testing|]. vm_compute; reflexivity. Qed.

(** A trainer created around a new LogIX object in the directory of the first, without LoRA, meets the hypothesis of the
    theorems above, whatever its schedule. *)
Theorem C108_new {F} `{OField F} (rnd : mid -> list nat -> F) (svd : tensor F -> res (tensor F)) (kind : mid -> mkind) (eigh : tensor F -> res (tensor F * tensor F)) (enc : @dten F -> array) a hessian (p : @tr F) (s : @lm F) root (r : @tr F) :
  new_object_in p s -> ha_lora a = false -> new_trainer rnd svd a hessian "grad" s root = (r, Ok tt) -> reopened p r.
Proof. exact (new_reopened rnd svd kind eigh enc a hessian p s root r). Qed.
Print Assumptions C108_new.
Example C108_new_example : new_object_in t2 (ro_lm t2) /\ ha_lora ro_args = false /\ new_trainer lrnd lsvd ro_args "raw" "grad" (ro_lm t2) troot = (ro1, Ok tt) /\ length (x_dir (lm_x (ro_lm t2))) <> 0 /\ x_names (lm_x (tr_lm ro1)) <> [].
Proof.
  split; [split; [reflexivity|]; split; [reflexivity|]; eexists _, _, _; reflexivity|]. split; [reflexivity|]. split; [apply t_pair; vm_compute; reflexivity|]. split; vm_compute; discriminate.
Qed.
