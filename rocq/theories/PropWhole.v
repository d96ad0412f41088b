(** C63 (gradients), C96, C97: a logging run followed by an influence run. *)
From Coq Require Import ZArith QArith Qcanon.
From Verif Require Import Py PyStr Field Tensor ModelGrad Monad ModelState ModelMmap ModelSaver ModelLoader ModelLogger ModelModules ModelLora ModelScheduler ModelInfluence ModelUtils ModelTrainer SpecGrad SpecState SpecStore SpecLogger SpecInfluence SpecRows SpecTrainer SpecDisk SpecWhole LogProofs9 WholeProofs2 WholeProofs6 ExNum ExState ExInfluence ExLogger ExLora ExRows ExTrainer ExDisk ExWhole.
Local Open Scope string_scope.
Local Open Scope list_scope.
Local Open Scope nat_scope.

(** C63. With statistics over gradients: the moments of the gradients that get_log shows after every batch, one row per
    sample; the other statistics are as before. *)
Theorem C63_gradient_statistics {F} `{OField F} (kind : mid -> mkind) (wsize : mid -> nat) (eigh : tensor F -> res (tensor F * tensor F)) (enc : @dten F -> array) bs Ls (x x' : @lx F) :
  logged_epoch kind eigh enc bs Ls x x' -> reachable kind wsize eigh enc x -> pristine (x_state x) -> all_moments (x_opt x) ->
  Forall (fun b => own_backward [] (bt_evs b)) bs -> Forall good_grads Ls ->
  let cs := epoch_calls kind (x_mods x) (x_names x) (x_opt x) (x_offload x) (x_heap x) bs in
  Forall call_ok cs ->
  let s := x_state (fst (lx_finalize x')) in
  (forall st m, let rs := grad_rows (grads m Ls) in
     (In st (grad_kinds (x_opt x)) -> grads m Ls <> [] -> stored s st m "grad" = Some (moment st (width rs) rs (fnat (length rs)))) /\
     (~ In st (grad_kinds (x_opt x)) \/ grads m Ls = [] -> stored s st m "grad" = None)) /\
  (forall st m t, t <> "grad" -> let ccs := calls_for st m t cs in
     (ccs = [] -> stored s st m t = None) /\
     (ccs <> [] -> stored s st m t = Some (moment st (width (all_rows ccs)) (all_rows ccs) (all_count ccs)))).
Proof. exact (gradient_statistics kind wsize eigh enc bs Ls x x'). Qed.
Print Assumptions C63_gradient_statistics.
(** Batches of two samples and one: gradients (1, 2), (6, 2) and (-1, 2). *)
Example C63_gradient_example : logged_epoch tkind xeigh tenc [gb1; gb2] [gL1; gL2] gx gx2 /\ reachable tkind tsz xeigh tenc gx /\ pristine (x_state gx) /\ all_moments (x_opt gx) /\
  Forall (fun b => own_backward [] (bt_evs b)) [gb1; gb2] /\ Forall good_grads [gL1; gL2] /\
  Forall call_ok (epoch_calls tkind (x_mods gx) (x_names gx) (x_opt gx) (x_offload gx) (x_heap gx) [gb1; gb2]) /\
  grad_kinds (x_opt gx) = [SMean; SCov] /\ length (grad_rows (grads "fc" [gL1; gL2])) = 3 /\
  (let y := fst (lx_finalize gx2) in sshow y SMean "grad" = Some ([2], [2; 2]%Q) /\ sshow y SCov "grad" = Some ([2; 2], [38 # 3; 4; 4; 4]%Q) /\
   sshow y SMean "forward" = Some ([2], [1; 5 # 3]%Q) /\ sshow y SCov "forward" = None).
Proof.
  split; [exact glogged|]. split; [exact greach|]. split; [apply pristine_b; vm_compute; reflexivity|].
  split; [split; [intros p; vm_compute; intuition|split; [repeat constructor; vm_compute; intuition discriminate|intros p; vm_compute; intuition]]|].
  split; [repeat constructor; apply own_micro|]. split; [repeat constructor; apply good_ok; auto|]. split; [apply call_okb_ok; vm_compute; reflexivity|]. repeat split; vm_compute; reflexivity.
Qed.

(** C96. The logging run of the schedule for "raw" succeeds; on disk are the gradients of every sample, in the state the
    second moment of the gradients of every module, and nothing else. *)
Theorem C96_extract {F} `{OField F} (rnd : mid -> list nat -> F) (svd : tensor F -> res (tensor F)) (kind : mid -> mkind) (wsize : mid -> nat) (eigh : tensor F -> res (tensor F * tensor F)) (inverse : tensor F -> res (tensor F)) (fsqrt : F -> F)
    (enc : @dten F -> array) (dec : array -> @dten F) (show : did -> string) (tok : option (data -> res (list string))) (hash : string -> string) ms a (p : @tr F) steps sids (M : @tlog F) :
  new_run kind wsize eigh enc "raw" ms a p -> training rnd svd kind eigh enc dec show tok hash ms a p steps sids M ->
  exists p' C, extract_log rnd svd kind eigh inverse fsqrt enc dec show tok hash a [steps] p = (p', Ok tt) /\ tr_acc p' = tr_acc p /\ same_results p p' /\
    (let x := lm_x (tr_lm p') in
     log_batches dec show (ha_bs a) (x_dir x) = Ok (batches 0 (map (@length string) (chunks (ha_bs a) sids)) sids (regrad ms M)) /\
     plain_state (x_state x) /\ raw_ready inverse (x_state x) C (ha_damping a) /\
     (forall m, In m ms -> exists dv, look C m "grad" = Some (dv, second_moment M m)) /\
     (forall m t c, look C m t = Some c -> In m ms /\ t = "grad")).
Proof. exact (extract_raw rnd svd kind wsize eigh inverse fsqrt enc dec show tok hash ms a p steps sids M). Qed.
Print Assumptions C96_extract.
(** The influence run that follows stores p . g for every test sample and every training sample, where p solves
    (C + d I) p = (test gradient) and C is the second moment of the training gradients g. *)
Theorem C96_influence {F} `{OField F} (rnd : mid -> list nat -> F) (svd : tensor F -> res (tensor F)) (kind : mid -> mkind) (wsize : mid -> nat) (eigh : tensor F -> res (tensor F * tensor F)) (inverse : tensor F -> res (tensor F)) (fsqrt : F -> F)
    (enc : @dten F -> array) (dec : array -> @dten F) (show : did -> string) (tok : option (data -> res (list string))) (hash : string -> string) ms a (p : @tr F) steps sids (M : @tlog F)
    p' epochs qids (Q : @tlog F) d :
  new_run kind wsize eigh enc "raw" ms a p -> training rnd svd kind eigh enc dec show tok hash ms a p steps sids M -> no_results p -> matrices ms M ->
  extract_log rnd svd kind eigh inverse fsqrt enc dec show tok hash a [steps] p = (p', Ok tt) -> testing rnd svd kind eigh enc show tok hash a p' epochs qids Q ->
  ha_imode a = "dot" -> ha_damping a = Some d -> fle f0 d -> d <> f0 -> inverse_contract inverse -> (forall m x, grad_of M m = Some x -> inverts inverse (prod (tl (shape (snd x))))) ->
  groups_ok (ha_groups a) -> groups_hit (ha_groups a) (dkeys Q) -> Q <> [] -> plain_log Cpu (length qids) Q -> within Q M -> (forall m, In m ms -> In m (dkeys Q)) ->
  exists pf o P, influence rnd svd kind eigh inverse fsqrt enc dec show tok hash a epochs p' = (pf, Ok (Some o)) /\ tr_scores pf = Some o /\
    saved (tr_ifn pf) (InfRes qids sids (final (fun l => score_matrix P M l (length qids) (length sids)) (ha_groups a) (dkeys Q))) /\
    dkeys P = dkeys Q /\
    (forall m g, grad_of Q m = Some (Cpu, g) -> exists q, grad_of P m = Some (Cpu, q) /\ raw_solution d (second_moment M m) q g).
Proof. exact (influence_raw rnd svd kind wsize eigh inverse fsqrt enc dec show tok hash ms a p steps sids M p' epochs qids Q d). Qed.
Print Assumptions C96_influence.
(** Three training samples with gradients (2, 4), (12, 4), (-2, 4), saved in two micro-batches; four test samples. *)
Example C96_example : hnew "raw" ["fc"] targs t1 /\ htraining ["fc"] targs t1 [[ta]; [tc]] ["a"; "b"; "c"] tdM /\ no_results t1 /\ matrices ["fc"] tdM /\
  textract targs [[[ta]; [tc]]] t1 = (t2, Ok tt) /\ htesting targs t2 [[[tu; tv]; [tz]]] ["u"; "v"; "w"; "z"] tM /\ inverse_contract xinverse /\
  (forall m x, grad_of tdM m = Some x -> inverts xinverse (prod (tl (shape (snd x))))) /\ plain_log Cpu 4 tM /\ within tM tdM /\ ha_damping targs = Some (qz 1) /\
  oshow (Some (second_moment tdM "fc")) = Some ([2; 2], [152 # 3; 16; 16; 16]%Q) /\
  tview (fst (tinfluence targs [[[tu; tv]; [tz]]] t2)) =
    Some (["u"; "v"; "w"; "z"], ["a"; "b"; "c"], [("", ([4; 3], [5208 # 1867; 5568 # 1867; 5064 # 1867; 1048 # 1867; 88 # 1867; 1432 # 1867; 2456 # 1867; -1504 # 1867; 4040 # 1867; -180 # 1867; 840 # 1867; -588 # 1867]%Q))]).
Proof.
  split; [exact whole_new|]. split; [exact whole_training|]. split; [repeat split; vm_compute; reflexivity|]. split; [eapply tM_plain; reflexivity|]. split; [apply t_pair; vm_compute; reflexivity|]. split; [exact whole_testing|]. split; [exact xinverse_ok|].
  split; [eapply tM_inverts; reflexivity|]. split; [eapply tM_plain; reflexivity|]. split; [eapply tM_within; reflexivity|]. repeat split; vm_compute; reflexivity.
Qed.

(** C97. The same with Kronecker factors: the covariances of the activations and of the output gradients of every module
    over all positions seen in training. *)
Theorem C97_extract {F} `{OField F} (rnd : mid -> list nat -> F) (svd : tensor F -> res (tensor F)) (kind : mid -> mkind) (wsize : mid -> nat) (eigh : tensor F -> res (tensor F * tensor F)) (inverse : tensor F -> res (tensor F)) (fsqrt : F -> F)
    (enc : @dten F -> array) (dec : array -> @dten F) (show : did -> string) (tok : option (data -> res (list string))) (hash : string -> string) ms a (p : @tr F) steps sids (M : @tlog F) :
  new_run kind wsize eigh enc "kfac" ms a p -> training rnd svd kind eigh enc dec show tok hash ms a p steps sids M -> let cs := factor_calls kind a p steps in Forall call_ok cs ->
  exists p' C, extract_log rnd svd kind eigh inverse fsqrt enc dec show tok hash a [steps] p = (p', Ok tt) /\ tr_acc p' = tr_acc p /\ same_results p p' /\
    (let x := lm_x (tr_lm p') in
     log_batches dec show (ha_bs a) (x_dir x) = Ok (batches 0 (map (@length string) (chunks (ha_bs a) sids)) sids (regrad ms M)) /\
     plain_state (x_state x) /\ kfac_ready eigh (x_state x) C /\
     (forall m t, t <> "grad" -> calls_for SCov m t cs <> [] -> exists dv, look C m t = Some (dv, factor cs m t)) /\
     (forall m t c, look C m t = Some c -> t <> "grad" /\ calls_for SCov m t cs <> [])).
Proof. exact (extract_kfac rnd svd kind wsize eigh inverse fsqrt enc dec show tok hash ms a p steps sids M). Qed.
Print Assumptions C97_extract.
Theorem C97_influence {F} `{OField F} (rnd : mid -> list nat -> F) (svd : tensor F -> res (tensor F)) (kind : mid -> mkind) (wsize : mid -> nat) (eigh : tensor F -> res (tensor F * tensor F)) (inverse : tensor F -> res (tensor F)) (fsqrt : F -> F)
    (enc : @dten F -> array) (dec : array -> @dten F) (show : did -> string) (tok : option (data -> res (list string))) (hash : string -> string) ms a (p : @tr F) steps sids (M : @tlog F)
    p' epochs qids (Q : @tlog F) d :
  new_run kind wsize eigh enc "kfac" ms a p -> training rnd svd kind eigh enc dec show tok hash ms a p steps sids M -> let cs := factor_calls kind a p steps in Forall call_ok cs -> no_results p -> matrices ms M ->
  extract_log rnd svd kind eigh inverse fsqrt enc dec show tok hash a [steps] p = (p', Ok tt) -> one_device (x_state (lm_x (tr_lm p'))) -> testing rnd svd kind eigh enc show tok hash a p' epochs qids Q -> (forall m, In m (dkeys Q) -> factored cs Q m) ->
  ha_imode a = "dot" -> ha_damping a = Some d -> fle f0 d -> d <> f0 -> eigh_contract eigh -> decomposes eigh cs ->
  groups_ok (ha_groups a) -> groups_hit (ha_groups a) (dkeys Q) -> Q <> [] -> plain_log Cpu (length qids) Q -> within Q M -> (forall m, In m ms -> In m (dkeys Q)) ->
  exists pf o P, influence rnd svd kind eigh inverse fsqrt enc dec show tok hash a epochs p' = (pf, Ok (Some o)) /\ tr_scores pf = Some o /\
    saved (tr_ifn pf) (InfRes qids sids (final (fun l => score_matrix P M l (length qids) (length sids)) (ha_groups a) (dkeys Q))) /\
    dkeys P = dkeys Q /\
    (forall m g, grad_of Q m = Some (Cpu, g) -> exists q, grad_of P m = Some (Cpu, q) /\ kron_solution d (factor cs m "backward") (factor cs m "forward") q g).
Proof. exact (influence_kfac rnd svd kind wsize eigh inverse fsqrt enc dec show tok hash ms a p steps sids M p' epochs qids Q d). Qed.
Print Assumptions C97_influence.
(** Inputs (3, -4), (4, 3), (6, -8); output gradients 2, 4, 2. *)
Example C97_example : hnew "kfac" ["fc"] targs tk1 /\ htraining ["fc"] targs tk1 [[tka]; [tkc]] ["a"; "b"; "c"] tkM /\ Forall call_ok tkcalls /\ no_results tk1 /\ matrices ["fc"] tkM /\
  textract targs [[[tka]; [tkc]]] tk1 = (tk2, Ok tt) /\ one_device (x_state (lm_x (tr_lm tk2))) /\ htesting targs tk2 [[[tu; tv]; [tz]]] ["u"; "v"; "w"; "z"] tM /\
  (forall m, In m (dkeys tM) -> factored tkcalls tM m) /\ eigh_contract xeigh /\ decomposes xeigh tkcalls /\ plain_log Cpu 4 tM /\ within tM tkM /\
  oshow (Some (factor tkcalls "fc" "forward")) = Some ([2; 2], [61 # 3; -16; -16; 89 # 3]%Q) /\ oshow (Some (factor tkcalls "fc" "backward")) = Some ([1; 1], [8]%Q) /\
  tview (fst (tinfluence targs [[[tu; tv]; [tz]]] tk2)) =
    Some (["u"; "v"; "w"; "z"], ["a"; "b"; "c"], [("", ([4; 3], [-72 # 1003; 144 # 29; -144 # 1003; -48 # 1003; 72 # 203; -96 # 1003; -168 # 1003; -48 # 203; -336 # 1003; 36 # 1003; 96 # 203; 72 # 1003]%Q))]).
Proof.
  split; [exact kwhole_new|]. split; [exact kwhole_training|]. split; [apply call_okb_ok; vm_compute; reflexivity|]. split; [repeat split; vm_compute; reflexivity|]. split; [eapply tM_plain; reflexivity|]. split; [apply t_pair; vm_compute; reflexivity|]. split; [exact k_device|]. split; [exact kwhole_testing|].
  split; [exact k_factored|]. split; [exact xeigh_ok|]. split; [exact k_decomposes|]. split; [eapply tM_plain; reflexivity|]. split; [eapply tM_within; reflexivity|]. repeat split; vm_compute; reflexivity.
Qed.
