(** C105: a logging run of the Lightning trainer followed by an influence run. *)
From Coq Require Import ZArith QArith Qcanon.
From Verif Require Import Py PyStr Field Tensor ModelGrad Monad ModelState ModelMmap ModelSaver ModelLoader ModelLogger ModelModules ModelLora ModelScheduler ModelInfluence ModelUtils ModelTrainer ModelLightning SpecGrad SpecState SpecStore SpecLogger SpecInfluence SpecRows SpecTrainer SpecLightning SpecDisk SpecWhole SpecLightWhole LightWhole2 ExNum ExState ExInfluence ExLogger ExLora ExRows ExTrainer ExDisk ExLightning ExWhole ExLightWhole.
Local Open Scope string_scope.
Local Open Scope list_scope.
Local Open Scope nat_scope.

(** C105. extract_log with the schedule for "raw" trains one epoch; on disk are the gradients of its samples, in the state the
    second moment of the gradients of every module, and nothing else. *)
Theorem C105_extract {F} `{OField F} (rnd : mid -> list nat -> F) (svd : tensor F -> res (tensor F)) (kind : mid -> mkind) (wsize : mid -> nat) (eigh : tensor F -> res (tensor F * tensor F)) (inverse : tensor F -> res (tensor F)) (fsqrt : F -> F)
    (enc : @dten F -> array) (dec : array -> @dten F) (show : did -> string) {B X} (extract : B -> SM X (list did)) (mask : option (B -> res (option (@dten F)))) (body : B -> list (@ev F)) ms a (q : @pl F X) bs es sids (M : @tlog F) :
  new_light kind wsize eigh enc "raw" ms q -> light_training rnd svd kind eigh enc dec show extract mask body ms a q bs sids M ->
  exists q' C, pl_extract rnd svd kind eigh inverse fsqrt enc dec show extract mask body a (bs :: es) q = (q', Ok tt) /\ same_results (pl_t q) (pl_t q') /\ pl_epoch q' = S (pl_epoch q) /\
    (let x := lm_x (tr_lm (pl_t q')) in
     log_batches dec show (pa_bs a) (x_dir x) = Ok (batches 0 (map (@length string) (chunks (pa_bs a) sids)) sids (regrad ms M)) /\
     plain_state (x_state x) /\ raw_ready inverse (x_state x) C (pa_damping a) /\
     (forall m, In m ms -> exists dv, look C m "grad" = Some (dv, second_moment M m)) /\
     (forall m t c, look C m t = Some c -> In m ms /\ t = "grad")).
Proof. exact (light_raw rnd svd kind wsize eigh inverse fsqrt enc dec show extract mask body ms a q bs es sids M). Qed.
Print Assumptions C105_extract.
(** The influence run that follows stores p . g for every test sample and every training sample, where p solves
    (C + d I) p = (test gradient) and C is the second moment of the training gradients g. *)
Theorem C105_influence {F} `{OField F} (rnd : mid -> list nat -> F) (svd : tensor F -> res (tensor F)) (kind : mid -> mkind) (wsize : mid -> nat) (eigh : tensor F -> res (tensor F * tensor F)) (inverse : tensor F -> res (tensor F)) (fsqrt : F -> F)
    (enc : @dten F -> array) (dec : array -> @dten F) (show : did -> string) {B X} (extract : B -> SM X (list did)) (mask : option (B -> res (option (@dten F)))) (body : B -> list (@ev F)) ms a (q : @pl F X) bs es sids (M : @tlog F)
    q' bs2 es2 qids (Q : @tlog F) d :
  new_light kind wsize eigh enc "raw" ms q -> light_training rnd svd kind eigh enc dec show extract mask body ms a q bs sids M -> tr_scores (pl_t q) = None -> tr_built (pl_t q) = None -> matrices ms M ->
  pl_extract rnd svd kind eigh inverse fsqrt enc dec show extract mask body a (bs :: es) q = (q', Ok tt) -> light_testing kind eigh enc show extract mask body q' bs2 qids Q ->
  pa_imode a = "dot" -> pa_damping a = Some d -> fle f0 d -> d <> f0 -> inverse_contract inverse -> (forall m x, grad_of M m = Some x -> inverts inverse (prod (tl (shape (snd x))))) ->
  Q <> [] -> plain_log Cpu (length qids) Q -> within Q M -> (forall m, In m ms -> In m (dkeys Q)) ->
  exists qf o P, pl_influence rnd svd kind eigh inverse fsqrt enc dec show extract mask body a (bs2 :: es2) q' = (qf, Ok (Some o)) /\ tr_scores (pl_t qf) = Some o /\
    saved (tr_ifn (pl_t qf)) (InfRes qids sids (final (fun l => score_matrix P M l (length qids) (length sids)) None (dkeys Q))) /\
    dkeys P = dkeys Q /\
    (forall m g, grad_of Q m = Some (Cpu, g) -> exists v, grad_of P m = Some (Cpu, v) /\ raw_solution d (second_moment M m) v g).
Proof. exact (light_influence_raw rnd svd kind wsize eigh inverse fsqrt enc dec show extract mask body ms a q bs es sids M q' bs2 es2 qids Q d). Qed.
Print Assumptions C105_influence.
(** Three training samples in batches of two and one, four test samples in batches of one, two and one. The second epochs are
    not trained. *)
Example C105_example : lnewrun "raw" ["fc"] l1 /\ ltraining ["fc"] largs l1 [ta; tc] ["a"; "b"; "c"] tdM /\ tr_scores (pl_t l1) = None /\ tr_built (pl_t l1) = None /\ matrices ["fc"] tdM /\
  lextract largs [[ta; tc]; [tu]] l1 = (l2, Ok tt) /\ ltesting l2 [tu; tv; tz] ["u"; "v"; "w"; "z"] tM /\ inverse_contract xinverse /\
  (forall m x, grad_of tdM m = Some x -> inverts xinverse (prod (tl (shape (snd x))))) /\ plain_log Cpu 4 tM /\ within tM tdM /\ pa_damping largs = Some (qz 1) /\ pa_imode largs = "dot" /\
  oshow (Some (second_moment tdM "fc")) = Some ([2; 2], [152 # 3; 16; 16; 16]%Q) /\
  lview (fst (linfluence largs [[tu; tv; tz]; [ta]] l2)) =
    Some (["u"; "v"; "w"; "z"], ["a"; "b"; "c"], [("", ([4; 3], [5208 # 1867; 5568 # 1867; 5064 # 1867; 1048 # 1867; 88 # 1867; 1432 # 1867; 2456 # 1867; -1504 # 1867; 4040 # 1867; -180 # 1867; 840 # 1867; -588 # 1867]%Q))]).
Proof.
  split; [apply lnew_ok; vm_compute; reflexivity|]. split; [eapply ltraining_ok; [repeat constructor; apply own_micro|reflexivity|exact tdM_storable|vm_compute; reflexivity|vm_compute; reflexivity]|].
  split; [vm_compute; reflexivity|]. split; [vm_compute; reflexivity|]. split; [eapply tM_plain; reflexivity|]. split; [apply t_pair; vm_compute; reflexivity|]. split; [apply ltesting_ok; split; vm_compute; reflexivity|]. split; [exact xinverse_ok|].
  split; [eapply tM_inverts; reflexivity|]. split; [eapply tM_plain; reflexivity|]. split; [eapply tM_within; reflexivity|]. repeat split; vm_compute; reflexivity.
Qed.
(** The same with Kronecker factors. *)
Theorem C105_kfac_extract {F} `{OField F} (rnd : mid -> list nat -> F) (svd : tensor F -> res (tensor F)) (kind : mid -> mkind) (wsize : mid -> nat) (eigh : tensor F -> res (tensor F * tensor F)) (inverse : tensor F -> res (tensor F)) (fsqrt : F -> F)
    (enc : @dten F -> array) (dec : array -> @dten F) (show : did -> string) {B X} (extract : B -> SM X (list did)) (mask : option (B -> res (option (@dten F)))) (body : B -> list (@ev F)) ms a (q : @pl F X) bs es sids (M : @tlog F) :
  new_light kind wsize eigh enc "kfac" ms q -> light_training rnd svd kind eigh enc dec show extract mask body ms a q bs sids M -> let cs := light_calls kind mask body q bs in Forall call_ok cs ->
  exists q' C, pl_extract rnd svd kind eigh inverse fsqrt enc dec show extract mask body a (bs :: es) q = (q', Ok tt) /\ same_results (pl_t q) (pl_t q') /\ pl_epoch q' = S (pl_epoch q) /\
    (let x := lm_x (tr_lm (pl_t q')) in
     log_batches dec show (pa_bs a) (x_dir x) = Ok (batches 0 (map (@length string) (chunks (pa_bs a) sids)) sids (regrad ms M)) /\
     plain_state (x_state x) /\ kfac_ready eigh (x_state x) C /\
     (forall m t, t <> "grad" -> calls_for SCov m t cs <> [] -> exists dv, look C m t = Some (dv, factor cs m t)) /\
     (forall m t c, look C m t = Some c -> t <> "grad" /\ calls_for SCov m t cs <> [])).
Proof. exact (light_kfac rnd svd kind wsize eigh inverse fsqrt enc dec show extract mask body ms a q bs es sids M). Qed.
Print Assumptions C105_kfac_extract.
Theorem C105_kfac_influence {F} `{OField F} (rnd : mid -> list nat -> F) (svd : tensor F -> res (tensor F)) (kind : mid -> mkind) (wsize : mid -> nat) (eigh : tensor F -> res (tensor F * tensor F)) (inverse : tensor F -> res (tensor F)) (fsqrt : F -> F)
    (enc : @dten F -> array) (dec : array -> @dten F) (show : did -> string) {B X} (extract : B -> SM X (list did)) (mask : option (B -> res (option (@dten F)))) (body : B -> list (@ev F)) ms a (q : @pl F X) bs es sids (M : @tlog F)
    q' bs2 es2 qids (Q : @tlog F) d :
  new_light kind wsize eigh enc "kfac" ms q -> light_training rnd svd kind eigh enc dec show extract mask body ms a q bs sids M -> let cs := light_calls kind mask body q bs in Forall call_ok cs ->
  tr_scores (pl_t q) = None -> tr_built (pl_t q) = None -> matrices ms M ->
  pl_extract rnd svd kind eigh inverse fsqrt enc dec show extract mask body a (bs :: es) q = (q', Ok tt) -> one_device (x_state (lm_x (tr_lm (pl_t q')))) -> light_testing kind eigh enc show extract mask body q' bs2 qids Q -> (forall m, In m (dkeys Q) -> factored cs Q m) ->
  pa_imode a = "dot" -> pa_damping a = Some d -> fle f0 d -> d <> f0 -> eigh_contract eigh -> decomposes eigh cs ->
  Q <> [] -> plain_log Cpu (length qids) Q -> within Q M -> (forall m, In m ms -> In m (dkeys Q)) ->
  exists qf o P, pl_influence rnd svd kind eigh inverse fsqrt enc dec show extract mask body a (bs2 :: es2) q' = (qf, Ok (Some o)) /\ tr_scores (pl_t qf) = Some o /\
    saved (tr_ifn (pl_t qf)) (InfRes qids sids (final (fun l => score_matrix P M l (length qids) (length sids)) None (dkeys Q))) /\
    dkeys P = dkeys Q /\
    (forall m g, grad_of Q m = Some (Cpu, g) -> exists v, grad_of P m = Some (Cpu, v) /\ kron_solution d (factor cs m "backward") (factor cs m "forward") v g).
Proof. exact (light_influence_kfac rnd svd kind wsize eigh inverse fsqrt enc dec show extract mask body ms a q bs es sids M q' bs2 es2 qids Q d). Qed.
Print Assumptions C105_kfac_influence.
Example C105_kfac_example : lnewrun "kfac" ["fc"] lk1 /\ ltraining ["fc"] largs lk1 [tka; tkc] ["a"; "b"; "c"] tkM /\ Forall call_ok lkcalls /\ tr_scores (pl_t lk1) = None /\ tr_built (pl_t lk1) = None /\ matrices ["fc"] tkM /\
  lextract largs [[tka; tkc]; [tu]] lk1 = (lk2, Ok tt) /\ one_device (x_state (lm_x (tr_lm (pl_t lk2)))) /\ ltesting lk2 [tu; tv; tz] ["u"; "v"; "w"; "z"] tM /\
  (forall m, In m (dkeys tM) -> factored lkcalls tM m) /\ eigh_contract xeigh /\ decomposes xeigh lkcalls /\ plain_log Cpu 4 tM /\ within tM tkM /\
  lview (fst (linfluence largs [[tu; tv; tz]; [ta]] lk2)) =
    Some (["u"; "v"; "w"; "z"], ["a"; "b"; "c"], [("", ([4; 3], [-72 # 1003; 144 # 29; -144 # 1003; -48 # 1003; 72 # 203; -96 # 1003; -168 # 1003; -48 # 203; -336 # 1003; 36 # 1003; 96 # 203; 72 # 1003]%Q))]).
Proof.
  split; [apply lnew_ok; vm_compute; reflexivity|]. split; [eapply ltraining_ok; [repeat constructor; apply own_micro|reflexivity|exact tkM_storable|vm_compute; reflexivity|vm_compute; reflexivity]|].
  split; [apply call_okb_ok; vm_compute; reflexivity|]. split; [vm_compute; reflexivity|]. split; [vm_compute; reflexivity|]. split; [eapply tM_plain; reflexivity|]. split; [apply t_pair; vm_compute; reflexivity|]. split; [exact lk_device|]. split; [apply ltesting_ok; split; vm_compute; reflexivity|].
  split; [rewrite lk_calls; exact k_factored|]. split; [exact xeigh_ok|]. split; [rewrite lk_calls; exact k_decomposes|]. split; [eapply tM_plain; reflexivity|]. split; [eapply tM_within; reflexivity|]. vm_compute; reflexivity.
Qed.
