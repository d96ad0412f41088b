(** C107: a logging run of the Lightning trainer with corrected eigenvalues, followed by an influence run. *)
From Coq Require Import ZArith QArith Qcanon.
From Verif Require Import Py PyStr Field Tensor ModelGrad Monad ModelState ModelMmap ModelSaver ModelLoader ModelLogger ModelModules ModelLora ModelScheduler ModelInfluence ModelUtils ModelTrainer ModelLightning SpecGrad SpecState SpecStore SpecLogger SpecInfluence SpecRows SpecTrainer SpecLightning SpecDisk SpecWhole SpecLightWhole SpecDrift SpecEkfac SpecLightEkfac LightEkfac1 LightEkfac2 ExNum ExState ExInfluence ExLogger ExLora ExRows ExTrainer ExDisk ExLightning ExWhole ExLightWhole ExLightEkfac.
Local Open Scope string_scope.
Local Open Scope list_scope.
Local Open Scope nat_scope.

(** C107. extract_log of a trainer that has trained no epoch trains two: on disk the gradients of the second; in the state the
    factors of the first divided by their counts once more, the eigenvectors of the factors, and for every module the mean
    squares of the gradients in that basis. *)
Theorem C107_extract {F} `{OField F} (rnd : mid -> list nat -> F) (svd : tensor F -> res (tensor F)) (kind : mid -> mkind) (wsize : mid -> nat) (eigh : tensor F -> res (tensor F * tensor F)) (inverse : tensor F -> res (tensor F)) (fsqrt : F -> F)
    (enc : @dten F -> array) (dec : array -> @dten F) (show : did -> string) {B X} (extract : B -> SM X (list did)) (mask : option (B -> res (option (@dten F)))) (body : B -> list (@ev F)) ms a (q : @pl F X) bs1 q2 bs2 es sids (M : @tlog F) :
  new_light kind wsize eigh enc "ekfac" ms q -> pl_epoch q = 0 -> light_first rnd svd kind eigh enc show extract mask body q bs1 -> let cs := light_calls kind mask body q bs1 in Forall call_ok cs ->
  pl_do_epoch rnd svd kind eigh inverse fsqrt enc dec show extract mask body a bs1 (log_fit q) = (q2, Ok tt) -> light_training rnd svd kind eigh enc dec show extract mask body ms a q2 bs2 sids M ->
  exists q' C EC E, pl_extract rnd svd kind eigh inverse fsqrt enc dec show extract mask body a (bs1 :: bs2 :: es) q = (q', Ok tt) /\ pl_epoch q' = 2 /\ same_results (pl_t q) (pl_t q') /\
    log_batches dec show (pa_bs a) (x_dir (lm_x (tr_lm (pl_t q')))) = Ok (batches 0 (map (@length string) (chunks (pa_bs a) sids)) sids (regrad ms M)) /\
    ekfac_state (x_state (lm_x (tr_lm (pl_t q')))) C EC E /\
    (forall m t, calls_for SCov m t cs = [] -> look C m t = None /\ look EC m t = None) /\
    (forall m t, calls_for SCov m t cs <> [] -> exists dv w v, look C m t = Some (dv, divided_again cs m t) /\ eigh (factor cs m t) = Ok (w, v) /\ look EC m t = Some (dv, v)) /\
    (forall m, In m ms -> exists dv vf vb d t, look EC m "forward" = Some vf /\ look EC m "backward" = Some vb /\ grad_of M m = Some (d, t) /\ dget m E = Some (dv, mean_squares (snd vb) (snd vf) t)) /\
    (forall m, ~ In m ms -> dget m E = None).
Proof. exact (light_ekfac rnd svd kind wsize eigh inverse fsqrt enc dec show extract mask body ms a q bs1 q2 bs2 es sids M). Qed.
Print Assumptions C107_extract.
(** The influence run that follows: in the eigenbasis of the factors, a test sample of batch b, counted from 0, is divided by
    the mean squares of the training gradients plus b + 1 times the damping. *)
Theorem C107_influence {F} `{OField F} (rnd : mid -> list nat -> F) (svd : tensor F -> res (tensor F)) (kind : mid -> mkind) (wsize : mid -> nat) (eigh : tensor F -> res (tensor F * tensor F)) (inverse : tensor F -> res (tensor F)) (fsqrt : F -> F)
    (enc : @dten F -> array) (dec : array -> @dten F) (show : did -> string) {B X} (extract : B -> SM X (list did)) (mask : option (B -> res (option (@dten F)))) (body : B -> list (@ev F)) ms a (q : @pl F X) bs1 q2 bs2 es sids (M : @tlog F)
    q' bs3 es3 qids (Q : @tlog F) d ks :
  new_light kind wsize eigh enc "ekfac" ms q -> pl_epoch q = 0 -> light_first rnd svd kind eigh enc show extract mask body q bs1 -> let cs := light_calls kind mask body q bs1 in Forall call_ok cs ->
  pl_do_epoch rnd svd kind eigh inverse fsqrt enc dec show extract mask body a bs1 (log_fit q) = (q2, Ok tt) -> light_training rnd svd kind eigh enc dec show extract mask body ms a q2 bs2 sids M -> tr_scores (pl_t q) = None -> tr_built (pl_t q) = None -> matrices ms M ->
  pl_extract rnd svd kind eigh inverse fsqrt enc dec show extract mask body a (bs1 :: bs2 :: es) q = (q', Ok tt) -> light_sizes kind eigh enc show extract mask body q' bs3 qids Q ks -> splits ks (length qids) -> uniform (length qids) Q -> (forall m, In m (dkeys Q) -> factored cs Q m) ->
  pa_imode a = "dot" -> pa_damping a = Some d -> fle f0 d -> d <> f0 -> eigh_contract eigh ->
  Q <> [] -> plain_log Cpu (length qids) Q -> within Q M -> (forall m, In m ms -> In m (dkeys Q)) ->
  exists qf o P C EC E, pl_influence rnd svd kind eigh inverse fsqrt enc dec show extract mask body a (bs3 :: es3) q' = (qf, Ok (Some o)) /\ tr_scores (pl_t qf) = Some o /\
    saved (tr_ifn (pl_t qf)) (InfRes qids sids (final (fun l => score_matrix P M l (length qids) (length sids)) None (dkeys Q))) /\
    dkeys P = dkeys Q /\ ekfac_state (x_state (lm_x (tr_lm (pl_t q')))) C EC E /\
    (forall m g n i j, grad_of Q m = Some (Cpu, g) -> shape g = [n; i; j] ->
       exists wf vf wb vb dm t e p, eigh (factor cs m "forward") = Ok (wf, vf) /\ eigh (factor cs m "backward") = Ok (wb, vb) /\ grad_of M m = Some (dm, t) /\
         dget m E = Some (e, mean_squares vb vf t) /\ grad_of P m = Some (Cpu, p) /\ shape p = shape g /\
         forall k, k < n -> eig_row (if dev_eqb e Cpu then fmul (fnat (S (step_of ks k))) d else d) vb vf (mean_squares vb vf t) (slice p k) (slice g k) i j).
Proof. exact (light_influence_ekfac rnd svd kind wsize eigh inverse fsqrt enc dec show extract mask body ms a q bs1 q2 bs2 es sids M q' bs3 es3 qids Q d ks). Qed.
Print Assumptions C107_influence.
(** Two epochs over three samples; a third is not trained. Four test samples in batches of one, two and one. *)
Example C107_example : lnewrun "ekfac" ["fc"] lq1 /\ pl_epoch lq1 = 0 /\ lfirst lq1 [tka; tkc] /\ Forall call_ok lqcalls /\ lepoch largs [tka; tkc] (log_fit lq1) = (lq2, Ok tt) /\
  ltraining ["fc"] largs lq2 [tka; tkc] ["a"; "b"; "c"] tkM /\ tr_scores (pl_t lq1) = None /\ tr_built (pl_t lq1) = None /\ matrices ["fc"] tkM /\ lextract largs [[tka; tkc]; [tka; tkc]; [tu]] lq1 = (lq3, Ok tt) /\
  lsizes lq3 [tu; tv; tz] ["u"; "v"; "w"; "z"] tM [1; 2; 1] /\ uniform 4 tM /\ (forall m, In m (dkeys tM) -> factored lqcalls tM m) /\ eigh_contract xeigh /\ plain_log Cpu 4 tM /\ within tM tkM /\
  lview (fst (linfluence largs [[tu; tv; tz]; [ta]] lq3)) =
    Some (["u"; "v"; "w"; "z"], ["a"; "b"; "c"], [("", ([4; 3], [-72 # 503; 1008 # 403; -144 # 503; -24 # 253; 36 # 203; -48 # 253; -84 # 253; -24 # 203; -168 # 253; 36 # 509; 96 # 409; 72 # 509]%Q))]).
Proof.
  split; [apply lnew_ok; vm_compute; reflexivity|]. split; [reflexivity|]. split; [apply lfirst_ok; [vm_compute; reflexivity|repeat constructor; apply own_micro|vm_compute; reflexivity|vm_compute; reflexivity]|].
  split; [apply call_okb_ok; vm_compute; reflexivity|]. split; [apply t_pair; vm_compute; reflexivity|]. split; [eapply ltraining_ok; [repeat constructor; apply own_micro|reflexivity|exact tkM_storable|vm_compute; reflexivity|vm_compute; reflexivity]|].
  split; [vm_compute; reflexivity|]. split; [vm_compute; reflexivity|]. split; [eapply tM_plain; reflexivity|]. split; [apply t_pair; vm_compute; reflexivity|]. split; [apply lsizes_ok; split; vm_compute; reflexivity|]. split; [apply uniform_ok; vm_compute; reflexivity|].
  split; [rewrite lq_calls; exact k_factored|]. split; [exact xeigh_ok|]. split; [eapply tM_plain; reflexivity|]. split; [eapply tM_within; reflexivity|]. vm_compute; reflexivity.
Qed.
(** A trainer that has trained an epoch before stops after the factors: the second epoch is not trained, nothing is written. *)
Theorem C107_stops_early {F} `{OField F} (rnd : mid -> list nat -> F) (svd : tensor F -> res (tensor F)) (kind : mid -> mkind) (wsize : mid -> nat) (eigh : tensor F -> res (tensor F * tensor F)) (inverse : tensor F -> res (tensor F)) (fsqrt : F -> F)
    (enc : @dten F -> array) (dec : array -> @dten F) (show : did -> string) {B X} (extract : B -> SM X (list did)) (mask : option (B -> res (option (@dten F)))) (body : B -> list (@ev F)) ms a (q : @pl F X) bs1 es :
  new_light kind wsize eigh enc "ekfac" ms q -> pl_epoch q <> 0 -> light_first rnd svd kind eigh enc show extract mask body q bs1 -> let cs := light_calls kind mask body q bs1 in Forall call_ok cs ->
  exists q', pl_extract rnd svd kind eigh inverse fsqrt enc dec show extract mask body a (bs1 :: es) q = (q', Ok tt) /\ pl_epoch q' = S (pl_epoch q) /\ same_results (pl_t q) (pl_t q') /\
    x_dir (lm_x (tr_lm (pl_t q'))) = x_dir (lm_x (tr_lm (pl_t q))) /\ x_saver (lm_x (tr_lm (pl_t q'))) = x_saver (lm_x (tr_lm (pl_t q))).
Proof. exact (light_ekfac_short rnd svd kind wsize eigh inverse fsqrt enc dec show extract mask body ms a q bs1 es). Qed.
Print Assumptions C107_stops_early.
Example C107_stops_example : lnewrun "ekfac" ["fc"] lqs /\ pl_epoch lqs <> 0 /\ lfirst lqs [tka; tkc] /\ Forall call_ok (light_calls tkind None lbody lqs [tka; tkc]) /\
  lextract largs [[tka; tkc]; [tka; tkc]] lqs = (lqs2, Ok tt) /\ pl_epoch lqs2 = 2 /\ x_dir (lm_x (tr_lm (pl_t lqs2))) = x_dir (lm_x (tr_lm (pl_t lqs))) /\ x_dir (lm_x (tr_lm (pl_t lq3))) <> x_dir (lm_x (tr_lm (pl_t lqs))).
Proof.
  split; [apply lnew_ok; vm_compute; reflexivity|]. split; [discriminate|]. split; [apply lfirst_ok; [vm_compute; reflexivity|repeat constructor; apply own_micro|vm_compute; reflexivity|vm_compute; reflexivity]|].
  split; [apply call_okb_ok; vm_compute; reflexivity|]. split; [apply t_pair; vm_compute; reflexivity|]. split; [reflexivity|]. split; [vm_compute; reflexivity|]. vm_compute. discriminate.
Qed.
