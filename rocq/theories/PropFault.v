(** C80, C81: preconditioning and influence of logs that do not fit. *)
From Coq Require Import ZArith QArith Qcanon Permutation.
From Verif Require Import Py PyStr Field Tensor ModelGrad Monad ModelState ModelInfluence SpecGrad SpecState SpecInfluence SpecFault FaultProofs1 FaultProofs2 ExNum ExState ExInfluence ExFault.
Local Open Scope string_scope.
Local Open Scope list_scope.
Local Open Scope nat_scope.

(** C80. Preconditioning a log that does not fit the state. *)
Theorem C80_kfac_misfit {F} `{OField F} (eigh : tensor F -> res (tensor F * tensor F)) (inverse : tensor F -> res (tensor F)) ids (s : @lstate F) C L d h l1 m l2 e :
  eigh_contract eigh -> kfac_ready eigh s C -> solvable eigh C -> covered C L -> NoDup (dkeys L) -> picks_kfac h C L ->
  dkeys L = l1 ++ m :: l2 -> (forall x, In x l1 -> kfac_data C L x) -> kfac_fault C L m e ->
  exists s', precondition eigh inverse (ids, Nest (log_nd L)) d h s = (s', Err e) /\ kfac_ready eigh s' C /\
    (forall n, n <> "covariance_eigval_state" -> n <> "covariance_eigvec_state" -> dget n (attrs s') = dget n (attrs s)).
Proof. exact (kfac_misfit eigh inverse ids s C L d h l1 m l2 e). Qed.
Print Assumptions C80_kfac_misfit.
(** The layers before the one that fails have been damped in the stored eigenvalues. *)
Theorem C80_ekfac_misfit {F} `{OField F} (eigh : tensor F -> res (tensor F * tensor F)) (inverse : tensor F -> res (tensor F)) ids (s : @lstate F) dv C EC E L d h l1 m l2 e :
  ekfac_state s C EC E -> covered C L -> NoDup (dkeys L) -> picks_kfac h C L ->
  dkeys L = l1 ++ m :: l2 -> (forall x, In x l1 -> ekfac_data dv EC E L x) -> ekfac_fault EC E L m e ->
  exists s', precondition eigh inverse (ids, Nest (log_nd L)) (Some d) h s = (s', Err e) /\ ekfac_state s' C EC (increased d dv (only l1 L) E) /\
    (forall n, n <> "ekfac_eigval_state" -> dget n (attrs s') = dget n (attrs s)).
Proof. exact (ekfac_misfit eigh inverse ids s dv C EC E L d h l1 m l2 e). Qed.
Print Assumptions C80_ekfac_misfit.
Theorem C80_raw_misfit {F} `{OField F} (eigh : tensor F -> res (tensor F * tensor F)) (inverse : tensor F -> res (tensor F)) ids (s : @lstate F) C L d h l1 m l2 e :
  inverse_contract inverse -> raw_ready inverse s C d -> invertible inverse d C -> covered C L -> NoDup (dkeys L) -> picks_raw h C L ->
  dkeys L = l1 ++ m :: l2 -> (forall x, In x l1 -> raw_data C L x) -> raw_fault C L m e ->
  exists s', precondition eigh inverse (ids, Nest (log_nd L)) d h s = (s', Err e) /\ raw_ready inverse s' C d /\
    (forall n, n <> "covariance_inverse_state" -> dget n (attrs s') = dget n (attrs s)).
Proof. exact (raw_misfit eigh inverse ids s C L d h l1 m l2 e). Qed.
Print Assumptions C80_raw_misfit.
(** The choice "auto" looks at the first module of the log; a flattened log has no modules. *)
Theorem C80_empty_log {F} `{OField F} (eigh : tensor F -> res (tensor F * tensor F)) (inverse : tensor F -> res (tensor F)) ids (s : @lstate F) C d :
  holds s "covariance_state" C -> precondition eigh inverse (ids, Nest (log_nd [])) d "auto" s = (s, Err IndexError).
Proof. exact (prec_empty eigh inverse ids s C d). Qed.
Print Assumptions C80_empty_log.
Theorem C80_flat_log {F} `{OField F} (eigh : tensor F -> res (tensor F * tensor F)) (inverse : tensor F -> res (tensor F)) ids (s : @lstate F) C t d h :
  In h ["auto"; "kfac"; "raw"] -> holds s "covariance_state" C -> precondition eigh inverse (ids, Flat t) d h s = (s, Err AttributeError).
Proof. exact (prec_flat eigh inverse ids s C t d h). Qed.
Print Assumptions C80_flat_log.
(** The gradients of [fc2] are too wide for its covariances; [fc1] is fine. *)
Example C80_example_kfac : covered xC xwide /\ NoDup (dkeys xwide) /\ picks_kfac "auto" xC xwide /\ kfac_data xC xwide "fc1" /\ kfac_fault xC xwide "fc2" RuntimeError /\
  ps (xpre (xlog xwide ["q"]) xd "auto" xstate) = Err RuntimeError /\ is_Ok (ps (xpre (xlog xA ["q"]) xd "auto" (fst (xpre (xlog xwide ["q"]) xd "auto" xstate)))) = true.
Proof.
  split; [apply covered_b; vm_compute; reflexivity|]. split; [apply nodup_ok; reflexivity|]. split; [right; split; [reflexivity|]; split; [discriminate|vm_compute; reflexivity]|]. split; [exact wide_fc1|]. split; [exact wide_fc2|]. split; vm_compute; reflexivity.
Qed.
(** Gradients of [fc2] were not logged: the eigenvalues of [fc1] stay increased by the damping, so the next call divides by them increased again. *)
Example C80_example_ekfac : covered zC xhole /\ NoDup (dkeys xhole) /\ picks_kfac "kfac" zC xhole /\ ekfac_data Cpu zEC zE xhole "fc1" /\ ekfac_fault zEC zE xhole "fc2" AttributeError /\
  ps (xpre (xlog xhole ["q"]) xd "kfac" zstate) = Err AttributeError /\ 
  ps (xpre (xlog xA ["q"]) xd "kfac" (fst (xpre (xlog xhole ["q"]) xd "kfac" zstate))) <> ps (xpre (xlog xA ["q"]) xd "kfac" zstate).
Proof.
  split; [apply covered_b; vm_compute; reflexivity|]. split; [apply nodup_ok; reflexivity|]. split; [left; reflexivity|]. split; [exact (z_data 1 [1; 2]%Z [0; -1]%Z "fc1" eq_refl eq_refl (or_introl eq_refl))|]. split; [apply ef_grad; reflexivity|]. split; [vm_compute; reflexivity|]. vm_compute. discriminate.
Qed.
Example C80_example_raw : covered yC xwide /\ picks_raw "raw" yC xwide /\ raw_data yC xwide "fc1" /\ raw_fault yC xwide "fc2" RuntimeError /\
  ps (xpre (xlog xwide ["q"]) xd "raw" ystate) = Err RuntimeError /\ ps (xpre (xlog [] []) xd "auto" ystate) = Err IndexError.
Proof.
  split; [apply covered_b; vm_compute; reflexivity|]. split; [left; reflexivity|]. split; [exact (y_raw 1 [1; 2]%Z [0; -1]%Z "fc1" ltac:(discriminate) eq_refl eq_refl (or_introl eq_refl))|]. split; [exact wide_raw|]. split; vm_compute; reflexivity.
Qed.

(** C81. Degenerate logs in influence computations. *)
Theorem C81_two_devices {F} `{OField F} (eigh : tensor F -> res (tensor F * tensor F)) (inverse : tensor F -> res (tensor F)) (fsqrt : F -> F) dv (A B : @tlog F) mode h groups d (s : @lstate F) sids tids l1 m l2 e a x b ra rb n k :
  In mode ["dot"; "l2"; "cosine"] -> groups_ok groups -> head_on dv A B -> log_keys B <> [] ->
  dkeys A = l1 ++ m :: l2 -> (forall x, In x l1 -> paired_grads dv (length sids) (length tids) A B x) -> grad_of A m = Some (e, a) -> e <> dv -> grad_of B m = Some (x, b) ->
  shape a = n :: ra -> shape b = k :: rb -> ra = rb ->
  compute_influence eigh inverse fsqrt (sids, Nest (log_nd A)) (tids, Nest (log_nd B)) mode false h groups d s = (s, Err RuntimeError).
Proof. exact (influence_devices eigh inverse fsqrt dv A B mode h groups d s sids tids l1 m l2 e a x b ra rb n k). Qed.
Print Assumptions C81_two_devices.
Theorem C81_empty_source {F} `{OField F} (eigh : tensor F -> res (tensor F * tensor F)) (inverse : tensor F -> res (tensor F)) (fsqrt : F -> F) (B : @tlog F) h groups d (s : @lstate F) sids tids :
  compute_influence eigh inverse fsqrt (sids, Nest (log_nd [])) (tids, Nest (log_nd B)) "dot" false h groups d s = (s, Err AttributeError).
Proof. exact (influence_nothing eigh inverse fsqrt B h groups d s sids tids). Qed.
Print Assumptions C81_empty_source.
Theorem C81_empty_self {F} `{OField F} (eigh : tensor F -> res (tensor F * tensor F)) (inverse : tensor F -> res (tensor F)) h d (s : @lstate F) ids :
  compute_self_influence eigh inverse (ids, Nest (log_nd [])) false h None d s = (s, Err TypeError).
Proof. exact (self_nothing eigh inverse h d s ids). Qed.
Print Assumptions C81_empty_self.
Theorem C81_flat_source {F} `{OField F} (eigh : tensor F -> res (tensor F * tensor F)) (inverse : tensor F -> res (tensor F)) (fsqrt : F -> F) t tgt mode h groups d (s : @lstate F) sids tids :
  In mode ["dot"; "l2"; "cosine"] -> match tgt with Nest x => exists B : @tlog F, x = log_nd B /\ log_keys B <> [] | Flat _ => exists p, watched s p end ->
  compute_influence eigh inverse fsqrt (sids, Flat t) (tids, tgt) mode false h groups d s = (s, Err IndexError).
Proof. exact (influence_flat eigh inverse fsqrt t tgt mode h groups d s sids tids). Qed.
Print Assumptions C81_flat_source.
Theorem C81_nothing_watched {F} `{OField F} (eigh : tensor F -> res (tensor F * tensor F)) (inverse : tensor F -> res (tensor F)) (fsqrt : F -> F) (A : @tlog F) t h groups d (s : @lstate F) sids tids mode :
  In mode ["dot"; "l2"; "cosine"] -> watched s [] ->
  compute_influence eigh inverse fsqrt (sids, Nest (log_nd A)) (tids, Flat t) mode false h groups d s = (s, Err RuntimeError).
Proof. exact (influence_unwatched eigh inverse fsqrt A t h groups d s sids tids mode). Qed.
Print Assumptions C81_nothing_watched.
(** A group that has modules in the target only: one source sample gets the scores of a zero inner product, several are refused. *)
Theorem C81_target_group {F} `{OField F} (eigh : tensor F -> res (tensor F * tensor F)) (inverse : tensor F -> res (tensor F)) (fsqrt : F -> F) (A B : @tlog F) mode h gs d (s s2 : @lstate F) sids tids tids' n0 nv :
  mode = "l2" \/ mode = "cosine" -> A <> [] -> groups_ok (Some gs) ->
  (forall m, In m (dkeys A) -> paired_grads Cpu (length sids) (length tids) A B m) -> head_on Cpu A B -> all_on Cpu B -> (exists g, In g gs /\ in_group g (dkeys A) = []) ->
  compute_self_influence eigh inverse (tids, Nest (log_nd B)) true h (Some gs) d s = (s2, Ok (tids', Grp (("total", n0) :: map (fun g => (g, nv g)) gs))) ->
  shape n0 = [length tids] -> (forall g, In g gs -> shape (nv g) = [length tids]) ->
  compute_influence eigh inverse fsqrt (sids, Nest (log_nd A)) (tids, Nest (log_nd B)) mode false h (Some gs) d s =
    (s2, if length sids =? 1 then Ok (InfRes sids tids (Grp (("total", by_column (adj_fun fsqrt mode) (score_matrix A B (dkeys A) 1 (length tids)) n0) ::
                                        map (fun g => (g, by_column (adj_fun fsqrt mode) (score_matrix A B (in_group g (dkeys A)) 1 (length tids)) (nv g))) gs)))
         else Err AssertionError).
Proof. exact (target_group eigh inverse fsqrt A B mode h gs d s s2 sids tids tids' n0 nv). Qed.
Print Assumptions C81_target_group.
(** [fc2] on another device; one and two source samples with gradients of [fc1] only. *)
Example C81_example : head_on Cpu xgpu xB /\ paired_grads Cpu 1 3 xgpu xB "fc1" /\ rs (xinf (xlog xgpu ["q"]) sB "dot" false "auto" None None state_init) = Err RuntimeError /\
  rs (xinf (xlog [] []) sB "dot" false "auto" None None state_init) = Err AttributeError /\ ss (xself (xlog [] []) false "auto" None None state_init) = Err TypeError /\
  rs (xinf (["q"], Flat (Cpu, xflat)) sB "dot" false "auto" None None state_init) = Err IndexError.
Proof.
  split; [eexists; reflexivity|]. split; [exact (x_paired 1 3 [1; 2]%Z [0; -1]%Z [1; 0; 2; 1; -1; 3]%Z [0; 2; 1; 1; 5; -2]%Z "fc1" eq_refl eq_refl eq_refl eq_refl (or_introl eq_refl))|]. repeat split; vm_compute; reflexivity.
Qed.
Example C81_example_group : groups_ok (Some ["fc1"; "fc2"]) /\ (forall m, In m (dkeys (xone 1 [1; 2]%Z)) -> paired_grads Cpu 1 3 (xone 1 [1; 2]%Z) xB m) /\ in_group "fc2" (dkeys (xone 1 [1; 2]%Z)) = [] /\
  is_Ok (ss (xself sB true "raw" (Some ["fc1"; "fc2"]) xd ystate)) = true /\
  is_Ok (rs (xinf (xlog (xone 1 [1; 2]%Z) ["q"]) sB "l2" false "raw" (Some ["fc1"; "fc2"]) xd ystate)) = true /\
  rs (xinf (xlog (xone 2 [1; 2; 3; 4]%Z) ["q"; "r"]) sB "l2" false "raw" (Some ["fc1"; "fc2"]) xd ystate) = Err AssertionError.
Proof.
  split; [repeat constructor; intros X; cbn in X; intuition discriminate|]. split; [intros m [<-|[]]; exact (x_paired 1 3 [1; 2]%Z [0; -1]%Z [1; 0; 2; 1; -1; 3]%Z [0; 2; 1; 1; 5; -2]%Z "fc1" eq_refl eq_refl eq_refl eq_refl (or_introl eq_refl))|].
  split; [reflexivity|]. repeat split; vm_compute; reflexivity.
Qed.
