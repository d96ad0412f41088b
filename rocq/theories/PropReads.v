(** C95: reads of entries that a log does not have. *)
From Coq Require Import ZArith QArith Qcanon.
From Verif Require Import Py PyStr Field Tensor ModelGrad Monad ModelState ModelInfluence ModelReads SpecInfluence SpecFault SpecReads ReadProofs5 ReadProofs6 ReadProofs7 ReadProofs8 ReadProofs9 ExNum ExState ExInfluence ExReads.
Local Open Scope string_scope.
Local Open Scope list_scope.
Local Open Scope nat_scope.

(** C95. As long as nothing is missing the scores are those of C41-C53, and a call changes nothing but the device of the target's tensors. *)
Theorem C95_influence {F} `{OField F} (eigh : tensor F -> res (tensor F * tensor F)) (inverse : tensor F -> res (tensor F)) (fsqrt : F -> F) (w : @world F) sids tids a b (A : @tlog F) t c (B : @tlog F) mode prec h groups d :
  stands w a b A -> stands w t c B -> a <> t ->
  match compute_influence eigh inverse fsqrt (sids, Nest (log_nd A)) (tids, Nest (log_nd B)) mode prec h groups d (w_st w) with
  | (s', Ok v) => exists w' dv, compute_influence_r eigh inverse fsqrt (sids, At a) (tids, At t) mode prec h groups d w = (w', Ok v) /\ w_st w' = s' /\
      stands w' t c (placed dv B) /\ others_kept w w' [t] /\
      (prec = false -> forall m k l, log_keys B = (m, k) :: l -> exists x, look A m k = Some (dv, x))
  | (_, Err e) => exists w' e', compute_influence_r eigh inverse fsqrt (sids, At a) (tids, At t) mode prec h groups d w = (w', Err e') /\
      (e' = e \/ (b && c = false /\ e' = KeyError))
  end.
Proof. exact (influence_follows eigh inverse fsqrt w sids tids a b A t c B mode prec h groups d). Qed.
Print Assumptions C95_influence.
Theorem C95_flat {F} `{OField F} (eigh : tensor F -> res (tensor F * tensor F)) (inverse : tensor F -> res (tensor F)) (fsqrt : F -> F) (w : @world F) sids tids a b (A : @tlog F) u mode prec h groups d :
  stands w a b A ->
  match compute_influence eigh inverse fsqrt (sids, Nest (log_nd A)) (tids, Flat u) mode prec h groups d (w_st w) with
  | (s', Ok v) => exists w', compute_influence_r eigh inverse fsqrt (sids, At a) (tids, One u) mode prec h groups d w = (w', Ok v) /\ w_st w' = s' /\ others_kept w w' []
  | (_, Err e) => exists w' e', compute_influence_r eigh inverse fsqrt (sids, At a) (tids, One u) mode prec h groups d w = (w', Err e') /\ (e' = e \/ (b = false /\ e' = KeyError))
  end.
Proof. exact (flat_follows eigh inverse fsqrt w sids tids a b A u mode prec h groups d). Qed.
Print Assumptions C95_flat.
Theorem C95_self_influence {F} `{OField F} (eigh : tensor F -> res (tensor F * tensor F)) (inverse : tensor F -> res (tensor F)) (w : @world F) ids a b (A : @tlog F) prec h groups d :
  stands w a b A ->
  match compute_self_influence eigh inverse (ids, Nest (log_nd A)) prec h groups d (w_st w) with
  | (s', Ok v) => exists w', compute_self_influence_r eigh inverse (ids, At a) prec h groups d w = (w', Ok v) /\ w_st w' = s' /\ others_kept w w' []
  | (_, Err e) => exists w' e', compute_self_influence_r eigh inverse (ids, At a) prec h groups d w = (w', Err e') /\ (e' = e \/ (b = false /\ e' = KeyError))
  end.
Proof. exact (self_follows eigh inverse w ids a b A prec h groups d). Qed.
Print Assumptions C95_self_influence.
(** The same log as source and target: preconditioning makes a source of its own; ... *)
Theorem C95_same_log_preconditioned {F} `{OField F} (eigh : tensor F -> res (tensor F * tensor F)) (inverse : tensor F -> res (tensor F)) (fsqrt : F -> F) (w : @world F) sids tids a b (A C : @tlog F) mode h groups d :
  stands w a b A -> dget "covariance_state" (attrs (w_st w)) = Some (log_nd C) -> covered C A ->
  match compute_influence eigh inverse fsqrt (sids, Nest (log_nd A)) (tids, Nest (log_nd A)) mode true h groups d (w_st w) with
  | (s', Ok v) => exists w' dv, compute_influence_r eigh inverse fsqrt (sids, At a) (tids, At a) mode true h groups d w = (w', Ok v) /\ w_st w' = s' /\
      stands w' a b (placed dv A) /\ others_kept w w' [a]
  | (_, Err e) => exists w' e', compute_influence_r eigh inverse fsqrt (sids, At a) (tids, At a) mode true h groups d w = (w', Err e') /\
      (e' = e \/ (b = false /\ e' = KeyError))
  end.
Proof. exact (same_preconditioned eigh inverse fsqrt w sids tids a b A C mode h groups d). Qed.
Print Assumptions C95_same_log_preconditioned.
(** ... without it the source moves with the target, to the device of its own first tensor. *)
Theorem C95_same_log {F} `{OField F} (eigh : tensor F -> res (tensor F * tensor F)) (inverse : tensor F -> res (tensor F)) (fsqrt : F -> F) (w : @world F) sids tids a b (A : @tlog F) mode prec h groups d m k l dv x :
  stands w a b A -> skips prec h (w_st w) A -> log_keys A = (m, k) :: l -> look A m k = Some (dv, x) ->
  match compute_influence eigh inverse fsqrt (sids, Nest (log_nd (placed dv A))) (tids, Nest (log_nd (placed dv A))) mode prec h groups d (w_st w) with
  | (s', Ok v) => exists w', compute_influence_r eigh inverse fsqrt (sids, At a) (tids, At a) mode prec h groups d w = (w', Ok v) /\ w_st w' = s' /\
      stands w' a b (placed dv A) /\ others_kept w w' [a]
  | (_, Err e) => exists w' e', compute_influence_r eigh inverse fsqrt (sids, At a) (tids, At a) mode prec h groups d w = (w', Err e') /\
      (e' = e \/ (b = false /\ e' = KeyError))
  end.
Proof. exact (same_plain eigh inverse fsqrt w sids tids a b A mode prec h groups d m k l dv x). Qed.
Print Assumptions C95_same_log.
(** A layer of the source that the target does not have. *)
Theorem C95_target_lacks_layer {F} `{OField F} (eigh : tensor F -> res (tensor F * tensor F)) (inverse : tensor F -> res (tensor F)) (fsqrt : F -> F) dv (w : @world F) sids tids a b (A : @tlog F) t c (B : @tlog F) mode h groups d l1 m l2 x :
  stands w a b A -> stands w t c B -> a <> t -> In mode ["dot"; "l2"; "cosine"] -> groups_ok groups -> head_on dv A B -> log_keys B <> [] ->
  dkeys A = l1 ++ m :: l2 -> (forall x, In x l1 -> paired_grads dv (length sids) (length tids) A B x) -> grad_of A m = Some x -> grad_of B m = None ->
  exists w', compute_influence_r eigh inverse fsqrt (sids, At a) (tids, At t) mode false h groups d w = (w', Err (if c then AttributeError else KeyError)) /\
    w_st w' = w_st w /\ others_kept w w' [t] /\
    (if c then nth_error (w_logs w') t = Some (true, with_hole (placed dv B) m "grad") /\ spoiled w' t else stands w' t false (placed dv B)).
Proof. exact (target_hole eigh inverse fsqrt dv w sids tids a b A t c B mode h groups d l1 m l2 x). Qed.
Print Assumptions C95_target_lacks_layer.
(** The first tensor of the target is missing in the source. *)
Theorem C95_source_lacks_first {F} `{OField F} (eigh : tensor F -> res (tensor F * tensor F)) (inverse : tensor F -> res (tensor F)) (fsqrt : F -> F) (w : @world F) sids tids a b (A : @tlog F) t c (B : @tlog F) mode h groups d m k l :
  stands w a b A -> stands w t c B -> a <> t -> In mode ["dot"; "l2"; "cosine"] -> log_keys B = (m, k) :: l -> look A m k = None ->
  exists w', compute_influence_r eigh inverse fsqrt (sids, At a) (tids, At t) mode false h groups d w = (w', Err (if b then AttributeError else KeyError)) /\
    w_st w' = w_st w /\ others_kept w w' [a] /\
    (if b then nth_error (w_logs w') a = Some (true, with_hole A m k) /\ (grad_of A m = None -> spoiled w' a) else w' = w).
Proof. exact (source_hole eigh inverse fsqrt w sids tids a b A t c B mode h groups d m k l). Qed.
Print Assumptions C95_source_lacks_first.
(** Whatever is called afterwards, no scores are ever computed with such a log again. *)
Theorem C95_spoiled_for_good {F} `{OField F} (eigh : tensor F -> res (tensor F * tensor F)) (inverse : tensor F -> res (tensor F)) (fsqrt : F -> F) (w : @world F) r cs ids ids' r' mode prec h groups d :
  spoiled w r -> let w' := run_calls eigh inverse fsqrt cs w in
  spoiled w' r /\
  (exists w1 e, compute_influence_r eigh inverse fsqrt (ids, At r) (ids', At r') mode prec h groups d w' = (w1, Err e)) /\
  (exists w1 e, compute_influence_r eigh inverse fsqrt (ids', At r') (ids, At r) mode prec h groups d w' = (w1, Err e)) /\
  (exists w1 e, compute_self_influence_r eigh inverse (ids, At r) prec h groups d w' = (w1, Err e)).
Proof. exact (spoiled_for_good eigh inverse fsqrt w r cs ids ids' r' mode prec h groups d). Qed.
Print Assumptions C95_spoiled_for_good.
(** A layer of the log whose eigenvalues were not corrected: an empty dictionary is stored as its eigenvalues, the layers before it stay damped ... *)
Theorem C95_ekfac_lacks_layer {F} `{OField F} (eigh : tensor F -> res (tensor F * tensor F)) (inverse : tensor F -> res (tensor F)) ids (w : @world F) r live dv C EC E L d h l1 m l2 g vf vb :
  stands w r live L -> ekfac_state (w_st w) C EC E -> covered C L -> NoDup (dkeys L) -> picks_kfac h C L ->
  dkeys L = l1 ++ m :: l2 -> (forall x, In x l1 -> ekfac_data dv EC E L x) -> grad_of L m = Some g -> look EC m "forward" = Some vf -> look EC m "backward" = Some vb -> dget m E = None ->
  exists w', precondition_r eigh inverse (ids, At r) (Some d) h w = (w', Err AssertionError) /\ w_logs w' = w_logs w /\
    dget "ekfac_eigval_state" (attrs (w_st w')) = Some (Node (map (fun q => (fst q, Leaf (VT (snd q)))) (increased d dv (only l1 L) E) ++ [(m, Node [])])) /\
    (forall n, n <> "ekfac_eigval_state" -> dget n (attrs (w_st w')) = dget n (attrs (w_st w))).
Proof. exact (ekfac_hole eigh inverse ids w r live dv C EC E L d h l1 m l2 g vf vb). Qed.
Print Assumptions C95_ekfac_lacks_layer.
(** ... and the statistic raises for this layer from then on. *)
Theorem C95_ekfac_stuck {F} `{OField F} (eigh : tensor F -> res (tensor F * tensor F)) b m g off (s : @lstate F) EC vf vb d x ev c :
  dget "covariance_eigvec_state" (attrs s) = Some (log_nd EC) -> look EC m "forward" = Some vf -> look EC m "backward" = Some vb ->
  dget "covariance_eigval_state" (attrs s) = Some ev -> dget "ekfac_counter" (attrs s) = Some c -> dget "ekfac_eigval_state" (attrs s) = Some (Node d) -> dget m d = Some (Node x) -> get_data b m "grad" None = Ok g ->
  corrected_eigval_update eigh b m None off s = (s, Err AttributeError).
Proof. exact (ekfac_stuck eigh b m g off s EC vf vb d x ev c). Qed.
Print Assumptions C95_ekfac_stuck.
(** Without corrected eigenvalues an empty dictionary is stored as the eigenvectors (raw: the inverse) of the layer that has no covariance. *)
Theorem C95_kfac_lacks_covariance {F} `{OField F} (eigh : tensor F -> res (tensor F * tensor F)) (inverse : tensor F -> res (tensor F)) ids (w : @world F) r live C L d h l1 m l2 g t :
  eigh_contract eigh -> stands w r live L -> kfac_ready eigh (w_st w) C -> solvable eigh C -> covered C L -> NoDup (dkeys L) -> picks_kfac h C L ->
  dkeys L = l1 ++ m :: l2 -> (forall x, In x l1 -> kfac_data C L x) -> grad_of L m = Some g -> look C m t = None -> t = "forward" \/ (t = "backward" /\ exists c, look C m "forward" = Some c) ->
  exists w' EV EC, precondition_r eigh inverse (ids, At r) d h w = (w', Err AttributeError) /\ w_logs w' = w_logs w /\ decomposed eigh C EV EC /\
    dget "covariance_eigvec_state" (attrs (w_st w')) = Some (with_hole EC m t) /\ dget "covariance_eigval_state" (attrs (w_st w')) = Some (log_nd EV) /\
    (forall n, n <> "covariance_eigval_state" -> n <> "covariance_eigvec_state" -> dget n (attrs (w_st w')) = dget n (attrs (w_st w))).
Proof. exact (kfac_hole eigh inverse ids w r live C L d h l1 m l2 g t). Qed.
Print Assumptions C95_kfac_lacks_covariance.
Theorem C95_raw_lacks_covariance {F} `{OField F} (eigh : tensor F -> res (tensor F * tensor F)) (inverse : tensor F -> res (tensor F)) ids (w : @world F) r live C L d h l1 m l2 g :
  inverse_contract inverse -> stands w r live L -> raw_ready inverse (w_st w) C d -> invertible inverse d C -> covered C L -> NoDup (dkeys L) -> picks_raw h C L ->
  dkeys L = l1 ++ m :: l2 -> (forall x, In x l1 -> raw_data C L x) -> grad_of L m = Some g -> look C m "grad" = None ->
  exists w' IV, precondition_r eigh inverse (ids, At r) d h w = (w', Err AttributeError) /\ w_logs w' = w_logs w /\ inverted inverse d C IV /\
    dget "covariance_inverse_state" (attrs (w_st w')) = Some (with_hole IV m "grad") /\
    (forall n, n <> "covariance_inverse_state" -> dget n (attrs (w_st w')) = dget n (attrs (w_st w))).
Proof. exact (raw_hole eigh inverse ids w r live C L d h l1 m l2 g). Qed.
Print Assumptions C95_raw_lacks_covariance.
(** Log 0 has three layers, log 1 two. The first call fails and spoils log 1, so a source that fits log 1 fails with it too; read from a log loader, log 1 stays usable. *)
Example C95_example : let w := rworld state_init true rA true xB in let w1 := fst (rinf rsrc rtgt "dot" false "auto" None None w) in
  stands w 0 true rA /\ stands w 1 true xB /\ groups_ok None /\ head_on Cpu rA xB /\ log_keys xB <> [] /\ dkeys rA = ["fc1"; "fc2"] ++ ["fc3"] /\
  (forall x, In x ["fc1"; "fc2"] -> paired_grads Cpu 1 3 rA xB x) /\ (exists x, grad_of rA "fc3" = Some x) /\ grad_of xB "fc3" = None /\
  rshow (rinf rsrc rtgt "dot" false "auto" None None w) = Err AttributeError /\
  w_logs w1 = [(true, log_nd rA); (true, Node (match log_nd xB with Node l => l ++ [("fc3", Node [("grad", Node [])])] | Leaf _ => [] end))] /\
  (let u := World state_init [(true, log_nd xA); nth 1 (w_logs w1) (true, Node [])] in rshow (rinf rsrc rtgt "dot" false "auto" None None u) = Err AttributeError) /\
  rshow (rinf rsrc rtgt "dot" false "auto" None None (rworld state_init true xA true xB)) = Ok (["q"], ["a"; "b"; "c"], [("", ([1; 3], ints [-1; 3; 7]%Z))]) /\
  (let p := rinf rsrc rtgt "dot" false "auto" None None (rworld state_init true rA false xB) in rshow p = Err KeyError /\ w_logs (fst p) = [(true, log_nd rA); (false, log_nd xB)]).
Proof.
  cbv zeta. split; [reflexivity|]. split; [reflexivity|]. split; [exact Logic.I|]. split; [eexists; reflexivity|]. split; [discriminate|]. split; [reflexivity|]. split; [exact r_paired|]. split; [eexists; reflexivity|]. split; [reflexivity|].
  repeat (split; [vm_compute; reflexivity|]). split; vm_compute; reflexivity.
Qed.
(** The second layer of log 0 is on another device: not usable with a copy of it, but with itself. *)
Example C95_example_same_log : let A := [("fc1", [("grad", (Cpu, zt [1; 1; 2] [1; 2]%Z))]); ("fc2", [("grad", (Gpu, zt [1; 1; 2] [0; -1]%Z))])] in let w := rworld state_init true A true A in
  stands w 0 true A /\ skips false "auto" (w_st w) A /\ log_keys A = [("fc1", "grad"); ("fc2", "grad")] /\ (exists x, look A "fc1" "grad" = Some (Cpu, x)) /\
  rshow (rinf rsrc (["q"], At 1) "dot" false "auto" None None w) = Err RuntimeError /\
  rshow (rinf rsrc rsrc "dot" false "auto" None None w) = Ok (["q"], ["q"], [("", ([1; 1], ints [6]%Z))]) /\
  w_logs (fst (rinf rsrc rsrc "dot" false "auto" None None w)) = [(true, log_nd (placed Cpu A)); (true, log_nd A)].
Proof. cbv zeta. split; [reflexivity|]. split; [left; reflexivity|]. split; [reflexivity|]. split; [eexists; reflexivity|]. repeat (split; [vm_compute; reflexivity|]); vm_compute; reflexivity. Qed.
Example C95_example_same_preconditioned : let w := World xstate [(true, log_nd xA)] in
  stands w 0 true xA /\ dget "covariance_state" (attrs (w_st w)) = Some (log_nd xC) /\ covered xC xA /\
  is_Ok (rshow (rinf rsrc rsrc "dot" true "kfac" None xd w)) = true.
Proof. cbv zeta. split; [reflexivity|]. split; [exact (proj1 x_holds)|]. split; [apply covered_b; vm_compute; reflexivity|]. vm_compute; reflexivity. Qed.
(** The source is spoiled when the target's first layer is missing in it; its self-influence, which could be computed before, no longer can. *)
Example C95_example_source : let B := [("fc3", [("grad", (Cpu, zt [3; 1; 1] [1; 1; 1]%Z))])] ++ xB in let w := rworld state_init true xA true B in let w1 := fst (rinf rsrc rtgt "dot" false "auto" None None w) in
  log_keys B = ("fc3", "grad") :: log_keys xB /\ look xA "fc3" "grad" = None /\ grad_of xA "fc3" = None /\
  rshow (rinf rsrc rtgt "dot" false "auto" None None w) = Err AttributeError /\
  is_Ok (snd (rself rsrc false "auto" None None w)) = true /\ snd (rself rsrc false "auto" None None w1) = Err TypeError /\
  rshow (rinf rsrc rtgt "dot" false "auto" None None (rworld state_init false xA true B)) = Err KeyError.
Proof. cbv zeta. repeat (split; [vm_compute; reflexivity|]); vm_compute; reflexivity. Qed.
(** Eigenvalues were corrected for [fc1] only. *)
Example C95_example_ekfac : let w := World ustate [(true, log_nd xA)] in let w1 := fst (rpre rsrc xd "kfac" w) in
  stands w 0 true xA /\ ekfac_state (w_st w) zC zEC uE /\ covered zC xA /\ NoDup (dkeys xA) /\ picks_kfac "kfac" zC xA /\ dkeys xA = ["fc1"] ++ ["fc2"] /\ (forall x, In x ["fc1"] -> ekfac_data Cpu zEC uE xA x) /\
  (exists g, grad_of xA "fc2" = Some g) /\ (exists v, look zEC "fc2" "forward" = Some v) /\ (exists v, look zEC "fc2" "backward" = Some v) /\ dget "fc2" uE = None /\
  snd (rpre rsrc xd "kfac" w) = Err AssertionError /\
  is_Ok (snd (corrected_eigval_update xeigh (BInfo None (log_nd xA)) "fc2" None false (w_st w))) = true /\
  snd (corrected_eigval_update xeigh (BInfo None (log_nd xA)) "fc2" None false (w_st w1)) = Err AttributeError.
Proof.
  cbv zeta. split; [reflexivity|]. split; [exact u_state|]. split; [apply covered_b; vm_compute; reflexivity|]. split; [apply nodup_ok; reflexivity|]. split; [left; reflexivity|]. split; [reflexivity|]. split; [exact u_data|]. split; [eexists; reflexivity|].
  split; [destruct (look_b_ok zEC "fc2" "forward" (orth_b 2) ltac:(vm_compute; reflexivity)) as (v & L & _); exists v; exact L|]. split; [destruct (look_b_ok zEC "fc2" "backward" (orth_b 1) ltac:(vm_compute; reflexivity)) as (v & L & _); exists v; exact L|].
  repeat (split; [vm_compute; reflexivity|]); vm_compute; reflexivity.
Qed.
(** [fc1] has its covariances, [fc2] lacks one. *)
Example C95_example_caches : let w := World vstate [(true, log_nd xA)] in let u := World tstate [(true, log_nd xA)] in
  eigh_contract xeigh /\ kfac_ready xeigh (w_st w) vC /\ solvable xeigh vC /\ covered vC xA /\ picks_kfac "auto" vC xA /\ (forall x, In x ["fc1"] -> kfac_data vC xA x) /\ look vC "fc2" "forward" = None /\
  snd (rpre rsrc None "auto" w) = Err AttributeError /\ dmem "fc2" (match dget "covariance_eigvec_state" (attrs (w_st (fst (rpre rsrc None "auto" w)))) with Some (Node d) => d | _ => [] end) = true /\
  inverse_contract xinverse /\ raw_ready xinverse (w_st u) tC xd /\ invertible xinverse xd tC /\ covered tC xA /\ picks_raw "auto" tC xA /\ (forall x, In x ["fc1"] -> raw_data tC xA x) /\ look tC "fc2" "grad" = None /\
  snd (rpre rsrc xd "auto" u) = Err AttributeError.
Proof.
  cbv zeta. split; [exact xeigh_ok|]. split; [exact v_ready|]. split; [exact v_solvable|]. split; [apply covered_b; vm_compute; reflexivity|]. split; [right; split; [reflexivity|]; split; [discriminate|vm_compute; reflexivity]|]. split; [exact v_data|].
  do 3 (split; [vm_compute; reflexivity|]). split; [exact xinverse_ok|]. split; [exact (t_ready xd)|]. split; [exact t_invertible|]. split; [apply covered_b; vm_compute; reflexivity|]. split; [right; split; [reflexivity|]; split; [discriminate|vm_compute; reflexivity]|]. split; [exact t_data|].
  split; vm_compute; reflexivity.
Qed.
