(** C41-C53, C60: influence scores (logix/analysis) and merged logs. *)
From Coq Require Import ZArith QArith Qcanon Permutation.
From Verif Require Import Py PyStr Field Tensor ModelGrad Monad ModelState ModelInfluence SpecGrad SpecState SpecInfluence SpecLogs InfProofs1 InfProofs2 InfProofs5 InfProofs6 InfProofs7 InfProofs8 InfProofs9 InfProofs10 InfProofs11 InfProofs12 InfProofs13 InfProofs14 ExNum ExState ExInfluence.
Local Open Scope string_scope.
Local Open Scope list_scope.
Local Open Scope nat_scope.

(** C41. Influence without preconditioning. *)
Theorem C41_influence_dot {F} `{OField F} (eigh : tensor F -> res (tensor F * tensor F)) (inverse : tensor F -> res (tensor F)) (fsqrt : F -> F) dv (A B : @tlog F) sids tids groups h d (s : @lstate F) :
  A <> [] -> groups_ok groups -> groups_hit groups (dkeys A) ->
  (forall m, In m (dkeys A) -> paired_grads dv (length sids) (length tids) A B m) -> head_on dv A B ->
  compute_influence eigh inverse fsqrt (sids, Nest (log_nd A)) (tids, Nest (log_nd B)) "dot" false h groups d s =
  (s, Ok (InfRes sids tids (final (fun l => score_matrix A B l (length sids) (length tids)) groups (dkeys A)))).
Proof. exact (influence_dot eigh inverse fsqrt dv A B sids tids groups h d s). Qed.
Print Assumptions C41_influence_dot.
(** The first tensor of the target is not logged in the source. *)
Theorem C41_influence_head_missing {F} `{OField F} (eigh : tensor F -> res (tensor F * tensor F)) (inverse : tensor F -> res (tensor F)) (fsqrt : F -> F) (A : @tlog F) (B : @tlog F) mode h groups d (s : @lstate F) sids tids m t r :
  In mode ["dot"; "l2"; "cosine"] -> log_keys B = (m, t) :: r -> look A m t = None ->
  compute_influence eigh inverse fsqrt (sids, Nest (log_nd A)) (tids, Nest (log_nd B)) mode false h groups d s = (s, Err AttributeError).
Proof. exact (influence_head_missing eigh inverse fsqrt A B mode h groups d s sids tids m t r). Qed.
Print Assumptions C41_influence_head_missing.
(** A layer of the source is missing in the target, or has another shape there. *)
Theorem C41_influence_mismatch {F} `{OField F} (eigh : tensor F -> res (tensor F * tensor F)) (inverse : tensor F -> res (tensor F)) (fsqrt : F -> F) dv (A : @tlog F) (B : @tlog F) mode h groups d (s : @lstate F) sids tids l1 m l2 a :
  In mode ["dot"; "l2"; "cosine"] -> groups_ok groups -> head_on dv A B -> log_keys B <> [] ->
  dkeys A = l1 ++ m :: l2 -> (forall x, In x l1 -> paired_grads dv (length sids) (length tids) A B x) -> grad_of A m = Some (dv, a) ->
  (grad_of B m = None -> compute_influence eigh inverse fsqrt (sids, Nest (log_nd A)) (tids, Nest (log_nd B)) mode false h groups d s = (s, Err AttributeError)) /\
  (forall b, grad_of B m = Some b -> tl (shape (snd b)) <> tl (shape a) -> compute_influence eigh inverse fsqrt (sids, Nest (log_nd A)) (tids, Nest (log_nd B)) mode false h groups d s = (s, Err AssertionError)).
Proof. exact (influence_mismatch eigh inverse fsqrt dv A B mode h groups d s sids tids l1 m l2 a). Qed.
Print Assumptions C41_influence_mismatch.
(** The numbers of identifiers do not match the tensors. *)
Theorem C41_influence_ids {F} `{OField F} (eigh : tensor F -> res (tensor F * tensor F)) (inverse : tensor F -> res (tensor F)) (fsqrt : F -> F) dv (A : @tlog F) (B : @tlog F) n k h groups d (s : @lstate F) sids tids :
  A <> [] -> groups_ok groups -> (forall m, In m (dkeys A) -> paired_grads dv n k A B m) -> head_on dv A B -> n <> length sids \/ k <> length tids ->
  compute_influence eigh inverse fsqrt (sids, Nest (log_nd A)) (tids, Nest (log_nd B)) "dot" false h groups d s = (s, Err AssertionError).
Proof. exact (influence_ids eigh inverse fsqrt dv A B n k h groups d s sids tids). Qed.
Print Assumptions C41_influence_ids.
(** Two layers; the totals are sums over the layers. Layers logged only in the target are ignored unless they come first. *)
Example C41_example : groups_ok (Some ["fc1"; "fc2"]) /\ groups_hit (Some ["fc1"; "fc2"]) (dkeys xA) /\ (forall m, In m (dkeys xA) -> paired_grads Cpu 1 3 xA xB m) /\ head_on Cpu xA xB /\
  rs (xinf sA sB "dot" false "auto" (Some ["fc1"; "fc2"]) None state_init) =
    Ok (["q"], ["a"; "b"; "c"], [("total", ([1; 3], ints [-1; 3; 7]%Z)); ("fc1", ([1; 3], ints [1; 4; 5]%Z)); ("fc2", ([1; 3], ints [-2; -1; 2]%Z))]) /\
  let extra := [("fc3", [("grad", (Cpu, zt [3; 1; 1] [1; 1; 1]%Z))])] in
  rs (xinf sA (xlog (xB ++ extra) ["a"; "b"; "c"]) "dot" false "auto" None None state_init) = Ok (["q"], ["a"; "b"; "c"], [("", ([1; 3], ints [-1; 3; 7]%Z))]) /\
  rs (xinf sA (xlog (extra ++ xB) ["a"; "b"; "c"]) "dot" false "auto" None None state_init) = Err AttributeError /\
  rs (xinf (xlog (xA ++ extra) ["q"]) sB "dot" false "auto" None None state_init) = Err AttributeError /\
  rs (xinf sA sB "dot" false "auto" None None (fst (xinf (xlog xA ["q"; "r"]) sB "dot" false "auto" None None state_init))) = rs (xinf sA sB "dot" false "auto" None None state_init) /\
  rs (xinf (xlog xA ["q"; "r"]) sB "dot" false "auto" None None state_init) = Err AssertionError.
Proof.
  split; [apply nodup_ok; reflexivity|]. split; [intros g [<-|[<-|[]]]; discriminate|]. split; [intros m; apply x_paired; reflexivity|]. split; [eexists; reflexivity|]. repeat split; vm_compute; reflexivity.
Qed.

(** C42. Batch independence. *)
Theorem C42_batches_dot {F} `{OField F} (eigh : tensor F -> res (tensor F * tensor F)) (inverse : tensor F -> res (tensor F)) (fsqrt : F -> F) dv (A : @tlog F) (B : @tlog F) (prec : bool) h groups d (s : @lstate F) sids tids ks :
  A <> [] -> plain_log dv (length sids) A -> plain_log dv (length tids) B -> within A B -> keeps_shapes (if prec then precondition eigh inverse (sids, Nest (log_nd A)) d h else sret (sids, Nest (log_nd A))) A s ->
  grad_first B -> (forall m, In m (dkeys B) -> In m (dkeys A)) ->
  groups_ok groups -> groups_hit groups (dkeys A) -> splits ks (length tids) ->
  influence_all eigh inverse fsqrt (sids, Nest (log_nd A)) (batches 0 ks tids B) "dot" prec h groups d s =
  (let (s', r) := compute_influence eigh inverse fsqrt (sids, Nest (log_nd A)) (tids, Nest (log_nd B)) "dot" prec h groups d s in (s', let* x := r in Ok (Some x))).
Proof. exact (batches_dot eigh inverse fsqrt dv A B prec h groups d s sids tids ks). Qed.
Print Assumptions C42_batches_dot.
Theorem C42_batches_kfac {F} `{OField F} (eigh : tensor F -> res (tensor F * tensor F)) (inverse : tensor F -> res (tensor F)) (fsqrt : F -> F) (C : @tlog F) (A : @tlog F) (B : @tlog F) mode (prec : bool) h groups d (s : @lstate F) sids tids ks :
  mode = "l2" \/ mode = "cosine" -> A <> [] ->
  plain_log Cpu (length sids) A -> plain_log Cpu (length tids) B -> all_on Cpu B -> within A B -> grad_first B -> (forall m, In m (dkeys B) -> In m (dkeys A)) ->
  groups_ok groups -> groups_hit groups (dkeys A) -> splits ks (length tids) ->
  eigh_contract eigh -> kfac_ready eigh s C -> solvable eigh C -> picks_kfac h C B -> picks_kfac h C A -> (forall m, In m (dkeys B) -> kfac_data C B m) -> (forall m, In m (dkeys A) -> kfac_data C A m) ->
  exists s' r, compute_influence eigh inverse fsqrt (sids, Nest (log_nd A)) (tids, Nest (log_nd B)) mode prec h groups d s = (s', Ok r) /\
    influence_all eigh inverse fsqrt (sids, Nest (log_nd A)) (batches 0 ks tids B) mode prec h groups d s = (s', Ok (Some r)).
Proof. exact (batches_kfac eigh inverse fsqrt C A B mode prec h groups d s sids tids ks). Qed.
Print Assumptions C42_batches_kfac.
Theorem C42_batches_raw {F} `{OField F} (eigh : tensor F -> res (tensor F * tensor F)) (inverse : tensor F -> res (tensor F)) (fsqrt : F -> F) (C : @tlog F) (A : @tlog F) (B : @tlog F) mode (prec : bool) h groups d (s : @lstate F) sids tids ks :
  mode = "l2" \/ mode = "cosine" -> A <> [] ->
  plain_log Cpu (length sids) A -> plain_log Cpu (length tids) B -> all_on Cpu B -> within A B -> grad_first B -> (forall m, In m (dkeys B) -> In m (dkeys A)) ->
  groups_ok groups -> groups_hit groups (dkeys A) -> splits ks (length tids) ->
  inverse_contract inverse -> raw_ready inverse s C d -> invertible inverse d C -> picks_raw h C B -> picks_raw h C A -> (forall m, In m (dkeys B) -> raw_data C B m) -> (forall m, In m (dkeys A) -> raw_data C A m) ->
  exists s' r, compute_influence eigh inverse fsqrt (sids, Nest (log_nd A)) (tids, Nest (log_nd B)) mode prec h groups d s = (s', Ok r) /\
    influence_all eigh inverse fsqrt (sids, Nest (log_nd A)) (batches 0 ks tids B) mode prec h groups d s = (s', Ok (Some r)).
Proof. exact (batches_raw eigh inverse fsqrt C A B mode prec h groups d s sids tids ks). Qed.
Print Assumptions C42_batches_raw.
(** With layers that have no covariance, nothing is preconditioned. *)
Theorem C42_batches_uncovered {F} `{OField F} (eigh : tensor F -> res (tensor F * tensor F)) (inverse : tensor F -> res (tensor F)) (fsqrt : F -> F) (C : @tlog F) (A : @tlog F) (B : @tlog F) mode h groups d (s : @lstate F) sids tids ks (prec : bool) :
  mode = "l2" \/ mode = "cosine" -> A <> [] ->
  plain_log Cpu (length sids) A -> plain_log Cpu (length tids) B -> all_on Cpu B -> within A B -> grad_first B -> (forall m, In m (dkeys B) -> In m (dkeys A)) ->
  groups_ok groups -> groups_hit groups (dkeys A) -> splits ks (length tids) -> In h ["auto"; "kfac"; "raw"] ->
  holds s "covariance_state" C -> (exists m, In m (dkeys B) /\ ~ In m (dkeys C)) ->
  exists r, compute_influence eigh inverse fsqrt (sids, Nest (log_nd A)) (tids, Nest (log_nd B)) mode prec h groups d s = (s, Ok r) /\
    influence_all eigh inverse fsqrt (sids, Nest (log_nd A)) (batches 0 ks tids B) mode prec h groups d s = (s, Ok (Some r)).
Proof. exact (batches_uncovered eigh inverse fsqrt C A B mode h groups d s sids tids ks prec). Qed.
Print Assumptions C42_batches_uncovered.
Example C42_example : splits [2; 1] 3 /\ keeps_shapes (precondition xeigh xinverse sA xd "auto") xA xstate /\ keeps_shapes (precondition xeigh xinverse sA xd "auto") xA ystate /\ kfac_ready xeigh xstate xC /\ solvable xeigh xC /\ (forall m, In m (dkeys xB) -> kfac_data xC xB m) /\ raw_ready xinverse ystate yC xd /\ invertible xinverse xd yC /\
  (forall m, In m (dkeys xB) -> raw_data yC xB m) /\ plain_log Cpu 3 xB /\ all_on Cpu xB /\ within xA xB /\
  oa (xall sA (batches 0 [2; 1] ["a"; "b"; "c"] xB) "l2" true "auto" None xd xstate) = Ok (Some (["q"], ["a"; "b"; "c"], [("", ([1; 3], [-13828 # 452403; -12643 # 904806; -167975 # 1809612]%Q))])) /\
  oa (xall sA (batches 0 [2; 1] ["a"; "b"; "c"] xB) "l2" true "auto" None xd ystate) = Ok (Some (["q"], ["a"; "b"; "c"], [("", ([1; 3], [-491 # 220; 1 # 44; -139 # 55]%Q))])).
Proof.
  split; [repeat split; [discriminate|repeat constructor; discriminate]|]. split; [apply keeps_ok; vm_compute; reflexivity|]. split; [apply keeps_ok; vm_compute; reflexivity|]. split; [exact x_ready|]. split; [exact x_solvable|]. split; [eapply x_kfac; reflexivity|]. split; [apply y_ready|]. split; [exact y_invertible|]. split; [intros m; apply y_raw; [discriminate|reflexivity|reflexivity]|].
  split; [apply x_plain; reflexivity|]. split; [apply x_on|]. split; [apply x_within|]. split; vm_compute; reflexivity.
Qed.
(** With corrected eigenvalues on the device of the gradients, the scores depend on the batches. *)
Theorem C42_ekfac_refuted : ~ forall (C EC : @tlog Qc) (E : dict string (@dten Qc)) (A B : @tlog Qc) (s : @lstate Qc) sids tids ks d,
  ekfac_state s C EC E -> plain_log Cpu (length sids) A -> plain_log Cpu (length tids) B -> all_on Cpu B -> within A B -> grad_first B -> (forall m, In m (dkeys B) -> In m (dkeys A)) ->
  (forall m, In m (dkeys A) -> ekfac_data Cpu EC E A m) -> (forall m, In m (dkeys B) -> ekfac_data Cpu EC E B m) -> covered C A -> covered C B -> splits ks (length tids) ->
  oa (xall (sids, Nest (log_nd A)) (batches 0 ks tids B) "l2" true "kfac" None d s) =
  (let r := xinf (sids, Nest (log_nd A)) (tids, Nest (log_nd B)) "l2" true "kfac" None d s in match rs r with Ok x => Ok (Some x) | Err e => Err e end).
Proof. exact ekfac_batches. Qed.
Print Assumptions C42_ekfac_refuted.

(** C43. Flattened targets. *)
Theorem C43_flat_nested {F} `{OField F} (eigh : tensor F -> res (tensor F * tensor F)) (inverse : tensor F -> res (tensor F)) (fsqrt : F -> F) dv (A : @tlog F) (B : @tlog F) dv' t ms (prec : bool) h d (s : @lstate F) sids tids :
  A <> [] -> sids <> [] -> plain_log dv (length sids) A -> plain_log dv (length tids) B -> within A B -> keeps_shapes (if prec then precondition eigh inverse (sids, Nest (log_nd A)) d h else sret (sids, Nest (log_nd A))) A s ->
  grad_first B -> (forall m, In m (dkeys B) -> In m (dkeys A)) ->
  watched s (map (fun m => (m, "grad")) ms) -> Permutation ms (dkeys A) -> flattened (length tids) B ms t ->
  compute_influence eigh inverse fsqrt (sids, Nest (log_nd A)) (tids, Flat (dv', t)) "dot" prec h None d s = compute_influence eigh inverse fsqrt (sids, Nest (log_nd A)) (tids, Nest (log_nd B)) "dot" prec h None d s.
Proof. exact (flat_nested eigh inverse fsqrt dv A B dv' t ms prec h d s sids tids). Qed.
Print Assumptions C43_flat_nested.
(** Groups need nested targets. *)
Theorem C43_flat_groups {F} `{OField F} (eigh : tensor F -> res (tensor F * tensor F)) (inverse : tensor F -> res (tensor F)) (fsqrt : F -> F) dv (A : @tlog F) (B : @tlog F) dv' t ms (prec : bool) h d gs (s s1 : @lstate F) sids tids r :
  A <> [] -> sids <> [] -> plain_log dv (length sids) A -> plain_log dv (length tids) B -> within A B -> keeps_shapes (if prec then precondition eigh inverse (sids, Nest (log_nd A)) d h else sret (sids, Nest (log_nd A))) A s ->
  watched s (map (fun m => (m, "grad")) ms) -> Permutation ms (dkeys A) -> flattened (length tids) B ms t -> groups_ok (Some gs) -> gs <> [] ->
  (if prec then precondition eigh inverse (sids, Nest (log_nd A)) d h else sret (sids, Nest (log_nd A))) s = (s1, Ok r) ->
  compute_influence eigh inverse fsqrt (sids, Nest (log_nd A)) (tids, Flat (dv', t)) "dot" prec h (Some gs) d s = (s1, Err AttributeError).
Proof. exact (flat_groups eigh inverse fsqrt dv A B dv' t ms prec h d gs s s1 sids tids r). Qed.
Print Assumptions C43_flat_groups.
(** The other modes need nested targets. *)
Theorem C43_flat_modes {F} `{OField F} (eigh : tensor F -> res (tensor F * tensor F)) (inverse : tensor F -> res (tensor F)) (fsqrt : F -> F) dv (A : @tlog F) (B : @tlog F) dv' t ms (prec : bool) h d groups mode (s s1 : @lstate F) sids tids r :
  mode = "l2" \/ mode = "cosine" -> A <> [] -> sids <> [] -> plain_log dv (length sids) A -> plain_log dv (length tids) B -> within A B -> keeps_shapes (if prec then precondition eigh inverse (sids, Nest (log_nd A)) d h else sret (sids, Nest (log_nd A))) A s ->
  watched s (map (fun m => (m, "grad")) ms) -> Permutation ms (dkeys A) -> flattened (length tids) B ms t -> groups_ok groups ->
  (if prec then precondition eigh inverse (sids, Nest (log_nd A)) d h else sret (sids, Nest (log_nd A))) s = (s1, Ok r) ->
  compute_influence eigh inverse fsqrt (sids, Nest (log_nd A)) (tids, Flat (dv', t)) mode prec h groups d s = (s1, Err NotImplementedError).
Proof. exact (flat_modes eigh inverse fsqrt dv A B dv' t ms prec h d groups mode s s1 sids tids r). Qed.
Print Assumptions C43_flat_modes.
Theorem C43_self_flat {F} `{OField F} (eigh : tensor F -> res (tensor F * tensor F)) (inverse : tensor F -> res (tensor F)) ids t (prec : bool) h groups d (s : @lstate F) :
  compute_self_influence eigh inverse (ids, Flat t) prec h groups d s = (s, Err NotImplementedError).
Proof. exact (self_flat eigh inverse ids t prec h groups d s). Qed.
Print Assumptions C43_self_flat.
(** The layers are read in the order of the recorded path, which need not be the order of the log. *)
Example C43_example : keeps_shapes (precondition xeigh xinverse sA xd "auto") xA vstate /\ watched vstate (map (fun m => (m, "grad")) xpath) /\ Permutation xpath (dkeys xA) /\ flattened 3 xB xpath xflat /\ plain_log Cpu 3 xB /\ within xA xB /\
  rs (xinf sA (["a"; "b"; "c"], Flat (Gpu, xflat)) "dot" true "auto" None xd vstate) = Ok (["q"], ["a"; "b"; "c"], [("", ([1; 3], [-6413 # 452403; 14053 # 904806; 46556 # 452403]%Q))]) /\
  rs (xinf sA sB "dot" true "auto" None xd vstate) = Ok (["q"], ["a"; "b"; "c"], [("", ([1; 3], [-6413 # 452403; 14053 # 904806; 46556 # 452403]%Q))]) /\
  rs (xinf sA (["a"; "b"; "c"], Flat (Gpu, xflat)) "dot" true "auto" (Some ["fc"]) xd vstate) = Err AttributeError /\
  rs (xinf sA (["a"; "b"; "c"], Flat (Gpu, xflat)) "l2" true "auto" None xd vstate) = Err NotImplementedError.
Proof.
  split; [apply keeps_ok; vm_compute; reflexivity|]. split; [apply is_path_ok; vm_compute; reflexivity|]. split; [apply perm_swap|]. split; [split; [reflexivity|split; [reflexivity|]]; intros [|[|[|i]]] Li; try reflexivity; lia|]. split; [apply x_plain; reflexivity|]. split; [apply x_within|].
  repeat split; vm_compute; reflexivity.
Qed.

(** C44. Preconditioning with covariances of gradients. *)
Theorem C44_raw_solves {F} `{OField F} (eigh : tensor F -> res (tensor F * tensor F)) (inverse : tensor F -> res (tensor F)) ids s (C : @tlog F) (L : @tlog F) d h :
  inverse_contract inverse -> raw_ready inverse s C d -> invertible inverse d C -> NoDup (dkeys L) -> picks_raw h C L ->
  (forall m, In m (dkeys L) -> raw_data C L m) ->
  exists s' P, precondition eigh inverse (ids, Nest (log_nd L)) d h s = (s', Ok (ids, Nest (log_nd P))) /\ raw_ready inverse s' C d /\ dkeys P = dkeys L /\
    (forall n, n <> "covariance_inverse_state" -> dget n (attrs s') = dget n (attrs s)) /\
    (forall m t, t <> "grad" -> look P m t = None) /\
    forall m dv g c, grad_of L m = Some (dv, g) -> look C m "grad" = Some c ->
      exists p, grad_of P m = Some (dv, p) /\ raw_solution (own_damping (snd c) d) (snd c) p g.
Proof. exact (raw_solves eigh inverse ids s C L d h). Qed.
Print Assumptions C44_raw_solves.
(** (C + I) p = g: fc1 has C = [5/2 1/2; 1/2 1/2]. *)
Example C44_example : raw_ready xinverse ystate yC xd /\ invertible xinverse xd yC /\ (forall m, In m (dkeys xA) -> raw_data yC xA m) /\ picks_raw "auto" yC xA /\
  tshow yC = [("fc1", [("grad", ([2; 2], [5 # 2; 1 # 2; 1 # 2; 1 # 2]%Q))]); ("fc2", [("grad", ([2; 2], ints [5; 1; 1; 1]%Z))])] /\
  ps (xpre sA xd "auto" ystate) = Ok (["q"], [("fc1", [("grad", ([1; 1; 2], [1 # 10; 13 # 10]%Q))]); ("fc2", [("grad", ([1; 1; 2], [1 # 11; -6 # 11]%Q))])]).
Proof. split; [apply y_ready|]. split; [exact y_invertible|]. split; [intros m; apply y_raw; [discriminate|reflexivity|reflexivity]|]. split; [right; repeat split; discriminate|]. split; vm_compute; reflexivity. Qed.

(** C45. KFAC preconditioning. *)
Theorem C45_kfac_solves {F} `{OField F} (eigh : tensor F -> res (tensor F * tensor F)) (inverse : tensor F -> res (tensor F)) ids s (C : @tlog F) (L : @tlog F) d h :
  eigh_contract eigh -> kfac_ready eigh s C -> solvable eigh C -> NoDup (dkeys L) -> picks_kfac h C L ->
  (forall m, In m (dkeys L) -> kfac_data C L m) -> fle f0 d -> d <> f0 ->
  exists s' P, precondition eigh inverse (ids, Nest (log_nd L)) (Some d) h s = (s', Ok (ids, Nest (log_nd P))) /\ kfac_ready eigh s' C /\ dkeys P = dkeys L /\
    (forall n, n <> "covariance_eigval_state" -> n <> "covariance_eigvec_state" -> dget n (attrs s') = dget n (attrs s)) /\
    (forall m t, t <> "grad" -> look P m t = None) /\
    forall m dv g cf cb, grad_of L m = Some (dv, g) -> look C m "forward" = Some cf -> look C m "backward" = Some cb ->
      exists p, grad_of P m = Some (dv, p) /\ kron_solution d (snd cb) (snd cf) p g.
Proof. exact (kfac_solves eigh inverse ids s C L d h). Qed.
Print Assumptions C45_kfac_solves.
(** fc1: 5/2 p [73/2 18; 18 26] + p = (1, 2). *)
Example C45_example : eigh_contract xeigh /\ kfac_ready xeigh xstate xC /\ solvable xeigh xC /\ (forall m, In m (dkeys xA) -> kfac_data xC xA m) /\ picks_kfac "auto" xC xA /\
  tshow xC = [("fc1", [("forward", ([2; 2], [73 # 2; 18 # 1; 18 # 1; 26 # 1]%Q)); ("backward", ([1; 1], [5 # 2]%Q))]);
              ("fc2", [("forward", ([2; 2], [26 # 1; -18 # 1; -18 # 1; 73 # 2]%Q)); ("backward", ([1; 1], [10 # 1]%Q))])] /\
  ps (xpre sA xd "auto" xstate) = Ok (["q"], [("fc1", [("grad", ([1; 1; 2], [-16 # 2709; 31 # 903]%Q))]); ("fc2", [("grad", ([1; 1; 2], [-10 # 3507; -29 # 7014]%Q))])]).
Proof. split; [exact xeigh_ok|]. split; [exact x_ready|]. split; [exact x_solvable|]. split; [eapply x_kfac; reflexivity|]. split; [right; repeat split; discriminate|]. split; vm_compute; reflexivity. Qed.

(** C46. Default damping of KFAC. *)
(** The default comes from the first layer and is used for all. *)
Theorem C46_kfac_default {F} `{OField F} (eigh : tensor F -> res (tensor F * tensor F)) (inverse : tensor F -> res (tensor F)) ids s (C : @tlog F) (L : @tlog F) h m0 r0 g0 n0 a0 b0 dv0 cf cb :
  eigh_contract eigh -> kfac_ready eigh s C -> solvable eigh C -> NoDup (dkeys L) -> picks_kfac h C L ->
  (forall m, In m (dkeys L) -> kfac_data C L m) -> dkeys L = m0 :: r0 -> grad_of L m0 = Some (dv0, g0) -> shape g0 = [n0; a0; b0] -> a0 <> 0 -> b0 <> 0 ->
  look C m0 "forward" = Some cf -> look C m0 "backward" = Some cb ->
  precondition eigh inverse (ids, Nest (log_nd L)) None h s = precondition eigh inverse (ids, Nest (log_nd L)) (Some (kron_damping (snd cb) (snd cf))) h s.
Proof. exact (kfac_default eigh inverse ids s C L h m0 r0 g0 n0 a0 b0 dv0 cf cb). Qed.
Print Assumptions C46_kfac_default.
(** With an explicit damping, the result for a layer depends on that layer only. *)
Theorem C46_kfac_local {F} `{OField F} (eigh : tensor F -> res (tensor F * tensor F)) (inverse : tensor F -> res (tensor F)) ids ids' s s' (C : @tlog F) (L : @tlog F) (L' : @tlog F) d h h' :
  eigh_contract eigh -> kfac_ready eigh s C -> kfac_ready eigh s' C -> solvable eigh C -> NoDup (dkeys L) -> NoDup (dkeys L') ->
  picks_kfac h C L -> picks_kfac h' C L' -> (forall m, In m (dkeys L) -> kfac_data C L m) -> (forall m, In m (dkeys L') -> kfac_data C L' m) ->
  exists s1 s1' P P', precondition eigh inverse (ids, Nest (log_nd L)) (Some d) h s = (s1, Ok (ids, Nest (log_nd P))) /\
    precondition eigh inverse (ids', Nest (log_nd L')) (Some d) h' s' = (s1', Ok (ids', Nest (log_nd P'))) /\
    forall m, grad_of L m = grad_of L' m -> grad_of P m = grad_of P' m.
Proof. exact (kfac_local eigh inverse ids ids' s s' C L L' d h h'). Qed.
Print Assumptions C46_kfac_local.
(** Without an explicit damping, the result for a layer depends on which layer comes first. *)
Theorem C46_order_refuted : ~ forall (C L : @tlog Qc) (s : @lstate Qc) ids m s1 s2 P1 P2, eigh_contract xeigh -> kfac_ready xeigh s C -> solvable xeigh C -> NoDup (dkeys L) ->
  (forall m, In m (dkeys L) -> kfac_data C L m) ->
  xpre (ids, Nest (log_nd L)) None "kfac" s = (s1, Ok (ids, Nest (log_nd P1))) -> xpre (ids, Nest (log_nd (rev L))) None "kfac" s = (s2, Ok (ids, Nest (log_nd P2))) ->
  grad_of P1 m = grad_of P2 m.
Proof. exact kfac_order. Qed.
Print Assumptions C46_order_refuted.
Example C46_example : qz 0 <> qz 1 /\ kron_damping (zt [1; 1] [10]%Z) (zt [2; 2] [1; 0; 0; 3]%Z) = qz 2 /\
  ps (xpre sA None "auto" xstate) = Ok (["q"], [("fc1", [("grad", ([1; 1; 2], [-176 # 53125; 1568 # 53125]%Q))]); ("fc2", [("grad", ([1; 1; 2], [-9216 # 3453125; -13712 # 3453125]%Q))])]) /\
  ps (xpre (xlog (rev xA) ["q"]) None "auto" xstate) = Ok (["q"], [("fc2", [("grad", ([1; 1; 2], [-576 # 265625; -932 # 265625]%Q))]); ("fc1", [("grad", ([1; 1; 2], [2 # 3125; 64 # 3125]%Q))])]).
Proof. split; [discriminate|]. split; [apply Qc_is_canon; vm_compute; reflexivity|]. split; vm_compute; reflexivity. Qed.

(** C47. The damped inverse is computed once. *)
(** Later calls reuse the first inverse, whatever the damping and the covariances are. *)
Theorem C47_raw_damping_ignored {F} `{OField F} (eigh : tensor F -> res (tensor F * tensor F)) (inverse : tensor F -> res (tensor F)) ids s (C : @tlog F) (L : @tlog F) d1 s1 r :
  holds s "covariance_state" C -> covered C L ->
  precondition eigh inverse (ids, Nest (log_nd L)) d1 "raw" s = (s1, Ok r) ->
  forall s2 C2 d2, dget "covariance_inverse_state" (attrs s2) = dget "covariance_inverse_state" (attrs s1) -> holds s2 "covariance_state" C2 -> covered C2 L ->
    precondition eigh inverse (ids, Nest (log_nd L)) d2 "raw" s2 = (s2, Ok r).
Proof. exact (raw_damping_ignored eigh inverse ids s C L d1 s1 r). Qed.
Print Assumptions C47_raw_damping_ignored.
(** Accumulating statistics does not reset it. *)
Theorem C47_calls_keep_inverse {F} `{OField F} cs (s : @lstate F) :
  dget "covariance_inverse_state" (attrs (fst (run_calls cs s))) = dget "covariance_inverse_state" (attrs s).
Proof. exact (calls_keep_inverse cs s). Qed.
Print Assumptions C47_calls_keep_inverse.
(** The second call asks for damping 5 and new covariances; it gets the result for damping 1 and the old ones. *)
Example C47_example : holds ystate "covariance_state" yC /\ covered yC xA /\
  let s1 := fst (xpre sA xd "raw" ystate) in let s2 := fst (run_calls ycalls s1) in
  ps (xpre sA xd "raw" ystate) = Ok (["q"], [("fc1", [("grad", ([1; 1; 2], [1 # 10; 13 # 10]%Q))]); ("fc2", [("grad", ([1; 1; 2], [1 # 11; -6 # 11]%Q))])]) /\
  ps (xpre sA (Some (qz 5)) "raw" s1) = ps (xpre sA xd "raw" ystate) /\ ps (xpre sA (Some (qz 5)) "raw" s2) = ps (xpre sA xd "raw" ystate) /\
  ps (xpre sA (Some (qz 5)) "raw" ystate) <> ps (xpre sA xd "raw" ystate) /\ tshow (to_tlog (xnd s2 "covariance_state")) <> tshow yC.
Proof. split; [exact y_holds|]. split; [apply covered_b; reflexivity|]. cbv zeta. repeat split; try (vm_compute; reflexivity); intros X; vm_compute in X; discriminate X. Qed.

(** C48. Repeated preconditioning. *)
Theorem C48_kfac_repeat {F} `{OField F} (eigh : tensor F -> res (tensor F * tensor F)) (inverse : tensor F -> res (tensor F)) ids s (C : @tlog F) (L : @tlog F) d h s' r :
  eigh_contract eigh -> kfac_ready eigh s C -> solvable eigh C -> NoDup (dkeys L) -> picks_kfac h C L ->
  (forall m, In m (dkeys L) -> kfac_data C L m) ->
  precondition eigh inverse (ids, Nest (log_nd L)) d h s = (s', Ok r) -> precondition eigh inverse (ids, Nest (log_nd L)) d h s' = (s', Ok r).
Proof. exact (kfac_repeat eigh inverse ids s C L d h s' r). Qed.
Print Assumptions C48_kfac_repeat.
(** Corrected eigenvalues on the device of the gradients are increased in place. *)
Theorem C48_ekfac_step {F} `{OField F} (eigh : tensor F -> res (tensor F * tensor F)) (inverse : tensor F -> res (tensor F)) ids (s : @lstate F) dv (C : @tlog F) (EC : @tlog F) (E : dict string (@dten F)) (L : @tlog F) d h :
  ekfac_state s C EC E -> NoDup (dkeys L) -> (forall m, In m (dkeys L) -> ekfac_data dv EC E L m) -> covered C L -> picks_kfac h C L ->
  fle f0 d -> d <> f0 ->
  exists s' P, precondition eigh inverse (ids, Nest (log_nd L)) (Some d) h s = (s', Ok (ids, Nest (log_nd P))) /\ ekfac_state s' C EC (increased d dv L E) /\ dkeys P = dkeys L /\
    (forall n, n <> "ekfac_eigval_state" -> dget n (attrs s') = dget n (attrs s)) /\
    forall m g vf vb x, grad_of L m = Some (dv, g) -> look EC m "forward" = Some vf -> look EC m "backward" = Some vb -> dget m E = Some x ->
      exists p, grad_of P m = Some (dv, p) /\ eig_solution d (snd vb) (snd vf) (snd x) p g.
Proof. exact (ekfac_step eigh inverse ids s dv C EC E L d h). Qed.
Print Assumptions C48_ekfac_step.
Theorem C48_ekfac_default {F} `{OField F} (eigh : tensor F -> res (tensor F * tensor F)) (inverse : tensor F -> res (tensor F)) ids (s : @lstate F) dv (C : @tlog F) (EC : @tlog F) (E : dict string (@dten F)) (L : @tlog F) h m0 r0 x0 :
  ekfac_state s C EC E -> NoDup (dkeys L) -> (forall m, In m (dkeys L) -> ekfac_data dv EC E L m) -> covered C L -> picks_kfac h C L ->
  dkeys L = m0 :: r0 -> dget m0 E = Some x0 ->
  precondition eigh inverse (ids, Nest (log_nd L)) None h s = precondition eigh inverse (ids, Nest (log_nd L)) (Some (fmul (fdiv f1 (fnat 10)) (fdiv (tsum (snd x0)) (fnat (numel (snd x0)))))) h s.
Proof. exact (ekfac_default eigh inverse ids s dv C EC E L h m0 r0 x0). Qed.
Print Assumptions C48_ekfac_default.
(** The call number k + 1 uses k + 1 times the damping. *)
Theorem C48_ekfac_drift {F} `{OField F} (eigh : tensor F -> res (tensor F * tensor F)) (inverse : tensor F -> res (tensor F)) k ids (s : @lstate F) dv (C : @tlog F) (EC : @tlog F) (E : dict string (@dten F)) (L : @tlog F) d h :
  ekfac_state s C EC E -> NoDup (dkeys L) -> (forall m, In m (dkeys L) -> ekfac_data dv EC E L m) -> covered C L -> picks_kfac h C L ->
  fle f0 d -> d <> f0 ->
  exists s' P, precondition eigh inverse (ids, Nest (log_nd L)) (Some d) h (after eigh inverse k ids L d h s) = (s', Ok (ids, Nest (log_nd P))) /\
    forall m g vf vb e x, grad_of L m = Some (dv, g) -> look EC m "forward" = Some vf -> look EC m "backward" = Some vb -> dget m E = Some (e, x) ->
      exists p, grad_of P m = Some (dv, p) /\ eig_solution (if dev_eqb e dv then fmul (fnat (S k)) d else d) (snd vb) (snd vf) x p g.
Proof. exact (ekfac_drift eigh inverse k ids s dv C EC E L d h). Qed.
Print Assumptions C48_ekfac_drift.
(** Corrected eigenvalues grow by the damping with every call. *)
Example C48_example : ekfac_state zstate zC zEC zE /\ (forall m, In m (dkeys xA) -> ekfac_data Cpu zEC zE xA m) /\ covered zC xA /\ picks_kfac "auto" zC xA /\
  map (fun q => (fst q, show (snd (snd q)))) zE = [("fc1", ([1; 2], [37 # 50; 113 # 50]%Q)); ("fc2", ([1; 2], [37 # 25; 113 # 25]%Q))] /\
  let s1 := fst (xpre sA xd "auto" zstate) in
  ps (xpre sA xd "auto" zstate) = Ok (["q"], [("fc1", [("grad", ([1; 1; 2], [690 # 4727; 11740 # 14181]%Q))]); ("fc2", [("grad", ([1; 1; 2], [76 # 713; -461 # 1426]%Q))])]) /\
  map (fun q => (fst q, show (snd (snd q)))) (to_leaves (xnd s1 "ekfac_eigval_state")) = [("fc1", ([1; 2], [87 # 50; 163 # 50]%Q)); ("fc2", ([1; 2], [62 # 25; 138 # 25]%Q))] /\
  ps (xpre sA xd "auto" s1) = Ok (["q"], [("fc1", [("grad", ([1; 1; 2], [4570 # 29181; 5580 # 9727]%Q))]); ("fc2", [("grad", ([1; 1; 2], [304 # 4727; -3391 # 14181]%Q))])]).
Proof. split; [exact z_state|]. split; [intros m; apply z_data; reflexivity|]. split; [apply covered_b; reflexivity|]. split; [right; repeat split; discriminate|]. cbv zeta. repeat split; vm_compute; reflexivity. Qed.

(** C49. Self-influence. *)
Theorem C49_self_diagonal {F} `{OField F} (eigh : tensor F -> res (tensor F * tensor F)) (inverse : tensor F -> res (tensor F)) (fsqrt : F -> F) dv (L : @tlog F) ids (prec : bool) groups h d (s : @lstate F) :
  L <> [] -> plain_log dv (length ids) L -> keeps_shapes (if prec then precondition eigh inverse (ids, Nest (log_nd L)) d h else sret (ids, Nest (log_nd L))) L s -> grad_first L -> groups_ok groups -> groups_hit groups (dkeys L) ->
  let log := (ids, Nest (log_nd L)) in
  match compute_influence eigh inverse fsqrt log log "dot" prec h groups d s with
  | (s', Ok r) => i_src r = ids /\ i_tgt r = ids /\ compute_self_influence eigh inverse log prec h groups d s = (s', Ok (ids, diagonal (i_val r)))
  | (s', Err e) => compute_self_influence eigh inverse log prec h groups d s = (s', Err e)
  end.
Proof. exact (self_diagonal eigh inverse fsqrt dv L ids prec groups h d s). Qed.
Print Assumptions C49_self_diagonal.
Theorem C49_kfac_positive {F} `{OField F} (eigh : tensor F -> res (tensor F * tensor F)) (inverse : tensor F -> res (tensor F)) ids dv (C : @tlog F) (L : @tlog F) groups h d (s : @lstate F) :
  eigh_contract eigh -> kfac_ready eigh s C -> solvable eigh C -> L <> [] -> plain_log dv (length ids) L -> picks_kfac h C L ->
  (forall m, In m (dkeys L) -> kfac_data C L m) -> fle f0 d -> d <> f0 -> groups_ok groups -> groups_hit groups (dkeys L) ->
  exists s' t, compute_self_influence eigh inverse (ids, Nest (log_nd L)) true h groups (Some d) s = (s', Ok (ids, final t groups (dkeys L))) /\ positive_form L (length ids) t.
Proof. exact (kfac_positive eigh inverse ids dv C L groups h d s). Qed.
Print Assumptions C49_kfac_positive.
Theorem C49_raw_positive {F} `{OField F} (eigh : tensor F -> res (tensor F * tensor F)) (inverse : tensor F -> res (tensor F)) ids dv (C : @tlog F) (L : @tlog F) groups h d (s : @lstate F) :
  inverse_contract inverse -> raw_ready inverse s C (Some d) -> invertible inverse (Some d) C -> L <> [] -> plain_log dv (length ids) L -> picks_raw h C L ->
  (forall m, In m (dkeys L) -> raw_data C L m) -> (forall m c, look C m "grad" = Some c -> psd (nth 0 (shape (snd c)) 0) (snd c)) -> fle f0 d -> d <> f0 -> groups_ok groups -> groups_hit groups (dkeys L) ->
  exists s' t, compute_self_influence eigh inverse (ids, Nest (log_nd L)) true h groups (Some d) s = (s', Ok (ids, final t groups (dkeys L))) /\ positive_form L (length ids) t.
Proof. exact (raw_positive eigh inverse ids dv C L groups h d s). Qed.
Print Assumptions C49_raw_positive.
Theorem C49_plain_positive {F} `{OField F} (eigh : tensor F -> res (tensor F * tensor F)) (inverse : tensor F -> res (tensor F)) ids dv (L : @tlog F) groups h d (s : @lstate F) :
  L <> [] -> plain_log dv (length ids) L -> groups_ok groups -> groups_hit groups (dkeys L) ->
  exists t, compute_self_influence eigh inverse (ids, Nest (log_nd L)) false h groups d s = (s, Ok (ids, final t groups (dkeys L))) /\ positive_form L (length ids) t.
Proof. exact (plain_positive eigh inverse ids dv L groups h d s). Qed.
Print Assumptions C49_plain_positive.
Example C49_example : plain_log Cpu 3 xB /\ keeps_shapes (precondition xeigh xinverse sB xd "auto") xB xstate /\ keeps_shapes (precondition xeigh xinverse sB xd "auto") xB ystate /\ grad_first xB /\ kfac_ready xeigh xstate xC /\ (forall m, In m (dkeys xB) -> kfac_data xC xB m) /\ (forall m c, look yC m "grad" = Some c -> psd (nth 0 (shape (snd c)) 0) (snd c)) /\
  ss (xself sB true "auto" None xd xstate) = Ok (["a"; "b"; "c"], [("", ([3], [14830 # 452403; 26696 # 452403; 354199 # 904806]%Q))]) /\
  ss (xself sB true "auto" None xd ystate) = Ok (["a"; "b"; "c"], [("", ([3], [273 # 110; 45 # 22; 866 # 55]%Q))]) /\
  ss (xself sB false "auto" (Some ["1"; "2"]) None xstate) = Ok (["a"; "b"; "c"], [("total", ([3], ints [5; 7; 39]%Z)); ("1", ([3], ints [1; 5; 10]%Z)); ("2", ([3], ints [4; 2; 29]%Z))]).
Proof. split; [apply x_plain; reflexivity|]. split; [apply keeps_ok; vm_compute; reflexivity|]. split; [apply keeps_ok; vm_compute; reflexivity|]. split; [reflexivity|]. split; [exact x_ready|]. split; [eapply x_kfac; reflexivity|]. split; [exact y_psd|]. repeat split; vm_compute; reflexivity. Qed.

(** C50. Groups. *)
Theorem C50_groups_add_up {F} `{OField F} (eigh : tensor F -> res (tensor F * tensor F)) (inverse : tensor F -> res (tensor F)) (fsqrt : F -> F) dv (A : @tlog F) (B : @tlog F) (prec : bool) h gs d (s s' : @lstate F) sids tids r :
  A <> [] -> plain_log dv (length sids) A -> plain_log dv (length tids) B -> within A B -> keeps_shapes (if prec then precondition eigh inverse (sids, Nest (log_nd A)) d h else sret (sids, Nest (log_nd A))) A s ->
  grad_first B -> (forall m, In m (dkeys B) -> In m (dkeys A)) ->
  groups_ok (Some gs) -> groups_hit (Some gs) (dkeys A) -> one_group gs (dkeys A) ->
  compute_influence eigh inverse fsqrt (sids, Nest (log_nd A)) (tids, Nest (log_nd B)) "dot" prec h (Some gs) d s = (s', Ok r) ->
  exists t vals, i_val r = Grp (("total", t) :: map (fun g => (g, vals g)) gs) /\
    forall i j, i < length sids -> j < length tids -> mget t i j = lsum (map (fun g => mget (vals g) i j) gs).
Proof. exact (groups_add_up eigh inverse fsqrt dv A B prec h gs d s s' sids tids r). Qed.
Print Assumptions C50_groups_add_up.
Theorem C50_group_unmatched {F} `{OField F} (eigh : tensor F -> res (tensor F * tensor F)) (inverse : tensor F -> res (tensor F)) (fsqrt : F -> F) dv (A : @tlog F) (B : @tlog F) h gs g d (s : @lstate F) sids tids :
  A <> [] -> groups_ok (Some gs) -> In g gs -> in_group g (dkeys A) = [] ->
  (forall m, In m (dkeys A) -> paired_grads dv (length sids) (length tids) A B m) -> head_on dv A B ->
  compute_influence eigh inverse fsqrt (sids, Nest (log_nd A)) (tids, Nest (log_nd B)) "dot" false h (Some gs) d s = (s, Err AttributeError).
Proof. exact (group_unmatched eigh inverse fsqrt dv A B h gs g d s sids tids). Qed.
Print Assumptions C50_group_unmatched.
Theorem C50_self_group_unmatched {F} `{OField F} (eigh : tensor F -> res (tensor F * tensor F)) (inverse : tensor F -> res (tensor F)) dv (L : @tlog F) ids (prec : bool) h gs g d (s : @lstate F) :
  L <> [] -> plain_log dv (length ids) L -> keeps_shapes (if prec then precondition eigh inverse (ids, Nest (log_nd L)) d h else sret (ids, Nest (log_nd L))) L s ->
  groups_ok (Some gs) -> In g gs -> in_group g (dkeys L) = [] ->
  let log := (ids, Nest (log_nd L)) in
  compute_self_influence eigh inverse log prec h (Some gs) d s = match (if prec then precondition eigh inverse log d h else sret log) s with (s', Ok _) => (s', Err TypeError) | (s', Err e) => (s', Err e) end.
Proof. exact (self_group_unmatched eigh inverse dv L ids prec h gs g d s). Qed.
Print Assumptions C50_self_group_unmatched.
(** "fc" matches both layers, so the groups overlap; "x" matches none. *)
Example C50_example : groups_ok (Some ["1"; "2"]) /\ groups_hit (Some ["1"; "2"]) (dkeys xA) /\ one_group ["1"; "2"] (dkeys xA) /\ keeps_shapes (precondition xeigh xinverse sB xd "auto") xB xstate /\
  rs (xinf sA sB "dot" false "auto" (Some ["1"; "2"]) None xstate) = Ok (["q"], ["a"; "b"; "c"], [("total", ([1; 3], ints [-1; 3; 7]%Z)); ("1", ([1; 3], ints [1; 4; 5]%Z)); ("2", ([1; 3], ints [-2; -1; 2]%Z))]) /\
  rs (xinf sA sB "dot" false "auto" (Some ["1"; "fc"]) None xstate) = Ok (["q"], ["a"; "b"; "c"], [("total", ([1; 3], ints [-1; 3; 7]%Z)); ("1", ([1; 3], ints [1; 4; 5]%Z)); ("fc", ([1; 3], ints [-1; 3; 7]%Z))]) /\
  in_group "x" (dkeys xA) = [] /\ rs (xinf sA sB "dot" false "auto" (Some ["1"; "x"]) None xstate) = Err AttributeError /\ ss (xself sB true "auto" (Some ["1"; "x"]) xd xstate) = Err TypeError.
Proof.
  split; [apply nodup_ok; reflexivity|]. split; [intros g [<-|[<-|[]]]; discriminate|]. split.
  - intros m [<-|[<-|[]]]; [exists "1"|exists "2"]; (split; [cbn; auto|]); (split; [reflexivity|]); intros g [<-|[<-|[]]] E; try reflexivity; discriminate E.
  - split; [apply keeps_ok; vm_compute; reflexivity|]. repeat split; vm_compute; reflexivity.
Qed.

(** C51. Saved scores. *)
Theorem C51_saved_history {F} `{OField F} (eigh : tensor F -> res (tensor F * tensor F)) (inverse : tensor F -> res (tensor F)) (fsqrt : F -> F) c cs (f f' : @ifn F) o objs :
  if_scores f = None -> calls_all eigh inverse fsqrt (c :: cs) f = (f', Ok (Some o :: objs)) ->
  exists a os r rs, objs = map Some os /\ calls_value eigh inverse fsqrt (c :: cs) (if_state f) = (if_state f', Ok (map Some (r :: rs))) /\ if_scores f' = Some a /\ i_src (view f' a) = concat (map i_src (r :: rs)) /\ i_tgt (view f' a) = i_tgt r /\ stacked (r :: rs) (i_val (view f' a)) /\ map (view f') os = rs /\ view f' o = InfRes (i_src (view f' a)) (i_tgt r) (match i_val r with Mat t => Mat t | Grp _ => i_val (view f' a) end).
Proof. exact (saved_history eigh inverse fsqrt c cs f f' o objs). Qed.
Print Assumptions C51_saved_history.
(** A loader without batches. *)
Theorem C51_saved_empty {F} `{OField F} (eigh : tensor F -> res (tensor F * tensor F)) (inverse : tensor F -> res (tensor F)) (fsqrt : F -> F) save c (f : @ifn F) s :
  call_value eigh inverse fsqrt c (if_state f) = (s, Ok None) ->
  call_all eigh inverse fsqrt save c f = (IFn s (h_lists f) (h_dicts f) (if_scores f), if save then match if_scores f with Some _ => Err KeyError | None => Ok None end else Ok None).
Proof. exact (saved_empty eigh inverse fsqrt save c f s). Qed.
Print Assumptions C51_saved_empty.
Theorem C51_saved_error {F} `{OField F} (eigh : tensor F -> res (tensor F * tensor F)) (inverse : tensor F -> res (tensor F)) (fsqrt : F -> F) save c (f : @ifn F) s e :
  call_value eigh inverse fsqrt c (if_state f) = (s, Err e) -> call_all eigh inverse fsqrt save c f = (IFn s (h_lists f) (h_dicts f) (if_scores f), Err e).
Proof. exact (saved_error eigh inverse fsqrt save c f s e). Qed.
Print Assumptions C51_saved_error.
(** A call that does not save. *)
Theorem C51_unsaved {F} `{OField F} (eigh : tensor F -> res (tensor F * tensor F)) (inverse : tensor F -> res (tensor F)) (fsqrt : F -> F) c (f : @ifn F) s r :
  call_value eigh inverse fsqrt c (if_state f) = (s, Ok (Some r)) ->
  exists f' o, call_all eigh inverse fsqrt false c f = (f', Ok (Some o)) /\ view f' o = r /\ if_state f' = s /\ if_scores f' = if_scores f /\ (forall q, obj_ok f q -> view f' q = view f q).
Proof. exact (unsaved eigh inverse fsqrt c f s r). Qed.
Print Assumptions C51_unsaved.
(** A result that does not fit: its identifiers are saved, its scores are not. *)
Theorem C51_saved_failed {F} `{OField F} (eigh : tensor F -> res (tensor F * tensor F)) (inverse : tensor F -> res (tensor F)) (fsqrt : F -> F) c cs (f f1 : @ifn F) o objs c' s r e a :
  if_scores f = None -> calls_all eigh inverse fsqrt (c :: cs) f = (f1, Ok (Some o :: objs)) ->
  call_value eigh inverse fsqrt c' (if_state f1) = (s, Ok (Some r)) -> if_scores f1 = Some a -> clash (i_val (view f1 a)) (i_val r) = Some e ->
  exists f2, call_all eigh inverse fsqrt true c' f1 = (f2, Err e) /\ if_scores f2 = Some a /\
    view f2 a = InfRes (i_src (view f1 a) ++ i_src r) (i_tgt (view f1 a)) (i_val (view f1 a)).
Proof. exact (saved_failed eigh inverse fsqrt c cs f f1 o objs c' s r e a). Qed.
Print Assumptions C51_saved_failed.
(** A group missing in the new result. *)
Theorem C51_saved_missing_group {F} `{OField F} (eigh : tensor F -> res (tensor F * tensor F)) (inverse : tensor F -> res (tensor F)) (fsqrt : F -> F) c cs (f f1 : @ifn F) o objs c' s r a d e :
  if_scores f = None -> calls_all eigh inverse fsqrt (c :: cs) f = (f1, Ok (Some o :: objs)) ->
  call_value eigh inverse fsqrt c' (if_state f1) = (s, Ok (Some r)) -> if_scores f1 = Some a -> i_val (view f1 a) = Grp d -> i_val r = Grp e ->
  (exists k, In k (dkeys d) /\ dget k e = None) -> (forall k u v, dget k d = Some u -> dget k e = Some v -> tl (shape u) = tl (shape v)) ->
  exists f2, call_all eigh inverse fsqrt true c' f1 = (f2, Err KeyError) /\ if_scores f2 = Some a /\ i_src (view f2 a) = i_src (view f1 a) ++ i_src r.
Proof. exact (saved_missing_group eigh inverse fsqrt c cs f f1 o objs c' s r a d e). Qed.
Print Assumptions C51_saved_missing_group.
(** Two saving calls, without and with groups: the result of the first call sees the identifiers of the second (and with
    groups its scores); the saved matrix has the rows of both. *)
Example C51_example : let c1 := xcall ["q"] [1; 2]%Z [0; -1]%Z in let c2 := xcall ["r"; "s"] [1; 0; 0; 3]%Z [2; 0; 1; 1]%Z in let f := x_init xstate in
  vw (xcalls_all [c1 None; c2 None] f) =
    (Some (["q"; "r"; "s"], ["a"; "b"; "c"], [("", ([3; 3], ints [-1; 3; 7; 1; 4; 9; 2; 5; 12]%Z))]),
     Ok [Some (["q"; "r"; "s"], ["a"; "b"; "c"], [("", ([1; 3], ints [-1; 3; 7]%Z))]); Some (["r"; "s"], ["a"; "b"; "c"], [("", ([2; 3], ints [1; 4; 9; 2; 5; 12]%Z))])]) /\
  vw (xcalls_all [c1 (Some ["1"]); c2 (Some ["1"])] f) =
    (let all := (["q"; "r"; "s"], ["a"; "b"; "c"], [("total", ([3; 3], ints [-1; 3; 7; 1; 4; 9; 2; 5; 12]%Z)); ("1", ([3; 3], ints [1; 4; 5; 1; 2; -1; 0; 3; 9]%Z))]) in
     (Some all, Ok [Some all; Some (["r"; "s"], ["a"; "b"; "c"], [("total", ([2; 3], ints [1; 4; 9; 2; 5; 12]%Z)); ("1", ([2; 3], ints [1; 2; -1; 0; 3; 9]%Z))])])) /\
  vw (xcalls_all [c1 None; c2 (Some ["1"])] f) = (Some (["q"; "r"; "s"], ["a"; "b"; "c"], [("", ([1; 3], ints [-1; 3; 7]%Z))]), Err AttributeError) /\
  snd (vw (xcalls_all [c1 (Some ["1"]); c2 None] f)) = Err TypeError /\ snd (vw (xcalls_all [c1 (Some ["1"]); c2 (Some ["2"])] f)) = Err KeyError /\
  snd (vw (xcalls_all [c1 None; ICall _ sA [] "dot" false "auto" None None] f)) = Err KeyError.
Proof. cbv zeta. repeat split; vm_compute; reflexivity. Qed.

(** C52. Preconditioning without the needed statistics. *)
Theorem C52_uncovered {F} `{OField F} (eigh : tensor F -> res (tensor F * tensor F)) (inverse : tensor F -> res (tensor F)) ids (C : @tlog F) (L : @tlog F) d h (s : @lstate F) :
  In h ["auto"; "kfac"; "raw"] -> holds s "covariance_state" C -> (exists m, In m (dkeys L) /\ ~ In m (dkeys C)) ->
  precondition eigh inverse (ids, Nest (log_nd L)) d h s = (s, Ok (ids, Nest (log_nd L))).
Proof. exact (uncovered eigh inverse ids C L d h s). Qed.
Print Assumptions C52_uncovered.
Theorem C52_bad_hessian {F} `{OField F} (eigh : tensor F -> res (tensor F * tensor F)) (inverse : tensor F -> res (tensor F)) log d h (s : @lstate F) :
  ~ In h ["auto"; "kfac"; "raw"] -> precondition eigh inverse log d h s = (s, Err AssertionError).
Proof. exact (bad_hessian eigh inverse log d h s). Qed.
Print Assumptions C52_bad_hessian.
Theorem C52_no_covariance {F} `{OField F} (eigh : tensor F -> res (tensor F * tensor F)) (inverse : tensor F -> res (tensor F)) log d h (s : @lstate F) :
  In h ["auto"; "kfac"; "raw"] -> dget "covariance_state" (attrs s) = None -> precondition eigh inverse log d h s = (s, Err AttributeError).
Proof. exact (no_covariance eigh inverse log d h s). Qed.
Print Assumptions C52_no_covariance.
Example C52_example : holds xstate "covariance_state" xC /\
  let L := xA ++ [("fc3", [("grad", (Cpu, zt [1; 1; 1] [7]%Z))])] in (exists m, In m (dkeys L) /\ ~ In m (dkeys xC)) /\
  ps (xpre (xlog L ["q"]) xd "auto" xstate) = Ok (["q"], tshow L) /\ ps (xpre sA xd "fisher" xstate) = Err AssertionError /\
  ps (xpre sA xd "auto" (fst (xpre sA xd "auto" (LState [] [] [] [] [] [])))) = Err AttributeError.
Proof.
  split; [exact x_holds|]. cbv zeta. split; [exists "fc3"; split; [cbn; auto|]; intros X; apply mem_In in X; vm_compute in X; discriminate X|]. repeat split; vm_compute; reflexivity.
Qed.

(** C53. Modes. *)
Theorem C53_l2_cosine {F} `{OField F} (eigh : tensor F -> res (tensor F * tensor F)) (inverse : tensor F -> res (tensor F)) (fsqrt : F -> F) dv (A : @tlog F) (B : @tlog F) mode (prec : bool) h groups d (s : @lstate F) sids tids :
  mode = "l2" \/ mode = "cosine" -> A <> [] -> plain_log dv (length sids) A -> plain_log dv (length tids) B -> all_on dv B -> within A B ->
  keeps_shapes (if prec then precondition eigh inverse (sids, Nest (log_nd A)) d h else sret (sids, Nest (log_nd A))) A s ->
  keeps_shapes (precondition eigh inverse (tids, Nest (log_nd B)) d h) B (fst ((if prec then precondition eigh inverse (sids, Nest (log_nd A)) d h else sret (sids, Nest (log_nd A))) s)) ->
  grad_first B -> (forall m, In m (dkeys B) -> In m (dkeys A)) -> groups_ok groups -> groups_hit groups (dkeys A) ->
  let src := (sids, Nest (log_nd A)) in let tgt := (tids, Nest (log_nd B)) in
  match compute_influence eigh inverse fsqrt src tgt "dot" prec h groups d s with
  | (s1, Ok r) =>
      match compute_self_influence eigh inverse tgt true h groups d s1 with
      | (s2, Ok nv) => compute_influence eigh inverse fsqrt src tgt mode prec h groups d s =
          (s2, match dv with Cpu => Ok (InfRes sids tids (combine (if String.eqb mode "l2" then (fun v n => fsub v (fmul half n)) else (fun v n => fdiv v (fsqrt n))) (i_val r) (snd nv))) | Gpu => Err RuntimeError end)
      | (s2, Err e) => compute_influence eigh inverse fsqrt src tgt mode prec h groups d s = (s2, Err e)
      end
  | (s1, Err e) => compute_influence eigh inverse fsqrt src tgt mode prec h groups d s = (s1, Err e)
  end.
Proof. exact (l2_cosine eigh inverse fsqrt dv A B mode prec h groups d s sids tids). Qed.
Print Assumptions C53_l2_cosine.
Theorem C53_bad_mode {F} `{OField F} (eigh : tensor F -> res (tensor F * tensor F)) (inverse : tensor F -> res (tensor F)) (fsqrt : F -> F) src tgt mode (prec : bool) h groups d (s : @lstate F) :
  ~ In mode ["dot"; "l2"; "cosine"] -> compute_influence eigh inverse fsqrt src tgt mode prec h groups d s = (s, Err AssertionError).
Proof. exact (bad_mode eigh inverse fsqrt src tgt mode prec h groups d s). Qed.
Print Assumptions C53_bad_mode.
(** l2 subtracts half of the target's self-influence; cosine divides by its square root only. *)
Example C53_example : plain_log Cpu 3 xB /\ keeps_shapes (precondition xeigh xinverse sA xd "auto") xA ystate /\ keeps_shapes (precondition xeigh xinverse sB xd "auto") xB (fst (precondition xeigh xinverse sA xd "auto" ystate)) /\ all_on Cpu xB /\ within xA xB /\ grad_first xB /\
  rs (xinf sA sB "dot" true "auto" None xd ystate) = Ok (["q"], ["a"; "b"; "c"], [("", ([1; 3], [-109 # 110; 23 # 22; 294 # 55]%Q))]) /\
  ss (xself sB true "auto" None xd ystate) = Ok (["a"; "b"; "c"], [("", ([3], [273 # 110; 45 # 22; 866 # 55]%Q))]) /\
  rs (xinf sA sB "l2" true "auto" None xd ystate) = Ok (["q"], ["a"; "b"; "c"], [("", ([1; 3], [-491 # 220; 1 # 44; -139 # 55]%Q))]) /\
  rs (compute_influence xeigh xinverse (fun _ => qz 2) sA sB "cosine" true "auto" None xd ystate) = Ok (["q"], ["a"; "b"; "c"], [("", ([1; 3], [-109 # 220; 23 # 44; 147 # 55]%Q))]) /\
  rs (xinf sA sB "max" true "auto" None xd ystate) = Err AssertionError.
Proof. split; [apply x_plain; reflexivity|]. split; [apply keeps_ok; vm_compute; reflexivity|]. split; [apply keeps_ok; vm_compute; reflexivity|]. split; [apply x_on|]. split; [apply x_within|]. split; [reflexivity|]. repeat split; vm_compute; reflexivity. Qed.

(** C60. Merged logs. *)
Theorem C60_merge_ok {F} (logs : list (list string * @tlog F)) :
  Forall (fun p => ok_log (snd p)) logs -> (forall m t, fit (pieces m t logs)) ->
  exists M : @tlog F, merge_logs (as_logs logs) = Ok (concat (map fst logs), log_nd M) /\ ok_log M /\ forall m t, look M m t = joined (pieces m t logs).
Proof. exact (merge_ok logs). Qed.
Print Assumptions C60_merge_ok.
Theorem C60_merge_misfit {F} (logs : list (list string * @tlog F)) m t :
  Forall (fun p => ok_log (snd p)) logs -> ~ fit (pieces m t logs) -> merge_logs (as_logs logs) = Err RuntimeError.
Proof. exact (merge_misfit logs m t). Qed.
Print Assumptions C60_merge_misfit.
Theorem C60_merge_size {F} m t logs (x : @dten F) :
  joined (pieces m t logs) = Some x ->
  size x = list_sum (map (fun p => match look (snd p) m t with Some q => size q | None => 0 end) logs).
Proof. exact (merge_size m t logs x). Qed.
Print Assumptions C60_merge_size.
Theorem C60_merge_rows {F} m t (logs : list (list string * @tlog F)) (x : @dten F) i j q :
  joined (pieces m t logs) = Some x -> (forall p, In p logs -> look (snd p) m t <> None) -> fit (pieces m t logs) ->
  (forall p, In p (pieces m t logs) -> twf (snd p) /\ shape (snd p) <> []) -> nth_error logs i = Some q -> j < length (fst q) -> (forall p y, In p logs -> look (snd p) m t = Some y -> size y = length (fst p)) ->
  exists y, look (snd q) m t = Some y /\ nth_error (concat (map fst logs)) (length (concat (map fst (firstn i logs))) + j) = nth_error (fst q) j /\
    slice (snd x) (length (concat (map fst (firstn i logs))) + j) = slice (snd y) j.
Proof. exact (merge_rows m t logs x i j q). Qed.
Print Assumptions C60_merge_rows.
(** A layer missing from one log is not padded: its rows no longer match the identifiers. *)
Example C60_example : Forall (fun p => ok_log (snd p)) mlogs /\ fit (pieces "fc1" "grad" mlogs) /\
  ms (merge_logs (as_logs mlogs)) = Ok (["a"; "b"; "c"], [("fc1", [("grad", ([3; 1; 2], ints [1; 2; 3; 4; 5; 6]%Z))]); ("fc2", [("grad", ([3; 1; 2], ints [0; 1; 1; 0; 2; 2]%Z))]); ("fc3", [("grad", ([1; 1; 1], ints [7]%Z))])]) /\
  ms (merge_logs (as_logs (mlogs ++ [(["d"], [("fc1", [("grad", (Cpu, zt [1; 1; 1] [7]%Z))])])]))) = Err RuntimeError.
Proof. split; [apply Forall_forall; intros p [<-|[<-|[]]]; apply ok_b_ok; reflexivity|]. split; [exists [1; 2]; intros q [<-|[<-|[]]]; (split; [reflexivity|]); eexists; reflexivity|]. split; vm_compute; reflexivity. Qed.

