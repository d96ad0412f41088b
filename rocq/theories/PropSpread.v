(** C94: dimensions of size one are repeated by the tensor operations of logix/analysis. *)
From Coq Require Import ZArith QArith Qcanon.
From Verif Require Import Py PyStr Field Tensor ModelGrad Monad ModelState ModelInfluence SpecGrad SpecState SpecInfluence SpecSpread InfProofs1 InfProofs2 SpreadProofs1 SpreadProofs2 SpreadProofs3 ExNum ExState ExInfluence ExSpread.
Local Open Scope string_scope.
Local Open Scope list_scope.
Local Open Scope nat_scope.

(** C94. A module that logged one row counts for every sample, unless it is the first one. *)
Theorem C94_shared_rows {F} `{OField F} (eigh : tensor F -> res (tensor F * tensor F)) (inverse : tensor F -> res (tensor F)) (fsqrt : F -> F) dv (rn rk : string -> nat) (A B : @tlog F) m0 ms sids tids h d (s : @lstate F) :
  dkeys A = m0 :: ms -> spread_pairs dv rn rk A B -> head_on dv A B ->
  Forall (fun m => grows (rn m) (length sids) /\ grows (rk m) (length tids)) ms -> rn m0 = length sids -> rk m0 = length tids ->
  compute_influence eigh inverse fsqrt (sids, Nest (log_nd A)) (tids, Nest (log_nd B)) "dot" false h None d s =
  (s, Ok (InfRes sids tids (Mat (mgen (length sids) (length tids) (spread_score rn rk A B (dkeys A)))))).
Proof. exact (spread_influence eigh inverse fsqrt dv rn rk A B m0 ms sids tids h d s). Qed.
Print Assumptions C94_shared_rows.
Theorem C94_rows_misfit {F} `{OField F} (eigh : tensor F -> res (tensor F * tensor F)) (inverse : tensor F -> res (tensor F)) (fsqrt : F -> F) dv (rn rk : string -> nat) (A B : @tlog F) m0 ms sids tids h d (s : @lstate F) :
  dkeys A = m0 :: ms -> spread_pairs dv rn rk A B -> head_on dv A B ->
  (exists m, In m ms /\ (~ grows (rn m) (rn m0) \/ ~ grows (rk m) (rk m0))) ->
  compute_influence eigh inverse fsqrt (sids, Nest (log_nd A)) (tids, Nest (log_nd B)) "dot" false h None d s = (s, Err RuntimeError).
Proof. exact (spread_influence_misfit eigh inverse fsqrt dv rn rk A B m0 ms sids tids h d s). Qed.
Print Assumptions C94_rows_misfit.
Theorem C94_rows_short {F} `{OField F} (eigh : tensor F -> res (tensor F * tensor F)) (inverse : tensor F -> res (tensor F)) (fsqrt : F -> F) dv (rn rk : string -> nat) (A B : @tlog F) m0 ms sids tids h d (s : @lstate F) :
  dkeys A = m0 :: ms -> spread_pairs dv rn rk A B -> head_on dv A B ->
  Forall (fun m => grows (rn m) (rn m0) /\ grows (rk m) (rk m0)) ms -> rn m0 <> length sids \/ rk m0 <> length tids ->
  compute_influence eigh inverse fsqrt (sids, Nest (log_nd A)) (tids, Nest (log_nd B)) "dot" false h None d s = (s, Err AssertionError).
Proof. exact (spread_influence_short eigh inverse fsqrt dv rn rk A B m0 ms sids tids h d s). Qed.
Print Assumptions C94_rows_short.
(** Two sources and three targets, the second layer logged once: its product -5 is in all six scores. With the layers
    in the other order the call raises; so it does when the first layer has one row. *)
Example C94_example : spread_pairs Cpu (w_rows 2) (w_rows 3) w_src w_tgt /\ head_on Cpu w_src w_tgt /\ spread_pairs Cpu (w_rows 2) (w_rows 3) (rev w_src) w_tgt /\ head_on Cpu (rev w_src) w_tgt /\
  rs (xinf (xlog w_src ["q"; "r"]) (xlog w_tgt ["a"; "b"; "c"]) "dot" false "auto" None None state_init) = Ok (["q"; "r"], ["a"; "b"; "c"], [("", ([2; 3], ints [-4; -1; 0; -2; 5; 4]%Z))]) /\
  rs (xinf (xlog (rev w_src) ["q"; "r"]) (xlog w_tgt ["a"; "b"; "c"]) "dot" false "auto" None None state_init) = Err RuntimeError /\
  rs (xinf (xlog w_src ["q"]) (xlog w_tgt ["a"; "b"; "c"]) "dot" false "auto" None None state_init) = Err AssertionError.
Proof. split; [exact w_pairs|]. split; [eexists; reflexivity|]. split; [exact w_pairs_rev|]. split; [eexists; reflexivity|]. repeat split; vm_compute; reflexivity. Qed.

(** Self-influence, also when preconditioning has changed the sizes. *)
Theorem C94_self {F} `{OField F} (eigh : tensor F -> res (tensor F * tensor F)) (inverse : tensor F -> res (tensor F)) dv (rn : string -> nat) (L P : @tlog F) m0 ms ids (prec : bool) h d (s s1 : @lstate F) :
  dkeys L = m0 :: ms -> (if prec then precondition eigh inverse (ids, Nest (log_nd L)) d h else sret (ids, Nest (log_nd L))) s = (s1, Ok (ids, Nest (log_nd P))) ->
  (forall m, In m (dkeys L) -> spread_twin dv (rn m) L P m) -> Forall (fun m => grows (rn m) (length ids)) ms -> rn m0 = length ids ->
  compute_self_influence eigh inverse (ids, Nest (log_nd L)) prec h None d s =
  (s1, Ok (ids, Mat (tgen [length ids] (fun x => lsum (map (fun m => spread_dot L P (spot (rn m) (ix 0 x)) m) (dkeys L)))))).
Proof. exact (spread_self eigh inverse dv rn L P m0 ms ids prec h d s s1). Qed.
Print Assumptions C94_self.
Theorem C94_self_misfit {F} `{OField F} (eigh : tensor F -> res (tensor F * tensor F)) (inverse : tensor F -> res (tensor F)) dv (rn : string -> nat) (L P : @tlog F) m0 ms ids (prec : bool) h d (s s1 : @lstate F) :
  dkeys L = m0 :: ms -> (if prec then precondition eigh inverse (ids, Nest (log_nd L)) d h else sret (ids, Nest (log_nd L))) s = (s1, Ok (ids, Nest (log_nd P))) ->
  (forall m, In m (dkeys L) -> spread_twin dv (rn m) L P m) -> (exists m, In m ms /\ ~ grows (rn m) (rn m0)) ->
  compute_self_influence eigh inverse (ids, Nest (log_nd L)) prec h None d s = (s1, Err RuntimeError).
Proof. exact (spread_self_misfit eigh inverse dv rn L P m0 ms ids prec h d s s1). Qed.
Print Assumptions C94_self_misfit.
Theorem C94_self_short {F} `{OField F} (eigh : tensor F -> res (tensor F * tensor F)) (inverse : tensor F -> res (tensor F)) dv (rn : string -> nat) (L P : @tlog F) m0 ms ids (prec : bool) h d (s s1 : @lstate F) :
  dkeys L = m0 :: ms -> (if prec then precondition eigh inverse (ids, Nest (log_nd L)) d h else sret (ids, Nest (log_nd L))) s = (s1, Ok (ids, Nest (log_nd P))) ->
  (forall m, In m (dkeys L) -> spread_twin dv (rn m) L P m) -> Forall (fun m => grows (rn m) (rn m0)) ms -> rn m0 <> length ids ->
  compute_self_influence eigh inverse (ids, Nest (log_nd L)) prec h None d s = (s1, Err AssertionError).
Proof. exact (spread_self_short eigh inverse dv rn L P m0 ms ids prec h d s s1). Qed.
Print Assumptions C94_self_short.
(** The second layer, logged once, counts in both samples: 5 + 1 and 25 + 1. *)
Example C94_self_example : (forall m, In m (dkeys w_src) -> spread_twin Cpu (w_rows 2 m) w_src w_src m) /\
  ss (xself (xlog w_src ["q"; "r"]) false "auto" None None state_init) = Ok (["q"; "r"], [("", ([2], ints [6; 26]%Z))]) /\
  ss (xself (xlog (rev w_src) ["q"; "r"]) false "auto" None None state_init) = Err RuntimeError /\
  ss (xself (xlog w_src ["q"]) false "auto" None None state_init) = Err AssertionError.
Proof. split; [exact w_self_twin|]. repeat split; vm_compute; reflexivity. Qed.

(** KFAC: a gradient whose sizes differ from those of the covariances is repeated where it has size one and summed up
    where the covariance has size one; the result has the sizes of the covariances. *)
Theorem C94_kfac_fitted {F} `{OField F} (eigh : tensor F -> res (tensor F * tensor F)) (inverse : tensor F -> res (tensor F)) ids (s : @lstate F) (C L : @tlog F) d h :
  eigh_contract eigh -> kfac_ready eigh s C -> solvable eigh C -> picks_kfac h C L -> (forall m, In m (dkeys L) -> kfac_spread C L m) ->
  precondition eigh inverse (ids, Nest (log_nd L)) d h s = precondition eigh inverse (ids, Nest (log_nd (fitted_log C L))) d h s.
Proof. exact (kfac_fitted eigh inverse ids s C L d h). Qed.
Print Assumptions C94_kfac_fitted.
(** Then the scores cannot be computed, whereas the self-influence is. *)
Theorem C94_reshaped {F} `{OField F} (eigh : tensor F -> res (tensor F * tensor F)) (inverse : tensor F -> res (tensor F)) (fsqrt : F -> F) dv (A B P : @tlog F) pre m post p b (prec : bool) h groups d (s s1 : @lstate F) sids tids n k :
  (if prec then precondition eigh inverse (sids, Nest (log_nd A)) d h else sret (sids, Nest (log_nd A))) s = (s1, Ok (sids, Nest (log_nd P))) ->
  dkeys P = pre ++ m :: post -> (forall x, In x pre -> paired_grads dv n k P B x) -> groups_ok groups -> head_on dv P B ->
  grad_of P m = Some p -> grad_of B m = Some b -> tl (shape (snd p)) <> tl (shape (snd b)) ->
  compute_influence eigh inverse fsqrt (sids, Nest (log_nd A)) (tids, Nest (log_nd B)) "dot" prec h groups d s = (s1, Err AssertionError).
Proof. exact (influence_reshaped eigh inverse fsqrt dv A B P pre m post p b prec h groups d s s1 sids tids n k). Qed.
Print Assumptions C94_reshaped.
(** Gradients of two outputs and one input, covariances of one output and two inputs. *)
Example C94_kfac_example : let L := w_turned 2 [1; 2; 3; 4]%Z in
  kfac_ready xeigh xstate xC /\ solvable xeigh xC /\ picks_kfac "auto" xC L /\ (forall m, In m (dkeys L) -> kfac_spread xC L m) /\
  tshow (fitted_log xC L) = [("fc1", [("grad", ([2; 1; 2], ints [3; 3; 7; 7]%Z))])] /\
  (exists s1, xpre (xlog L ["q"; "r"]) xd "auto" xstate = (s1, Ok (["q"; "r"], Nest (log_nd w_pre)))) /\
  (forall m, In m (dkeys L) -> spread_twin Cpu 2 L w_pre m) /\
  rs (xinf (xlog L ["q"; "r"]) (xlog L ["q"; "r"]) "dot" true "auto" None xd xstate) = Err AssertionError /\
  ss (xself (xlog L ["q"; "r"]) true "auto" None xd xstate) = Ok (["q"; "r"], [("", ([2], [13 # 86; 637 # 774]%Q))]).
Proof.
  split; [exact x_ready|]. split; [exact x_solvable|]. split; [right; split; [reflexivity|]; split; [discriminate|vm_compute; reflexivity]|]. split; [exact w_spread|]. split; [vm_compute; reflexivity|]. split; [exact w_step|]. split; [exact w_twin|].
  split; vm_compute; reflexivity.
Qed.
