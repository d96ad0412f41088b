(** C98: corrected eigenvalues asked for in the forward or backward phase (logix/statistic/corrected_eigval.py, logix/logging/logger.py). *)
From Coq Require Import ZArith QArith Qcanon Permutation.
From Verif Require Import Py Field Tensor ModelGrad Monad ModelState ModelMmap ModelSaver ModelLogger SpecGrad SpecState SpecLogger EigvalProofs ExNum ExState ExLogger.
Local Open Scope string_scope.
Local Open Scope list_scope.
Local Open Scope nat_scope.

(** C98. Every call of a watched module raises, whatever the state. *)
Theorem C98_forward {F} `{OField F} (kind : mid -> mkind) (wsize : mid -> nat) (eigh : tensor F -> res (tensor F * tensor F)) (enc : @dten F -> array) ids mask es c m ins out gm (x x1 x2 : @lx F) :
  reachable kind wsize eigh enc x -> begins ids mask x x1 -> run_evs kind eigh es x1 = (x2, Ok tt) -> In m (x_mods x) ->
  In PCorrectedEigval (o_forward (x_opt x)) -> exists x3 e, run_ev kind eigh (MCall c m ins out gm) x2 = (x3, Err e).
Proof. exact (forward_phase kind wsize eigh enc ids mask es c m ins out gm x x1 x2). Qed.
Print Assumptions C98_forward.
(** In the backward phase, every backward pass of a call of a watched module. *)
Theorem C98_backward {F} `{OField F} (kind : mid -> mkind) (wsize : mid -> nat) (eigh : tensor F -> res (tensor F * tensor F)) (enc : @dten F -> array) ids mask es es' c m ins out gm gs (x x1 x2 : @lx F) :
  reachable kind wsize eigh enc x -> begins ids mask x x1 -> run_evs kind eigh (es ++ MCall c m ins out gm :: es') x1 = (x2, Ok tt) ->
  (forall k m' ins' out' gm', In (MCall k m' ins' out' gm') es' -> k <> c) -> In m (x_mods x) ->
  In PCorrectedEigval (o_backward (x_opt x)) -> exists x3 e, run_ev kind eigh (MBack c gs) x2 = (x3, Err e).
Proof. exact (backward_phase kind wsize eigh enc ids mask es es' c m ins out gm gs x x1 x2). Qed.
Print Assumptions C98_backward.
(** Before it raises for the first time, the update decomposes the covariances collected so far and registers empty corrected
    eigenvalues. These are handed out ever after, whatever covariances are collected later. *)
Theorem C98_first {F} `{OField F} (eigh : tensor F -> res (tensor F * tensor F)) (dk0 : @sdisk F) ps (s : @lstate F) b m d off :
  run_phases dk0 ps state_init = (s, Ok tt) -> Forall (Forall call_ok) ps -> snd (covariance_svd eigh s) = Ok tt ->
  exists s', corrected_eigval_update eigh b m (Some d) off s = (s', Err AssertionError) /\
    (forall n, In n (dkeys (attrs s)) -> dget n (attrs s') = dget n (attrs s)) /\
    forall cs s2 o, run_calls cs s' = (s2, o) ->
      (exists w, get_covariance_svd_state eigh s2 = (s2, Ok (Node [], w))) /\
      forall m k, match lookup2 s "covariance_state" m k with
                  | Some (VT c) => exists v w, eigh (snd c) = Ok (v, w) /\ lookup2 s2 "covariance_eigvec_state" m k = Some (VT (fst c, w))
                  | _ => lookup2 s2 "covariance_eigvec_state" m k = None
                  end.
Proof. exact (eigval_data_first eigh dk0 ps s b m d off). Qed.
Print Assumptions C98_first.
(** Later updates raise without changing anything. *)
Theorem C98_again {F} `{OField F} (eigh : tensor F -> res (tensor F * tensor F)) b m d off (s : @lstate F) :
  (forall a, In a ["covariance_eigvec_state"; "covariance_eigval_state"; "ekfac_eigval_state"; "ekfac_counter"] -> In a (dkeys (attrs s))) ->
  corrected_eigval_update eigh b m (Some d) off s = (s, Err AssertionError).
Proof. exact (eigval_data_known eigh b m d off s). Qed.
Print Assumptions C98_again.
(** A forward statistic "corrected_eigval" fails at the first call. The covariances of the run that follows are collected, but
    their decomposition is empty, and corrected eigenvalues of gradients fail as well. *)
Example C98_example :
  let x := lrun (watched [("forward", [AClass PCorrectedEigval])]) lnew in let x1 := fst (lx_start [DStr "a"; DStr "b"] None x) in
  let y := lrun (watched [("backward", [AClass PCorrectedEigval])]) lnew in let y1 := fst (lx_start [DStr "a"; DStr "b"] None y) in
  let x2 := fst (levs (firstn 2 les) x1) in
  reachable lk lw ex_eigh lenc x /\ begins [DStr "a"; DStr "b"] None x x1 /\ In 0 (x_mods x) /\ o_forward (x_opt x) = [PCorrectedEigval] /\
  snd (levs (firstn 1 les) x1) = Ok tt /\ snd (levs (firstn 2 les) x1) = Err AssertionError /\
  begins [DStr "a"; DStr "b"] None y y1 /\ o_backward (x_opt y) = [PCorrectedEigval] /\ snd (levs les y1) = Ok tt /\ snd (levs (les ++ [MBack 1 [6]]) y1) = Err AssertionError /\
  let s2 := fst (run_calls ex_kcalls (x_state x2)) in
  snd (run_calls ex_kcalls (x_state x2)) = Ok tt /\ stored s2 SCov "fc" "forward" <> None /\
  snd (get_covariance_svd_state ex_eigh s2) = Ok (Node [], Node []) /\
  snd (corrected_eigval_update ex_eigh (ex_glog (zt [2; 1; 2] [1; 2; 3; 4]%Z)) "fc" None false s2) = Err TypeError /\
  (let s := fst (run_phases ex_dk [ex_kcalls] state_init) in
   snd (covariance_svd ex_eigh s) = Ok tt /\
   snd (corrected_eigval_update ex_eigh (ex_glog (zt [2; 1; 2] [1; 2; 3; 4]%Z)) "fc" None false s) = Ok tt).
Proof.
  cbv zeta. split; [apply lreach|]. split; [apply lbegins; vm_compute; reflexivity|]. split; [vm_compute; auto|]. do 3 (split; [vm_compute; reflexivity|]).
  split; [apply lbegins; vm_compute; reflexivity|]. do 4 (split; [vm_compute; reflexivity|]). split; [vm_compute; discriminate|]. repeat split; vm_compute; reflexivity.
Qed.
