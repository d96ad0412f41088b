(** C104: corrected eigenvalues of a module without a factor (logix/statistic/corrected_eigval.py, logix/state.py). *)
From Coq Require Import ZArith QArith Qcanon.
From Verif Require Import Py Field Tensor ModelGrad Monad ModelState ModelMmap ModelSaver ModelLogger SpecGrad SpecState SpecLogger SpecFactor FactorProofs ExNum ExState ExLogger.
Local Open Scope string_scope.
Local Open Scope list_scope.
Local Open Scope nat_scope.

(** C104. The first gradient of a module without forward factor raises. All statistics stay; the module has eigenvalues zero with
    count zero from then on. Covariances collected afterwards do not help: every further gradient raises again. *)
Theorem C104_forward {F} `{OField F} (eigh : tensor F -> res (tensor F * tensor F)) (dk0 : @sdisk F) ps (s : @lstate F) b m d (off : bool) n i j :
  run_phases dk0 ps state_init = (s, Ok tt) -> Forall (Forall call_ok) ps -> snd (covariance_svd eigh s) = Ok tt ->
  grad_in b m d -> shape (snd d) = [n; i; j] -> lookup2 s "covariance_state" m "forward" = None ->
  let e := if off then AttributeError else TypeError in
  exists s', corrected_eigval_update eigh b m None off s = (s', Err e) /\
    (forall a, In a (dkeys (attrs s)) -> dget a (attrs s') = dget a (attrs s)) /\
    dget "ekfac_eigval_state" (attrs s') = Some (Node [(m, Leaf (VT (if off then Cpu else fst d, tzeros [i; j])))]) /\
    dget "ekfac_counter" (attrs s') = Some (Node [(m, Leaf (VN f0))]) /\
    forall cs s2 o b2 d2 n2 i2 j2, run_calls cs s' = (s2, o) -> grad_in b2 m d2 -> shape (snd d2) = [n2; i2; j2] -> corrected_eigval_update eigh b2 m None off s2 = (s2, Err e).
Proof. exact (fun A B C D E G => lacking_first eigh dk0 ps s b m d off n i j _ A B C D E (or_introl (conj G eq_refl))). Qed.
Print Assumptions C104_forward.
(** With a forward factor but no backward factor. *)
Theorem C104_backward {F} `{OField F} (eigh : tensor F -> res (tensor F * tensor F)) (dk0 : @sdisk F) ps (s : @lstate F) b m d (off : bool) n i j (t : @dten F) :
  run_phases dk0 ps state_init = (s, Ok tt) -> Forall (Forall call_ok) ps -> snd (covariance_svd eigh s) = Ok tt ->
  grad_in b m d -> shape (snd d) = [n; i; j] -> lookup2 s "covariance_state" m "forward" = Some (VT t) -> lookup2 s "covariance_state" m "backward" = None -> usable eigh off t d n j ->
  exists s', corrected_eigval_update eigh b m None off s = (s', Err AttributeError) /\
    (forall a, In a (dkeys (attrs s)) -> dget a (attrs s') = dget a (attrs s)) /\
    dget "ekfac_eigval_state" (attrs s') = Some (Node [(m, Leaf (VT (if off then Cpu else fst d, tzeros [i; j])))]) /\
    dget "ekfac_counter" (attrs s') = Some (Node [(m, Leaf (VN f0))]) /\
    forall cs s2 o b2 d2 n2 i2 j2, run_calls cs s' = (s2, o) -> grad_in b2 m d2 -> shape (snd d2) = [n2; i2; j2] -> usable eigh off t d2 n2 j2 -> corrected_eigval_update eigh b2 m None off s2 = (s2, Err AttributeError).
Proof. exact (lacking_backward eigh dk0 ps s b m d off n i j t). Qed.
Print Assumptions C104_backward.
(** Without statistics, and with the forward factor of "fc" alone. Through the logger: gradients with corrected eigenvalues from
    the first batch on. *)
Example C104_example : let g := (Gpu, zt [2; 1; 2] [1; 2; 3; 4]%Z) in let b := ex_glog (snd g) in let s0 := @state_init Qc in let s1 := fst (run_phases ex_dk [firstn 1 ex_kcalls] state_init) in
  grad_in b "fc" g /\ run_phases ex_dk [] state_init = (s0, Ok tt) /\ snd (covariance_svd ex_eigh s0) = Ok tt /\ lookup2 s0 "covariance_state" "fc" "forward" = None /\
  snd (corrected_eigval_update ex_eigh b "fc" None false s0) = Err TypeError /\ snd (corrected_eigval_update ex_eigh b "fc" None true s0) = Err AttributeError /\
  run_phases ex_dk [firstn 1 ex_kcalls] state_init = (s1, Ok tt) /\ Forall (Forall call_ok) [firstn 1 ex_kcalls] /\ snd (covariance_svd ex_eigh s1) = Ok tt /\
  (exists t, lookup2 s1 "covariance_state" "fc" "forward" = Some (VT t) /\ usable ex_eigh false t g 2 2) /\ lookup2 s1 "covariance_state" "fc" "backward" = None /\
  snd (corrected_eigval_update ex_eigh b "fc" None false s1) = Err AttributeError /\
  (let x := lrun (watched [("grad", [AStr "log"; AClass PCorrectedEigval])]) lnew in let x1 := fst (lx_start [DStr "a"; DStr "b"] None x) in let x2 := fst (levs (les ++ lback) x1) in
   snd (levs (les ++ lback) x1) = Ok tt /\ snd (lx_end ex_eigh lenc false x2) = Err TypeError).
Proof.
  cbv zeta. split; [do 2 eexists; repeat split|]. do 5 (split; [vm_compute; reflexivity|]). split; [apply ok_pair; vm_compute; reflexivity|]. split; [constructor; [apply call_okb_ok; vm_compute; reflexivity|constructor]|].
  split; [vm_compute; reflexivity|]. split; [|repeat split; vm_compute; reflexivity].
  eexists. split; [vm_compute; reflexivity|]. intros _. split; [repeat constructor|]. split; [reflexivity|]. intros v w. vm_compute. intros [= _ <-]. exists 2. reflexivity.
Qed.
