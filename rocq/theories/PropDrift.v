(** C100: influence runs with corrected eigenvalues. *)
From Coq Require Import ZArith QArith Qcanon.
From Verif Require Import Py PyStr Field Tensor ModelGrad Monad ModelState ModelMmap ModelSaver ModelLoader ModelLogger ModelModules ModelLora ModelScheduler ModelInfluence ModelUtils ModelTrainer SpecGrad SpecState SpecInfluence SpecRows SpecTrainer SpecDrift DriftProofs2 DriftProofs3 ExNum ExState ExInfluence ExLogger ExLora ExRows ExTrainer ExWhole ExDrift.
Local Open Scope string_scope.
Local Open Scope list_scope.
Local Open Scope nat_scope.

(** The test samples of optimizer step k are preconditioned with the eigenvalues plus k + 1 times the damping. *)
Theorem C100_influence {F} `{OField F} (rnd : mid -> list nat -> F) (svd : tensor F -> res (tensor F)) (kind : mid -> mkind) (eigh : tensor F -> res (tensor F * tensor F)) (inverse : tensor F -> res (tensor F)) (fsqrt : F -> F)
    (enc : @dten F -> array) (dec : array -> @dten F) (show : did -> string) (tok : option (data -> res (list string))) (hash : string -> string)
    dv C EC E d a epochs (p p0 p2 : @tr F) (A B : @tlog F) sids tids kb ls x1 ks :
  on_train_begin rnd svd a (tr_set_mode p "influence") = (p0, Ok tt) -> log_dataloader dec show a p0 = (p2, Ok (batches 0 kb tids B)) -> splits kb (length tids) ->
  tr_scores p = None -> tr_acc p = [] -> ha_imode a = "dot" -> ha_damping a = Some d -> fle f0 d -> d <> f0 ->
  ekfac_state (x_state (lm_x (tr_lm p0))) C EC E -> (forall m, In m (dkeys A) -> ekfac_data dv EC E A m) -> covered C A -> picks_kfac "auto" C A ->
  A <> [] -> plain_log dv (length sids) A -> uniform (length sids) A -> ok_log A -> plain_log dv (length tids) B -> within A B -> grad_first B -> (forall m, In m (dkeys B) -> In m (dkeys A)) ->
  groups_ok (ha_groups a) -> groups_hit (ha_groups a) (dkeys A) ->
  Forall (fun ms => ms <> []) (concat epochs) -> trained kind eigh enc show tok hash a (lm_x (tr_lm p0)) (concat (concat epochs)) ls x1 -> map as_nest ls = batches 0 ks sids A -> splits ks (length sids) ->
  exists p' o P, influence rnd svd kind eigh inverse fsqrt enc dec show tok hash a epochs p = (p', Ok (Some o)) /\ tr_scores p' = Some o /\
    saved (tr_ifn p') (InfRes sids tids (final (fun l => score_matrix P B l (length sids) (length tids)) (ha_groups a) (dkeys A))) /\ dkeys P = dkeys A /\
    forall m g vf vb e x n i j, grad_of A m = Some (dv, g) -> shape g = [n; i; j] -> look EC m "forward" = Some vf -> look EC m "backward" = Some vb -> dget m E = Some (e, x) ->
      exists q, grad_of P m = Some (dv, q) /\ shape q = shape g /\
        forall k, k < n -> eig_row (if dev_eqb e dv then fmul (fnat (S (step_of (step_sizes (map (@length _) (concat epochs)) ks) k))) d else d) (snd vb) (snd vf) x (slice q k) (slice g k) i j.
Proof. exact (drift_run rnd svd kind eigh inverse fsqrt enc dec show tok hash dv C EC E d a epochs p p0 p2 A B sids tids kb ls x1 ks). Qed.
Print Assumptions C100_influence.
(** Eigenvalues 500/3 and 400/3, damping 1, four samples, the last one in a step of its own: preconditioned with 506/3 and 406/3 instead of 503/3 and 403/3. *)
Example C100_example : drift_ok [[[tu; tv]; [tz]]] /\ drift_ok [[[tu; tv; tz]]] /\ snd te2r = Ok tt /\
  map (fun q => (fst q, show (snd (snd q)))) teE = [("fc", ([1; 2], [500 # 3; 400 # 3]%Q))] /\
  step_sizes [2; 1] [1; 2; 1] = [3; 1] /\ map (step_of [3; 1]) [0; 1; 2; 3] = [0; 0; 0; 1] /\
  escores [[[tu; tv]; [tz]]] = Some (["u"; "v"; "w"; "z"], ["a"; "b"; "c"], [("", ([4; 3], [-72 # 503; 1008 # 403; -144 # 503; -48 # 503; 72 # 403; -96 # 503; -168 # 503; -48 # 403; -336 # 503; 18 # 253; 48 # 203; 36 # 253]%Q))]) /\
  escores [[[tu; tv; tz]]] = Some (["u"; "v"; "w"; "z"], ["a"; "b"; "c"], [("", ([4; 3], [-72 # 503; 1008 # 403; -144 # 503; -48 # 503; 72 # 403; -96 # 503; -168 # 503; -48 # 403; -336 # 503; 36 # 503; 96 # 403; 72 # 503]%Q))]).
Proof.
  split; [apply drift_hyps; [repeat constructor; discriminate|reflexivity]|]. split; [apply drift_hyps; [repeat constructor; discriminate|reflexivity]|]. repeat (split; [vm_compute; reflexivity|]). vm_compute; reflexivity.
Qed.
(** The same of calls on an influence object, whatever asks for them. *)
Theorem C100_calls {F} `{OField F} (eigh : tensor F -> res (tensor F * tensor F)) (inverse : tensor F -> res (tensor F)) (fsqrt : F -> F) dv C EC E (A B : @tlog F) h groups d sids tids ks zs (f : @ifn F) :
  A <> [] -> plain_log dv (length sids) A -> uniform (length sids) A -> plain_log dv (length tids) B -> within A B -> grad_first B -> (forall m, In m (dkeys B) -> In m (dkeys A)) -> groups_ok groups -> groups_hit groups (dkeys A) -> splits ks (length tids) -> splits zs (length sids) ->
  ekfac_state (if_state f) C EC E -> (forall m, In m (dkeys A) -> ekfac_data dv EC E A m) -> covered C A -> picks_kfac h C A -> fle f0 d -> d <> f0 -> if_scores f = None ->
  exists f' os P, calls_all eigh inverse fsqrt (map (fun b => ICall F b (batches 0 ks tids B) "dot" true h groups (Some d)) (batches 0 zs sids A)) f = (f', Ok os) /\
    saved f' (InfRes sids tids (final (fun l => score_matrix P B l (length sids) (length tids)) groups (dkeys A))) /\ dkeys P = dkeys A /\
    forall m g vf vb e x n a b, grad_of A m = Some (dv, g) -> shape g = [n; a; b] -> look EC m "forward" = Some vf -> look EC m "backward" = Some vb -> dget m E = Some (e, x) ->
      exists p, grad_of P m = Some (dv, p) /\ shape p = shape g /\
        forall i, i < n -> eig_row (if dev_eqb e dv then fmul (fnat (S (step_of zs i))) d else d) (snd vb) (snd vf) x (slice p i) (slice g i) a b.
Proof. exact (drift_calls eigh inverse fsqrt dv C EC E A B h groups d sids tids ks zs f). Qed.
Print Assumptions C100_calls.
Example C100_calls_example : exists f : @ifn Qc, if_state f = tes /\ if_scores f = None /\ ekfac_state (if_state f) teC teEC teE /\ tM <> [] /\ groups_ok (Some ["fc"]) /\ groups_hit (Some ["fc"]) (dkeys tM) /\ splits [3; 1] 4.
Proof. exists (tr_ifn te3). split; [reflexivity|]. split; [vm_compute; reflexivity|]. split; [exact te_state|]. split; [discriminate|]. split; [repeat constructor; cbn; intuition discriminate|]. split; [intros g [<-|[]]; discriminate|]. repeat split; [discriminate|repeat constructor; discriminate]. Qed.
(** So the scores depend on how the test samples are distributed over optimizer steps. *)
Theorem C100_steps_refuted : ~ forall e1 e2, drift_ok e1 -> drift_ok e2 -> escores e1 = escores e2.
Proof. exact drift_steps. Qed.
Print Assumptions C100_steps_refuted.
