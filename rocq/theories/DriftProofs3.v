(** Influence runs with corrected eigenvalues. *)
From Coq Require Import ZArith Lia.
From Verif Require Import Py PyStr Field Tensor ModelGrad Monad ModelState ModelMmap ModelSaver ModelLoader ModelLogger ModelModules ModelLora ModelScheduler ModelInfluence ModelUtils ModelTrainer SpecGrad SpecState SpecInfluence SpecRows SpecTrainer SpecDrift LogProofs1 InfProofs14 InfProofs19 TrainProofs1 TrainProofs2 TrainProofs3 TrainProofs4 DriftProofs1 DriftProofs2.
Local Open Scope string_scope.
Local Open Scope list_scope.
Local Open Scope nat_scope.

Lemma regroup_sizes : forall ns ks, regroup ns ks = step_sizes ns ks.
Proof. induction ns as [|n r IH]; intros ks; [reflexivity|]. cbn [regroup step_sizes]. rewrite IH. reflexivity. Qed.

Section Proofs.
  Context {F : Type} `{OField F}.
  Notation tensor := (tensor F).
  Notation tlog := (@tlog F).
  Notation tr := (@tr F).
  Context (rnd : mid -> list nat -> F) (svd : tensor -> res tensor) (kind : mid -> mkind).
  Context (eigh : tensor -> res (tensor * tensor)) (inverse : tensor -> res tensor) (fsqrt : F -> F).
  Context (enc : @dten F -> array) (dec : array -> @dten F) (show : did -> string).
  Context (tok : option (data -> res (list string))) (hash : string -> string).
  Notation trained := (trained kind eigh enc show tok hash).
  Notation influence := (influence rnd svd kind eigh inverse fsqrt enc dec show tok hash).
  Notation on_train_begin := (on_train_begin rnd svd).
  Notation log_dataloader := (log_dataloader dec show).

  Theorem drift_run dv C EC E d a epochs (p p0 p2 : tr) (A B : tlog) sids tids kb ls x1 ks :
    on_train_begin a (tr_set_mode p "influence") = (p0, Ok tt) -> log_dataloader a p0 = (p2, Ok (batches 0 kb tids B)) -> splits kb (length tids) ->
    tr_scores p = None -> tr_acc p = [] -> ha_imode a = "dot" -> ha_damping a = Some d -> fle f0 d -> d <> f0 ->
    ekfac_state (x_state (lm_x (tr_lm p0))) C EC E -> (forall m, In m (dkeys A) -> ekfac_data dv EC E A m) -> covered C A -> picks_kfac "auto" C A ->
    A <> [] -> plain_log dv (length sids) A -> uniform (length sids) A -> ok_log A -> plain_log dv (length tids) B -> within A B -> grad_first B -> (forall m, In m (dkeys B) -> In m (dkeys A)) -> groups_ok (ha_groups a) -> groups_hit (ha_groups a) (dkeys A) ->
    Forall (fun ms => ms <> []) (concat epochs) -> trained a (lm_x (tr_lm p0)) (concat (concat epochs)) ls x1 -> map as_nest ls = batches 0 ks sids A -> splits ks (length sids) ->
    exists p' o P, influence a epochs p = (p', Ok (Some o)) /\ tr_scores p' = Some o /\
      saved (tr_ifn p') (InfRes sids tids (final (fun l => score_matrix P B l (length sids) (length tids)) (ha_groups a) (dkeys A))) /\ dkeys P = dkeys A /\
      forall m g vf vb e x n i j, grad_of A m = Some (dv, g) -> shape g = [n; i; j] -> look EC m "forward" = Some vf -> look EC m "backward" = Some vb -> dget m E = Some (e, x) ->
        exists q, grad_of P m = Some (dv, q) /\ shape q = shape g /\
          forall k, k < n -> eig_row (if dev_eqb e dv then fmul (fnat (S (step_of (step_sizes (map (@length _) (concat epochs)) ks) k))) d else d) (snd vb) (snd vf) x (slice q k) (slice g k) i j.
  Proof.
    intros EB ED SB SN AN Em Ed P0 Pn R K CV PK NA PA U OM PB WI GF SUB GO GH V T1 EL SP.
    pose proof (fr_begin rnd svd a _ _ _ EB) as (Mo & _). cbn [tr_set_mode tr_mode] in Mo. pose proof (acc_begin rnd svd a _ _ _ EB) as (A1 & _ & _ & A2 & _ & _). cbn [tr_set_mode tr_acc tr_scores] in A1, A2. rewrite AN in A1. rewrite SN in A2.
    destruct (begin_ready rnd svd a (tr_set_mode p "influence") p0 (or_introl eq_refl) EB) as (L0 & S0). pose proof (gives_of dec show a p0 p2 _ ED) as GV.
    assert (NS : Forall (fun k => k <> 0) (map (@length _) (concat epochs))). { rewrite Forall_map. revert V. apply Forall_impl. intros [|? ?]; [congruence|discriminate]. }
    assert (Sm : fold_right Nat.add 0 (map (@length _) (concat epochs)) = length ks).
    { pose proof (f_equal (@length _) EL) as Q. rewrite map_length, (trained_length _ _ _ _ _ _ _ _ _ _ _ T1), batches_length in Q. rewrite <- Q. generalize (concat epochs). induction l as [|y l IH]; [reflexivity|]. cbn [map fold_right concat]. rewrite app_length, IH. reflexivity. }
    pose proof (regroup_splits _ ks _ NS Sm SP) as SP'.
    destruct (drift_calls eigh inverse fsqrt dv C EC E A B "auto" (ha_groups a) d sids tids kb _ (tr_ifn p0) NA PA U PB WI GF SUB GO GH SB SP' R K CV PK P0 Pn A2) as (f' & os & P & CA & SV & KP & SOL). rewrite regroup_sizes in SOL.
    rewrite <- Em, <- Ed in CA.
    destruct (steps_run kind eigh inverse fsqrt enc dec show tok hash a p0 _ A sids OM Mo (concat epochs) ks 0 (lm_x (tr_lm p0)) x1 ls (tr_ifn p0) f' os (tr_built p0) (tr_loader p0) V L0 S0 T1 GV EL CA) as (b' & l' & ER & _).
    pose proof (epochs_steps rnd svd kind eigh inverse fsqrt enc dec show tok hash a p0 Mo epochs _ _ _ _ _ _ _ _ _ _ ER) as EP. lapply EP; [clear EP; intros EP|intros s q q' o Mq Eq; apply (fr_do_step kind eigh inverse fsqrt enc dec show tok hash) in Eq; destruct Eq as (Q & _); congruence].
    pose proof (at_id p0) as AI. rewrite A1 in AI. rewrite AI in EP. destruct SV as (o & SV1 & SV2 & SV3).
    exists (at_ p0 x1 f' [] b' l'), o, P. split; [|split; [exact SV1|split; [rewrite at_ifn; exists o; auto|split; [exact KP|exact SOL]]]].
    unfold ModelTrainer.influence. unfold sbind at 1. unfold set_mode. unfold sbind at 1. unfold ModelTrainer.do_train. rewrite (sbind_run _ _ _ _ _ EB), EP. unfold sbind, sget, sret. cbn [at_ tr_scores]. rewrite SV1. reflexivity.
  Qed.
End Proofs.
