(** An influence run of the Lightning trainer. *)
From Coq Require Import ZArith Lia.
From Verif Require Import Py PyStr Field Tensor ModelGrad Monad ModelState ModelMmap ModelSaver ModelLoader ModelLogger ModelModules ModelLora ModelScheduler ModelInfluence ModelUtils ModelTrainer ModelLightning SpecGrad SpecState SpecInfluence SpecRows SpecTrainer SpecLightning LogProofs1 InfProofs14 InfProofs19 TrainProofs1 TrainProofs2 TrainProofs3.
Local Open Scope string_scope.
Local Open Scope list_scope.
Local Open Scope nat_scope.

Section Proofs.
  Context {F : Type} `{OField F}.
  Notation tensor := (tensor F).
  Notation lx := (@lx F).
  Notation sval := (@sval F).
  Notation tlog := (@tlog F).
  Notation glog := (@glog F).
  Notation ifn := (@ifn F).
  Notation tr := (@tr F).
  Context (rnd : mid -> list nat -> F) (svd : tensor -> res tensor) (kind : mid -> mkind).
  Context (eigh : tensor -> res (tensor * tensor)) (inverse : tensor -> res tensor) (fsqrt : F -> F).
  Context (enc : @dten F -> array) (dec : array -> @dten F) (show : did -> string).
  Context {B X : Type} (extract : B -> SM X (list did)) (mask : option (B -> res (option (@dten F)))) (body : B -> list (@ev F)).
  Notation pl := (@pl F X).
  Notation calls_all := (SpecInfluence.calls_all eigh inverse fsqrt).
  Notation logged := (logged kind eigh enc show extract mask body).
  Notation pl_batch := (pl_batch kind eigh inverse fsqrt enc dec show extract mask body).
  Notation pl_do_epoch := (pl_do_epoch rnd svd kind eigh inverse fsqrt enc dec show extract mask body).
  Notation fit_epochs := (fit_epochs rnd svd kind eigh inverse fsqrt enc dec show extract mask body).
  Notation pl_influence := (pl_influence rnd svd kind eigh inverse fsqrt enc dec show extract mask body).

  Definition step_of ids m (b : B) : SM lx unit := lx_start ids m ;; run_evs kind eigh (body b) ;; lx_end eigh enc false.
  Lemma ind_start ids m (x : lx) s : log_only x -> ind (lx_start ids m) x s.
  Proof.
    intros L. unfold lx_start. apply ind_seq; [exact L|repeat split|]. intros _ y Ly. apply ind_seq; [exact Ly|repeat split|]. intros _ z Lz. exact (ind_enter z s Lz).
  Qed.
  Lemma ind_end (x : lx) s : log_only x -> ind (lx_end eigh enc false) x s.
  Proof.
    intros L. unfold lx_end. apply ind_get; [reflexivity|]. unfold update. apply ind_get; [reflexivity|]. rewrite (only_grad x L). cbn [skipn seach].
    apply ind_seq; [exact L|apply ind_ret|]. intros _ y _. destruct (_ || _); [apply ind_save_log|apply ind_ret].
  Qed.
  Lemma ind_step ids m b (x : lx) s : log_only x -> ind (step_of ids m b) x s.
  Proof.
    intros L. unfold step_of. apply ind_seq; [exact L|apply ind_start, L|]. intros _ y Ly. apply ind_seq; [exact Ly|apply ind_evs, Ly|]. intros _ z Lz. apply ind_end, Lz.
  Qed.
  Lemma step_dirs ids m b (x x' : lx) r : x_save x = false -> step_of ids m b x = (x', r) -> x_dir x' = x_dir x /\ x_save x' = false.
  Proof.
    intros S1 E. unfold step_of in E.
    assert (G : forall y o, lx_start ids m x = (y, o) -> x_dir y = x_dir x /\ x_save y = x_save x).
    { intros y o. unfold lx_start, binfo_clear. unfold sbind at 1. unfold sbind at 1. intros EY. apply (enter_dirs _ y o) in EY. destruct EY as (A1 & A2 & A3 & A4 & A5). split; assumption. }
    unfold sbind at 1 in E. destruct (lx_start ids m x) as [y [[]|e]] eqn:E1; pose proof (G _ _ eq_refl) as D1; destruct D1 as (A1 & A4); [|injection E as <- _; split; congruence].
    unfold sbind at 1 in E. destruct (run_evs kind eigh (body b) y) as [z [[]|e]] eqn:E2; pose proof (evs_dirs kind eigh _ _ _ _ E2) as (A1' & _ & _ & A4' & _); rewrite A1 in A1'; rewrite A4 in A4'; clear A1 A4; rename A1' into A1; rename A4' into A4; [|injection E as <- _; split; congruence].
    unfold lx_end, sbind at 1, sget in E. rewrite A4, S1 in E. cbn [orb] in E. apply update_nosave in E. rewrite E. split; [exact A1|]. exact (eq_trans A4 S1).
  Qed.

  Definition pat (q : pl) (x : lx) (e : X) f b : pl := PL (at_ (pl_t q) x f (tr_acc (pl_t q)) b (tr_loader (pl_t q))) e (pl_epoch q) (pl_stop q).
  Lemma pat_mode q x e f b : pl_mode (pat q x e f b) = pl_mode q.
  Proof. reflexivity. Qed.
  Lemma pat_lx {A} (m : SM lx A) q (x x1 : lx) e f b r : ind m x (if_state f) -> m x = (x1, r) -> on_lx m (pat q x e f b) = (pat q x1 e f b, r).
  Proof.
    intros (E1 & _) E. rewrite E in E1. cbn [fst snd] in E1. unfold on_lx, on_t, pat, on_tlm, on_x, at_. cbn [pl_t tr_lm lm_x lm_set_x]. rewrite E1. reflexivity.
  Qed.
  Lemma on_t_run {A} (m : SM tr A) t e n st t' r : m t = (t', r) -> on_t m (PL t e n st : pl) = (PL t' e n st, r).
  Proof. intros E. unfold on_t. cbn [pl_t]. rewrite E. reflexivity. Qed.
  Lemma on_lx_two {A} (m : SM lx unit) (k : SM lx A) (j : A -> SM pl unit) (q : pl) : (on_lx m ;; (let! y := on_lx k in j y)) q = (let! y := on_lx (m ;; k) in j y) q.
  Proof.
    unfold sbind, on_lx, on_t, on_tlm, on_x. destruct (m (lm_x (tr_lm (pl_t q)))) as [x1 [[]|er]]; cbn [pl_t tr_lm lm_x tr_set_lm lm_set_x tr_sched tr_lists tr_dicts tr_scores tr_mode tr_acc tr_built tr_loader pl_ext pl_epoch pl_stop]; [|reflexivity].
    destruct (k x1) as [x2 o]. reflexivity.
  Qed.
  Definition ready (a : @plargs F) (x : lx) (b : option (list glog)) (loader : list glog) : Prop :=
    match b with Some y => y = loader | None => log_batches dec show (pa_bs a) (x_dir x) = Ok loader end.
  Notation icall a loader d := (bcall loader (pa_imode a) true "auto" None (pa_damping a) d).

  Lemma batch_run a q (loader : list glog) f f' o : pl_mode q = "influence" ->
    forall b (x x1 : lx) e e1 bl ids m ids' l, log_only x -> x_save x = false -> extract b e = (e1, Ok ids) -> mask_of mask b = Ok m -> step_of ids m b x = (x1, Ok tt) ->
    read_got x1 (GView (x_ids x1)) = (Some ids', l) -> ready a x bl loader ->
    call_all eigh inverse fsqrt true (icall a loader (as_nest (map show ids', leaf_map VT l))) f = (f', Ok o) ->
    pl_batch a b (pat q x e f bl) = (pat q x1 e1 f' (Some loader), Ok tt).
  Proof.
    intros Mo b x x1 e e1 bl ids m ids' l L Sv EX EM ES RG RD EC.
    assert (EX' : on_ext (extract b) (pat q x e f bl) = (pat q x e1 f bl, Ok ids)) by (unfold on_ext, pat; cbn [pl_ext]; rewrite EX; reflexivity).
    unfold ModelLightning.pl_batch, pl_batch_start, pl_batch_end. unfold sbind at 1. rewrite (sbind_run _ _ _ _ _ EX'). unfold sbind at 1. unfold lift at 1. fold (mask_of mask b). rewrite EM.
    pose proof ES as ES0. unfold step_of in ES0. apply sbind_ok in ES0. destruct ES0 as (y1 & [] & E1 & E2). apply sbind_ok in E2. destruct E2 as (y2 & [] & E2 & E3).
    pose proof (ind_start ids m x (if_state f) L) as I1. rewrite (pat_lx _ q x y1 e1 f bl (Ok tt) I1 E1).
    assert (L1 : log_only y1) by (destruct I1 as (_ & O1 & _); rewrite E1 in O1; cbn [fst] in O1; unfold log_only; rewrite O1; exact L).
    pose proof (ind_evs kind eigh (body b) y1 (if_state f) L1) as I2. rewrite (sbind_run _ _ _ _ _ (pat_lx _ q y1 y2 e1 f bl (Ok tt) I2 E2)).
    assert (L2 : log_only y2) by (destruct I2 as (_ & O2 & _); rewrite E2 in O2; cbn [fst] in O2; unfold log_only; rewrite O2; exact L1).
    rewrite (sbind_run _ _ _ _ _ (pat_lx _ q y2 x1 e1 f bl (Ok tt) (ind_end y2 (if_state f) L2) E3)).
    unfold sbind at 1. unfold sget at 1. rewrite pat_mode, Mo, String.eqb_refl. unfold pat. apply on_t_run.
    destruct (step_dirs ids m b x x1 _ Sv ES) as (D1 & _).
    assert (EL : live_log show (at_ (pl_t q) x1 f (tr_acc (pl_t q)) bl (tr_loader (pl_t q))) = (at_ (pl_t q) x1 f (tr_acc (pl_t q)) bl (tr_loader (pl_t q)), Ok (as_nest (map show ids', leaf_map VT l)))).
    { unfold live_log. unfold sbind, on_tlm, on_x, lx_get_log, at_. cbn [tr_lm lm_x lm_set_x]. change (read_got (with_state x1 (if_state f)) (GView (x_ids (with_state x1 (if_state f))))) with (read_got x1 (GView (x_ids x1))).
      cbn [tr_set_lm tr_lm lm_x lm_set_x]. change (read_got (with_state x1 (if_state f)) (GView (x_ids (with_state x1 (if_state f))))) with (read_got x1 (GView (x_ids x1))). rewrite RG. reflexivity. }
    rewrite (sbind_run _ _ _ _ _ EL).
    assert (EB : build_loader dec show a (at_ (pl_t q) x1 f (tr_acc (pl_t q)) bl (tr_loader (pl_t q))) = (at_ (pl_t q) x1 f (tr_acc (pl_t q)) (Some loader) (tr_loader (pl_t q)), Ok loader)).
    { unfold ready in RD. unfold build_loader, at_. cbn [tr_built tr_lm lm_x lm_set_x]. destruct bl as [z|]; [subst z; reflexivity|]. change (x_dir (with_state x1 (if_state f))) with (x_dir x1). rewrite D1, RD. reflexivity. }
    rewrite (sbind_run _ _ _ _ _ EB). unfold SpecInfluence.call_all, bcall in EC. cbn [ic_src ic_loader ic_mode ic_prec ic_hessian ic_groups ic_damping] in EC.
    unfold sbind at 1. unfold on_infl at 1. rewrite at_ifn, EC. reflexivity.
  Qed.
  Lemma batches_run a q (loader : list glog) : pl_mode q = "influence" ->
    forall bs (x x1 : lx) e e1 ls f f' os bl, log_only x -> x_save x = false -> logged x e bs ls x1 e1 -> ready a x bl loader ->
    calls_all (map (fun c => icall a loader c) (map as_nest ls)) f = (f', Ok os) ->
    exists bl', seach (pl_batch a) bs (pat q x e f bl) = (pat q x1 e1 f' bl', Ok tt).
  Proof.
    intros Mo. induction bs as [|b bs IH]; intros x x1 e e1 ls f f' os bl L Sv T1 RD EC; inversion T1 as [|? ? ? ? e2 ids m y ids' l ls' ? ? EX EM ES RG T2]; subst; cbn [map SpecInfluence.calls_all] in EC.
    - injection EC as <- _. exists bl. reflexivity.
    - apply sbind_ok in EC. destruct EC as (f1 & o & E1 & EC). apply sbind_ok in EC. destruct EC as (f2 & os2 & E2 & EC). injection EC as <- _.
      cbn [seach]. rewrite (sbind_run _ _ _ _ _ (batch_run a q loader f f1 o Mo b x y e e2 bl ids m ids' l L Sv EX EM ES RG RD E1)).
      pose proof (ind_step ids m b x (if_state f) L) as (_ & O & _). unfold step_of in O. rewrite ES in O. cbn [fst] in O.
      destruct (step_dirs ids m b x y _ Sv ES) as (D1 & S1). apply (IH y x1 e2 e1 ls' f1 f2 os2 (Some loader)); [unfold log_only; rewrite O; exact L|exact S1|exact T2|reflexivity|exact E2].
  Qed.
  Lemma pat_id (q : pl) x : lm_x (tr_lm (pl_t q)) = x -> pat q x (pl_ext q) (tr_ifn (pl_t q)) (tr_built (pl_t q)) = q.
  Proof. intros <-. unfold pat. rewrite at_id. destruct q; reflexivity. Qed.
  Lemma setup_ready (x x0 : lx) : (lx_setup [("grad", [AStr "log"])] ;; lx_eval) x = (x0, Ok tt) -> log_only x0 /\ x_save x0 = false /\ x_dir x0 = x_dir x /\ x_state x0 = x_state x /\ x0 = with_saves (with_opt x (Opts [] [] [PLog])) false (x_save_batch x).
  Proof.
    unfold sbind at 1, lx_setup. remember (opt_setup [("grad", [AStr "log"])]) as z eqn:Ez. vm_compute in Ez. subst z. unfold lx_eval, lx_save. intros [= <-]. repeat split.
  Qed.

  Theorem light_influence a bs es (q : pl) x0 t2 loader ls x1 e1 ks n sids (M : tlog) s' r :
    let x := lm_x (tr_lm (pl_t q)) in
    (lx_setup [("grad", [AStr "log"])] ;; lx_eval) x = (x0, Ok tt) -> build_loader dec show a (pl_t q) = (t2, Ok loader) ->
    tr_scores (pl_t q) = None -> plain_state (x_state x) -> logged x0 (pl_ext q) bs ls x1 e1 -> map as_nest ls = batches 0 ks sids M ->
    uniform n M -> length sids = n -> splits ks n ->
    ModelInfluence.influence_all eigh inverse fsqrt (sids, Nest (log_nd M)) loader (pa_imode a) true "auto" None (pa_damping a) (x_state x) = (s', Ok (Some r)) ->
    exists q' o, pl_influence a (bs :: es) q = (q', Ok (Some o)) /\ tr_scores (pl_t q') = Some o /\ saved (tr_ifn (pl_t q')) r /\ pl_epoch q' = S (pl_epoch q) /\ pl_ext q' = e1 /\
      lm_x (tr_lm (pl_t q')) = with_state x1 s' /\ pl_dir q' = pl_dir q.
  Proof.
    intros x E0 EB SN PS T1 EL U Ls SP EI. destruct (setup_ready x x0 E0) as (L0 & S0 & D0 & X0 & EX0).
    set (q1 := PL (tr_set_mode (pl_t q) "influence") (pl_ext q) (pl_epoch q) false : pl).
    set (q2 := PL (tr_set_lm (pl_t q1) (tr_sched (pl_t q1)) (lm_set_x (tr_lm (pl_t q1)) x0)) (pl_ext q) (pl_epoch q) false : pl).
    assert (EX : lm_x (tr_lm (pl_t q2)) = x0) by reflexivity. assert (IX : tr_ifn (pl_t q2) = tr_ifn (pl_t q)). { unfold tr_ifn. rewrite EX, X0. reflexivity. }
    assert (ES : pl_epoch_start rnd svd q1 = (q2, Ok tt)).
    { unfold pl_epoch_start. unfold sbind at 1. unfold sget at 1. change (pl_mode q1) with "influence". change (String.eqb "influence" "log") with false. cbv iota.
      pose proof (@on_lx_two unit (lx_setup [("grad", [AStr "log"])]) lx_eval (fun _ => sret tt) q1) as TW.
      assert (RT : forall (m : SM pl unit) qq, (let! _ := m in sret tt) qq = m qq) by (intros m qq; unfold sbind, sret; destruct (m qq) as [? [[]|]]; reflexivity).
      unfold sbind at 1 in TW. unfold sbind at 1. destruct (on_lx (lx_setup _) q1) as [q3 [[]|er]] eqn:E3; rewrite RT in TW; [rewrite RT in TW|]; rewrite TW; unfold on_lx, on_t, on_tlm, on_x; change (lm_x (tr_lm (pl_t q1))) with x; rewrite E0; reflexivity. }
    destruct (source_batches eigh inverse fsqrt n M sids loader (pa_imode a) true "auto" None (pa_damping a) ks (tr_ifn (pl_t q)) s' r U Ls SP PS SN EI) as (f' & os & EC & EST & SV & _ & _).
    rewrite <- EL in EC. assert (RD : ready a x0 (tr_built (pl_t q2)) loader).
    { unfold ready. change (tr_built (pl_t q2)) with (tr_built (pl_t q)). unfold build_loader in EB. destruct (tr_built (pl_t q)) as [z|]; [injection EB as _ ->; reflexivity|]. rewrite D0. destruct (log_batches _ _ _ _) as [z|] eqn:EZ; [|discriminate EB]. injection EB as _ ->. reflexivity. }
    destruct (batches_run a q2 loader eq_refl bs x0 x1 (pl_ext q) e1 ls (tr_ifn (pl_t q)) f' os (tr_built (pl_t q2)) L0 S0 T1 RD EC) as (bl' & ER).
    assert (PI : pat q2 x0 (pl_ext q) (tr_ifn (pl_t q)) (tr_built (pl_t q2)) = q2) by (rewrite <- IX; exact (pat_id q2 x0 EX)). rewrite PI in ER.
    set (q3 := pat q2 x1 e1 f' bl') in *.
    set (q4 := PL (pl_t q3) (pl_ext q3) (pl_epoch q3) true : pl).
    assert (EE : pl_epoch_end q3 = (q4, Ok tt)).
    { unfold pl_epoch_end. unfold sbind at 1. unfold sget at 1. change (pl_mode q3) with "influence". change (String.eqb "influence" "log") with false. cbv iota. unfold sbind, sret. change (pl_mode q3) with "influence". change (String.eqb "influence" "log") with false. cbv iota. change (1 - 1 <=? pl_epoch q3) with true. reflexivity. }
    set (q5 := PL (pl_t q3) e1 (S (pl_epoch q)) true : pl).
    assert (ED : pl_do_epoch a bs q1 = (q5, Ok tt)).
    { unfold ModelLightning.pl_do_epoch. rewrite (sbind_run _ _ _ _ _ ES), (sbind_run _ _ _ _ _ ER), (sbind_run _ _ _ _ _ EE). reflexivity. }
    destruct SV as (o & SV1 & SV2 & SV3). exists q5, o. split; [|split; [exact SV1|split; [change (tr_ifn (pl_t q5)) with (tr_ifn (at_ (pl_t q2) x1 f' (tr_acc (pl_t q2)) bl' (tr_loader (pl_t q2)))); rewrite at_ifn; exists o; auto|split; [reflexivity|split; [reflexivity|]]]]].
    - unfold ModelLightning.pl_influence, pl_set_mode, ModelLightning.fit. unfold sbind at 1. unfold on_t, set_mode. cbn [pl_t pl_ext pl_epoch pl_stop]. unfold sbind at 1. unfold sbind at 1. cbn [pl_t pl_ext pl_epoch pl_stop]. fold q1.
      cbn [ModelLightning.fit_epochs]. rewrite (sbind_run _ _ _ _ _ ED). unfold sbind at 1. unfold sget at 1. change (pl_stop q5) with true. cbv iota. unfold sret at 1. unfold sbind, sget, sret. change (tr_scores (pl_t q5)) with (if_scores f'). rewrite SV1. reflexivity.
    - change (lm_x (tr_lm (pl_t q5))) with (with_state x1 (if_state f')). rewrite EST. split; [reflexivity|].
      unfold pl_dir. change (x_dir (lm_x (tr_lm (pl_t q5)))) with (x_dir x1). fold x. rewrite <- D0. clear - T1 S0. induction T1 as [|x e b bs e1 ids m x1 ids' l ls x2 e2 E1 E2 E3 E4 T1 IH]; [reflexivity|].
      destruct (step_dirs ids m b x x1 _ S0 E3) as (D1 & S1). rewrite (IH S1), D1. reflexivity.
  Qed.
End Proofs.
