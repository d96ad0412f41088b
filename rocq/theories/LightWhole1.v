(** A logging run of the Lightning trainer: what it writes. *)
From Coq Require Import ZArith Permutation Lia.
From Verif Require Import Py PyStr Field Tensor ModelGrad Monad ModelState ModelMmap ModelSaver ModelLoader ModelLogger ModelModules ModelLora ModelScheduler ModelInfluence ModelUtils ModelTrainer ModelLightning SpecGrad SpecState SpecStore SpecLogger SpecInfluence SpecRows SpecTrainer SpecLightning SpecDisk SpecWhole SpecLightWhole StateProofs1 StateProofs3 StateProofs4 StateProofs5 GradProofs1 LogProofs1 LogProofs8 LogProofs9 InfProofs10 TrainProofs1 TrainProofs2 TrainProofs3 TrainProofs4 ViewProofs ViewProofs2 DiskProofs1 DiskProofs2 DiskProofs3 WholeProofs1 WholeProofs2 WholeProofs3 WholeProofs4 LightProofs1.
Local Open Scope string_scope.
Local Open Scope list_scope.
Local Open Scope nat_scope.

Section P.
  Context {F : Type} `{OField F}.
  Notation tensor := (tensor F).
  Notation dten := (@dten F).
  Notation lx := (@lx F).
  Notation tlog := (@tlog F).
  Notation tr := (@tr F).
  Context (rnd : mid -> list nat -> F) (svd : tensor -> res tensor) (kind : mid -> mkind) (wsize : mid -> nat).
  Context (eigh : tensor -> res (tensor * tensor)) (inverse : tensor -> res tensor) (fsqrt : F -> F).
  Context (enc : dten -> array) (dec : array -> dten) (show : did -> string).
  Context {B X : Type} (extract : B -> SM X (list did)) (mask : option (B -> res (option dten))) (body : B -> list (@ev F)).
  Notation pl := (@pl F X).
  Notation logged := (logged kind eigh enc show extract mask body).
  Notation step_of := (step_of kind eigh enc body).
  Notation pl_batch := (pl_batch kind eigh inverse fsqrt enc dec show extract mask body).
  Notation pl_do_epoch := (pl_do_epoch rnd svd kind eigh inverse fsqrt enc dec show extract mask body).
  Notation pl_extract := (pl_extract rnd svd kind eigh inverse fsqrt enc dec show extract mask body).
  Notation logged_epoch := (logged_epoch kind eigh enc).
  Notation writes := (writes enc).
  Notation reads := (reads show).

  (** ---- one batch ---- *)
  Lemma end_writes (x x1 : lx) ids l : x_save x = true -> lx_end eigh enc false x = (x1, Ok tt) -> read_got x1 (GView (x_ids x1)) = (Some ids, l) ->
    x_views x = [] -> log_wf (x_log x) -> two_deep (s_buffer (x_saver x)) ->
    x_ids x = Some ids /\ save_log (x_dir x) (x_saver x) ids (leaf_map enc l) = (x_dir x1, x_saver x1, Ok tt) /\ x_save x1 = true /\ settle x1 = x_saver x1 /\ two_deep (s_buffer (x_saver x1)).
  Proof.
    intros Sv E G V W D. unfold lx_end, sbind at 1, sget in E. rewrite Sv in E. cbn [orb] in E. rewrite update_eq in E. apply sbind_ok in E. destruct E as (y & [] & E1 & E2). apply grad_stats_state in E1.
    assert (SY : settle x1 = x_saver x1 /\ two_deep (s_buffer (x_saver x1))) by (apply (save_synced enc y x1 (Ok tt)); [rewrite E1; exact V|rewrite E1; exact W|rewrite E1; exact D|exact E2]).
    assert (Vy : x_views y = []) by (rewrite E1; exact V). unfold lx_save_log in E2. rewrite (settle_none y Vy) in E2. destruct (x_ids y) as [ids'|] eqn:Ei; [|discriminate E2]. destruct (save_log _ _ _ _) as [[d' s'] o] eqn:Es. apply pair_equal_spec in E2. destruct E2 as (<- & ->).
    unfold read_got in G. cbn [with_views with_store x_heap x_log x_ids] in G. injection G as Gi Gl. rewrite Ei in Gi. injection Gi as ->. subst l. rewrite log_nd_enc.
    rewrite E1 in Ei, Es. cbn [with_state x_ids x_dir x_saver x_heap x_log x_save] in Ei, Es. split; [exact Ei|]. cbn [with_views with_store x_dir x_saver x_save] in SY |- *. split; [rewrite E1; exact Es|]. split; [rewrite E1; exact Sv|exact SY].
  Qed.
  Lemma batch_writes ids0 m b (x x1 : lx) ids l : x_save x = true -> step_of ids0 m b x = (x1, Ok tt) -> read_got x1 (GView (x_ids x1)) = (Some ids, l) -> two_deep (s_buffer (settle x)) ->
    ids = ids0 /\ save_log (x_dir x) (settle x) ids (leaf_map enc l) = (x_dir x1, x_saver x1, Ok tt) /\ x_save x1 = true /\ settle x1 = x_saver x1 /\ two_deep (s_buffer (x_saver x1)).
  Proof.
    intros S1 E GL TD. unfold LightProofs1.step_of in E. apply sbind_ok in E as (z & [] & EZ & EY). apply sbind_ok in EY as (v & [] & EV & EY).
    unfold lx_start, binfo_clear in EZ. unfold sbind at 1 in EZ. unfold sbind at 1 in EZ. match type of EZ with _ ?y0 = _ => set (y := y0) in EZ end. change (lx_enter y = (z, Ok tt)) in EZ.
    pose proof (enter_ids _ _ _ EZ) as Iz. pose proof (enter_log _ _ _ EZ) as (Lz & Wz). apply enter_dirs in EZ. destruct EZ as (Z1 & _ & Z2 & Z3 & _).
    pose proof (evs_ids _ _ _ _ _ _ EV) as Iv. pose proof (evs_views _ _ _ _ _ _ EV) as Vv. pose proof (evs_wf kind eigh _ _ _ _ EV) as Lv. apply evs_dirs in EV. destruct EV as (V1 & _ & V2 & V3 & _).
    assert (Y1 : x_dir y = x_dir x) by reflexivity. assert (Y2 : x_saver y = settle x) by reflexivity. assert (Y3 : x_save y = true) by exact S1. assert (Y4 : x_views y = []) by reflexivity. assert (Y5 : x_log y = []) by reflexivity. assert (Y6 : x_ids y = Some ids0) by reflexivity.
    destruct (end_writes v x1 ids l) as (K1 & K2 & K3); [congruence|exact EY|exact GL|congruence|apply Lv; rewrite Lz, Y5; split; [constructor|discriminate]|rewrite V2, Z2, Y2; exact TD|].
    unfold same_ids in *. split; [congruence|]. split; [|exact K3]. rewrite <- K2. f_equal; congruence.
  Qed.
  Lemma logged_writes (x : lx) e bs ls x1 e1 : logged x e bs ls x1 e1 -> x_save x = true -> settle x = x_saver x -> two_deep (s_buffer (x_saver x)) ->
    (forall b e e' ids, In b bs -> extract b e = (e', Ok ids) -> Forall json_id ids) ->
    exists gs, ls = map reads gs /\ Forall (fun g => Forall json_id (fst g)) gs /\ save_batches (x_dir x) (x_saver x) (map writes gs) = (x_dir x1, x_saver x1, Ok tt) /\ settle x1 = x_saver x1.
  Proof.
    induction 1 as [x e|x e b bs e1 ids m x1 ids' l ls x2 e2 EX EM ES RG T1 IH]; intros Sv SE TD JS; [exists []; repeat split; [constructor|exact SE]|].
    rewrite <- SE in TD. destruct (batch_writes ids m b x x1 ids' l Sv ES RG TD) as (-> & K & Sv1 & SE1 & TD1). rewrite SE in K.
    destruct (IH Sv1 SE1 TD1 (fun b' e0 e' i I => JS b' e0 e' i (or_intror I))) as (gs & -> & J & B0 & SE2). exists ((ids, l) :: gs). split; [reflexivity|]. split; [constructor; [exact (JS b e e1 ids (or_introl eq_refl) EX)|exact J]|]. split; [|exact SE2].
    cbn [map save_batches DiskProofs3.writes fst snd]. rewrite K. exact B0.
  Qed.
  Definition batch_of (b : B) (b' : @batch F) : Prop := mask_of mask b = Ok (bt_mask b') /\ bt_evs b' = body b.
  Lemma logged_is_epoch (x : lx) e bs ls x1 e1 : logged x e bs ls x1 e1 -> forall Ls, map snd ls = map log_nd Ls -> exists bs', Forall2 batch_of bs bs' /\ logged_epoch bs' Ls x x1.
  Proof.
    induction 1 as [x e|x e b bs e1 ids m x1 ids' l ls x2 e2 EX EM ES RG T1 IH]; intros [|L Ls] EL; try discriminate EL; [exists []; split; constructor|]. cbn [map snd] in EL. injection EL as E1 EL.
    destruct (IH Ls EL) as (bs' & B3 & B4). exists (Batch ids m (body b) :: bs'). split; [constructor; [split; [exact EM|reflexivity]|exact B3]|].
    apply (le_batch _ _ _ _ bs' L Ls x x1 x2 (Some ids') l); [|exact RG|exact E1|exact B4]. apply (e_start_end _ _ _ _ _ false _ x1); [exact ES|constructor].
  Qed.
  Lemma of_evs mods names o off : forall bs bs' h, Forall2 batch_of bs bs' -> epoch_calls kind mods names o off h bs' = epoch_calls kind mods names o off h (map (light_batch mask body) bs).
  Proof.
    intros bs bs' h HB. revert h. induction HB as [|b b' bs bs' (E1 & E2) HB IH]; intros h; [reflexivity|]. cbn [map epoch_calls light_batch bt_mask bt_evs]. rewrite E1, E2, IH. reflexivity.
  Qed.
  Lemma of_own bs bs' : Forall2 batch_of bs bs' -> Forall (fun b => own_backward [] (body b)) bs -> Forall (fun b => own_backward [] (bt_evs b)) bs'.
  Proof. induction 1 as [|b b' bs bs' (E1 & E2) HB IH]; intros HO; [constructor|]. apply Forall_cons_iff in HO as [HO0 HO]. constructor; [rewrite E2; exact HO0|exact (IH HO)]. Qed.

  (** ---- the trainer ---- *)
  Definition lput (q : pl) (x : lx) (e : X) : pl := PL (put_x (pl_t q) x) e (pl_epoch q) (pl_stop q).
  Lemma lput_twice q x y e e' : lput (lput q x e) y e' = lput q y e'.
  Proof. unfold lput. cbn [pl_t pl_epoch pl_stop]. rewrite put_x_twice. reflexivity. Qed.
  Lemma lput_id (q : pl) : lput q (lm_x (tr_lm (pl_t q))) (pl_ext q) = q.
  Proof. unfold lput. rewrite put_x_id. destruct q; reflexivity. Qed.
  Lemma on_lput {A} (m : SM lx A) (q : pl) x e x' r : m x = (x', r) -> on_lx m (lput q x e) = (lput q x' e, r).
  Proof. intros E. unfold on_lx, on_t, on_tlm, on_x. change (lm_x (tr_lm (pl_t (lput q x e)))) with x. rewrite E. cbv iota beta. rewrite <- (lput_twice q x x' e e). reflexivity. Qed.
  Lemma light_log_batch a (q : pl) b (x x1 : lx) e e1 ids m : pl_mode q = "log" -> extract b e = (e1, Ok ids) -> mask_of mask b = Ok m -> step_of ids m b x = (x1, Ok tt) -> pl_batch a b (lput q x e) = (lput q x1 e1, Ok tt).
  Proof.
    intros Mo EX EM ES. assert (EX' : on_ext (extract b) (lput q x e) = (lput q x e1, Ok ids)) by (unfold on_ext, lput; cbn [pl_ext]; rewrite EX; reflexivity).
    unfold LightProofs1.step_of in ES. apply sbind_ok in ES as (y & [] & E1 & E2). apply sbind_ok in E2 as (z & [] & E2 & E3).
    unfold ModelLightning.pl_batch, pl_batch_start, pl_batch_end. unfold sbind at 1. rewrite (sbind_run _ _ _ _ _ EX'). unfold sbind at 1. unfold lift at 1. fold (mask_of mask b). rewrite EM.
    rewrite (on_lput _ q x e1 y _ E1). rewrite (sbind_run _ _ _ _ _ (on_lput _ q y e1 z _ E2)). rewrite (sbind_run _ _ _ _ _ (on_lput _ q z e1 x1 _ E3)).
    unfold sbind at 1. unfold sget at 1. change (pl_mode (lput q x1 e1)) with (pl_mode q). rewrite Mo. reflexivity.
  Qed.
  Lemma light_log_batches a (q : pl) : pl_mode q = "log" -> forall x e bs ls x1 e1, logged x e bs ls x1 e1 -> seach (pl_batch a) bs (lput q x e) = (lput q x1 e1, Ok tt).
  Proof.
    intros Mo. induction 1 as [x e|x e b bs e1 ids m x1 ids' l ls x2 e2 EX EM ES RG T1 IH]; [reflexivity|]. cbn [seach]. rewrite (sbind_run _ _ _ _ _ (light_log_batch a q b x x1 e e1 ids m Mo EX EM ES)). exact IH.
  Qed.
  Lemma light_begins h (q q1 : pl) : h = "raw" \/ h = "kfac" -> new_sched "none" h "grad" = Ok (tr_sched (pl_t q)) -> pl_epoch_start rnd svd (PL (tr_set_mode (pl_t q) "log") (pl_ext q) (pl_epoch q) false) = (q1, Ok tt) ->
    exists c, q1 = PL (tr_set_lm (tr_set_mode (pl_t q) "log") c (lm_set_x (tr_lm (pl_t q)) (begun h (lm_x (tr_lm (pl_t q)))))) (pl_ext q) (pl_epoch q) false /\ length (sc_all c) = 1.
  Proof.
    destruct q as [[c s l1 l2 sc mo ac bu lo] e n st]. cbn [tr_sched pl_t]. intros Hh Ec E.
    destruct Hh as [-> | ->]; injection Ec as <-; destruct s; cbn in E; injection E as <-; eexists; split; reflexivity.
  Qed.
  Notation new_light := (new_light kind wsize eigh enc).
  Notation light_training := (light_training rnd svd kind eigh enc dec show extract mask body).

  Lemma light_extract_run h ms a (q : pl) bs es sids (M : tlog) : h = "raw" \/ h = "kfac" -> new_light h ms q -> light_training ms a q bs sids M ->
    let x0 := begun h (lm_x (tr_lm (pl_t q))) in
    let cs := epoch_calls kind (x_mods x0) (x_names x0) (x_opt x0) (x_offload x0) (x_heap x0) (map (light_batch mask body) bs) in
    Forall call_ok cs ->
    exists q' ks lc s, pl_extract a (bs :: es) q = (q', Ok tt) /\ same_results (pl_t q) (pl_t q') /\ pl_epoch q' = S (pl_epoch q) /\ splits ks (length sids) /\
      log_batches dec show (pa_bs a) (pl_dir q') = Ok (batches 0 (map (@length string) (chunks (pa_bs a) sids)) sids (regrad ms M)) /\
      finalized x0 (parts 0 ks M) cs (x_state (lm_x (tr_lm (pl_t q')))) /\
      run_calls lc (x_state (lm_x (tr_lm (pl_t q)))) = (s, Ok tt) /\ Forall call_ok lc /\ (exists dk dk', finalize dk s = (x_state (lm_x (tr_lm (pl_t q'))), Ok dk')).
  Proof.
    intros Hh (Ec & HR & HP & HF & rank & w & thr & Es & Hw) (NE & ND & HI & HB & NDs & HO & JS & (dt & e & exact & CD & ST) & q1 & ls & x1 & e1 & ks & EB & T1 & EL & SP) x0 cs HC.
    destruct (light_begins h q q1 Hh Ec EB) as (c1 & E1 & Lc). assert (X0 : lm_x (tr_lm (pl_t q1)) = x0) by (rewrite E1; reflexivity). rewrite X0 in T1.
    pose proof (batches_parts M ks 0 sids ls EL) as EP. destruct (logged_is_epoch x0 _ _ ls x1 e1 T1 (parts 0 ks M) EP) as (bs' & B1 & B2).
    assert (HR0 : reachable kind wsize eigh enc x0) by exact (begun_reachable kind wsize eigh enc h _ Hh HR). pose proof (of_own _ _ B1 HO) as HW. destruct SP as (SP1 & SP2 & SP3).
    assert (HG : Forall good_grads (parts 0 ks M)) by (apply (parts_good exact ms (length sids) M ST HI); [exact SP2|lia]).
    assert (HM : all_moments (x_opt x0)) by (unfold x0; apply run_moments; exact (fun s : string => s)).
    assert (Ecs : epoch_calls kind (x_mods x0) (x_names x0) (x_opt x0) (x_offload x0) (x_heap x0) bs' = cs) by (unfold cs; apply of_evs; exact B1).
    destruct (logged_finalize kind wsize eigh enc (x_disk x1) bs' (parts 0 ks M) x0 x1 B2 HR0 HP HM HW HG) as (s' & dk' & Ef & HFin); [rewrite Ecs; exact HC|]. rewrite Ecs in HFin.
    destruct (logged_run kind wsize eigh enc bs' (parts 0 ks M) x0 x1 B2 HR0 HM HW) as (HL & _ & HLen & HN).
    assert (Sv : x_save x0 = true) by reflexivity. assert (Esx : x_saver x0 = saver_init rank w thr (grad_paths ms)) by exact Es.
    assert (SE0 : settle x0 = x_saver x0) by (apply settle_empty; rewrite Esx; reflexivity). assert (TD0 : two_deep (s_buffer (x_saver x0))) by (rewrite Esx; intros i b; discriminate).
    assert (Fi : exists x2, lx_finalize x1 = (x2, Ok tt) /\ x_state x2 = s' /\ log_batches dec show (pa_bs a) (x_dir x2) = Ok (batches 0 (map (@length string) (chunks (pa_bs a) sids)) sids (regrad ms M))).
    { destruct (logged_writes x0 _ bs ls x1 e1 T1 Sv SE0 TD0 JS) as (gs & El & J & SB & SE). rewrite El in EL. destruct (cut_ids enc show M ks gs sids EL) as (Q1 & Q2); [congruence|]. set (ids := concat (map fst gs)) in *.
      pose proof EL as EL2. rewrite Q1 in EL2. rewrite (written_batches enc show M ids ks 0 gs EL2 Q2) in SB. rewrite Esx in SB.
      assert (J2 : Forall json_id ids). { unfold ids. clear - J. induction J as [|g gs E J IH]; [constructor|]. cbn [map concat]. apply Forall_app. split; [exact E|exact IH]. }
      assert (Li : length ids = length sids) by (rewrite Q1, map_length; reflexivity).
      destruct (read_back dt e exact enc dec CD show ms (length sids) M ST rank w thr (x_dir x0) ks ids (pa_bs a) NE ND HF Hw J2) as (d' & sv' & R1 & R2); auto.
      { apply (nodup_map show). rewrite <- Q1. exact NDs. }
      unfold save_run in R1. rewrite SB in R1. unfold lx_finalize. unfold sbind at 1. rewrite Ef. cbv beta iota.
      match goal with |- context [settle ?z] => change (settle z) with (settle x1) end. rewrite SE. match goal with |- context [saver_finalize ?z _] => change z with (x_dir x1) end.
      rewrite R1. eexists. split; [reflexivity|]. split; [reflexivity|]. match goal with |- context [x_dir ?z] => change (x_dir z) with d' end. rewrite R2, Q1. f_equal. f_equal. unfold chunks. rewrite map_length. clear. generalize (length ids) as f. intros f. generalize ids. induction f as [|f IH]; intros l; [reflexivity|].
      destruct l as [|d r] eqn:D; [reflexivity|]. rewrite <- D.
      replace (chunks_fuel (S f) (pa_bs a) l) with (firstn (pa_bs a) l :: chunks_fuel f (pa_bs a) (skipn (pa_bs a) l)) by (rewrite D; reflexivity).
      replace (chunks_fuel (S f) (pa_bs a) (map show l)) with (firstn (pa_bs a) (map show l) :: chunks_fuel f (pa_bs a) (skipn (pa_bs a) (map show l))) by (rewrite D; reflexivity).
      cbn [map]. rewrite skipn_map, <- IH, firstn_map, map_length. reflexivity. }
    destruct Fi as (x2 & Fi & Sx2 & LB).
    assert (M1 : pl_mode q1 = "log") by (rewrite E1; reflexivity).
    assert (ER : seach (pl_batch a) bs q1 = (lput q1 x1 e1, Ok tt)). { rewrite <- (lput_id q1) at 1. rewrite X0. apply (light_log_batches a q1 M1 x0 (pl_ext q1) bs ls x1 e1 T1). }
    set (q3 := PL (put_done (pl_t q1) x2) e1 (pl_epoch q) true : pl).
    assert (EE : pl_epoch_end (lput q1 x1 e1) = (q3, Ok tt)).
    { unfold pl_epoch_end. unfold sbind at 1. unfold sget at 1. change (pl_mode (lput q1 x1 e1)) with (pl_mode q1). rewrite M1. change (String.eqb "log" "log") with true. cbv iota.
      unfold sbind at 1. unfold on_t at 1, on_tlm, lm_finalize, sbind, on_x. change (lm_x (tr_lm (pl_t (lput q1 x1 e1)))) with x1. rewrite Fi. cbv iota beta. rewrite E1. unfold q3. rewrite E1. unfold pl_mode, lput. cbn -[Nat.leb length]. rewrite Lc. reflexivity. }
    set (q4 := PL (put_done (pl_t q1) x2) e1 (S (pl_epoch q)) true : pl).
    assert (ED : pl_do_epoch a bs (PL (tr_set_mode (pl_t q) "log") (pl_ext q) (pl_epoch q) false) = (q4, Ok tt)).
    { unfold ModelLightning.pl_do_epoch. rewrite (sbind_run _ _ _ _ _ EB), (sbind_run _ _ _ _ _ ER), (sbind_run _ _ _ _ _ EE). reflexivity. }
    exists q4, ks, (lcalls kind (x_mods x0) (x_names x0) (x_opt x0) (x_offload x0) (x_heap x0) bs' (parts 0 ks M)), (x_state x1).
    split. { unfold ModelLightning.pl_extract, pl_set_mode, fit. unfold sbind at 1. unfold on_t, set_mode. cbn [pl_t pl_ext pl_epoch pl_stop]. unfold sbind at 1. cbn [pl_t pl_ext pl_epoch pl_stop]. cbn [fit_epochs]. rewrite (sbind_run _ _ _ _ _ ED). unfold sbind at 1. unfold sget at 1. reflexivity. }
    split. { unfold q4. rewrite E1. repeat split; reflexivity. } split; [reflexivity|]. split; [exact (conj SP1 (conj SP2 SP3))|].
    split; [exact LB|]. change (lm_x (tr_lm (pl_t q4))) with x2. rewrite Sx2. split; [exact HFin|]. split; [exact HL|].
    split. { apply lcalls_ok; [exact HLen|exact HG|]. rewrite Ecs. exact HC. } exists (x_disk x1), dk'. exact Ef.
  Qed.
End P.
