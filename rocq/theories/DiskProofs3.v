(** An epoch of the trainer that saves: what it writes, and what the loader then reads. *)
From Coq Require Import ZArith Lia.
From Verif Require Import Py PyStr Field Tensor ModelGrad Monad ModelState ModelMmap ModelSaver ModelLoader ModelLogger ModelModules ModelLora ModelScheduler ModelInfluence ModelUtils ModelTrainer SpecGrad SpecState SpecStore SpecInfluence SpecRows SpecTrainer SpecDisk LogProofs1 ViewProofs TrainProofs1 TrainProofs2 TrainProofs3 TrainProofs4 DiskProofs1 DiskProofs2.
Local Open Scope string_scope.
Local Open Scope list_scope.
Local Open Scope nat_scope.

Section Disk.
  Context {F : Type} `{OField F}.
  Notation tensor := (tensor F).
  Notation dten := (@dten F).
  Notation tlog := (@tlog F).
  Notation lx := (@lx F).
  Notation tr := (@tr F).
  Context (rnd : mid -> list nat -> F) (svd : tensor -> res tensor) (kind : mid -> mkind) (eigh : tensor -> res (tensor * tensor)) (inverse : tensor -> res tensor) (fsqrt : F -> F).
  Context (enc : dten -> array) (dec : array -> dten) (show : did -> string).
  Context (tok : option (data -> res (list string))) (hash : string -> string).
  Notation training_step := (training_step kind eigh enc tok hash).
  Notation trained := (trained kind eigh enc show tok hash).
  Notation do_step := (do_step kind eigh inverse fsqrt enc dec show tok hash).
  Notation do_epoch := (do_epoch rnd svd kind eigh inverse fsqrt enc dec show tok hash).

  (** ---- one step ---- *)
  Definition same_ids (x x' : lx) : Prop := x_ids x' = x_ids x.
  Lemma ids_trans x y z : same_ids x y -> same_ids y z -> same_ids x z.
  Proof. unfold same_ids. congruence. Qed.
  Lemma enter_ids (x x' : lx) r : lx_enter x = (x', r) -> same_ids x x'.
  Proof.
    unfold lx_enter, logger_clear, register_all_module_hooks. apply (sbind_rel same_ids ids_trans).
    - intros y o E. unfold sbind, clear_hooks, sret in E. injection E as <- _. reflexivity.
    - intros [] y y' o. apply (sbind_rel same_ids ids_trans); [intros z o' [= <- _]; reflexivity|]. intros z w w' o'. apply (seach_rel same_ids (fun _ => eq_refl) ids_trans).
      intros m v v' o2 _. destruct (dget m (x_names v)); intros [= <- _]; reflexivity.
  Qed.
  Definition same_log (x x' : lx) : Prop := x_log x' = x_log x /\ x_views x' = x_views x.
  Lemma same_log_trans x y z : same_log x y -> same_log y z -> same_log x z.
  Proof. intros (A1 & A2) (B1 & B2). split; congruence. Qed.
  Lemma enter_log (x x' : lx) r : lx_enter x = (x', r) -> same_log x x'.
  Proof.
    unfold lx_enter, logger_clear, register_all_module_hooks. apply (sbind_rel same_log same_log_trans).
    - intros y o E. unfold sbind, clear_hooks, sret in E. injection E as <- _. split; reflexivity.
    - intros [] y y' o. apply (sbind_rel same_log same_log_trans); [intros z o' [= <- _]; split; reflexivity|]. intros z w w' o'. apply (seach_rel same_log (fun _ => conj eq_refl eq_refl) same_log_trans).
      intros m v v' o2 _. destruct (dget m (x_names v)); intros [= <- _]; split; reflexivity.
  Qed.
  Lemma evs_views es (x x' : lx) r : run_evs kind eigh es x = (x', r) -> x_views x' = x_views x.
  Proof. intros E. apply run_evs_grows in E. destruct E as (c & s & l & h & hs & ->). reflexivity. Qed.
  Lemma evs_ids es (x x' : lx) r : run_evs kind eigh es x = (x', r) -> same_ids x x'.
  Proof. intros E. apply run_evs_grows in E. destruct E as (c & s & l & h & hs & ->). reflexivity. Qed.
  Lemma log_nd_enc (h : heap) (l : blog) : leaf_map enc (ModelLogger.log_nd (fun d : dten => d) h l) = ModelLogger.log_nd enc h l.
  Proof. exact (leaf_map_two enc (fun e : dict string lref => e) (fun q => u_d (deref h q)) l). Qed.
  Lemma exit_saves (x x1 : lx) ids l : x_save x = true -> lx_exit eigh enc x = (x1, Ok tt) -> lx_get_log true x1 = (x1, Ok (GCopy (Some ids) l)) ->
    x_views x = [] -> log_wf (x_log x) -> two_deep (s_buffer (x_saver x)) ->
    x_ids x = Some ids /\ save_log (x_dir x) (x_saver x) ids (leaf_map enc l) = (x_dir x1, x_saver x1, Ok tt) /\ x_save x1 = true /\ settle x1 = x_saver x1 /\ two_deep (s_buffer (x_saver x1)).
  Proof.
    intros Sv E G V W D. unfold lx_exit, sbind at 1, sget in E. rewrite Sv, orb_true_r in E. rewrite update_eq in E. apply sbind_ok in E. destruct E as (y & [] & E1 & E2). apply grad_stats_state in E1.
    assert (SY : settle x1 = x_saver x1 /\ two_deep (s_buffer (x_saver x1))) by (apply (save_synced enc y x1 (Ok tt)); [rewrite E1; exact V|rewrite E1; exact W|rewrite E1; exact D|exact E2]).
    assert (Vy : x_views y = []) by (rewrite E1; exact V). unfold lx_save_log in E2. rewrite (settle_none y Vy) in E2. destruct (x_ids y) as [ids'|] eqn:Ei; [|discriminate E2]. destruct (save_log _ _ _ _) as [[d' s'] o] eqn:Es. apply pair_equal_spec in E2. destruct E2 as (<- & ->).
    unfold lx_get_log in G. cbn [with_views with_store x_heap x_log x_ids] in G. destruct (forallb _ _); [|discriminate G]. injection G as Gi Gl. rewrite Ei in Gi. injection Gi as ->. subst l. rewrite log_nd_enc.
    rewrite E1 in Ei, Es. cbn [with_state x_ids x_dir x_saver x_heap x_log x_save] in Ei, Es. split; [exact Ei|]. cbn [with_views with_store x_dir x_saver x_save] in SY |- *. split; [rewrite E1; exact Es|]. split; [rewrite E1; exact Sv|exact SY].
  Qed.
  Lemma step_saves a m (x x1 : lx) ids l : x_save x = true -> training_step a m x = (x1, Ok tt) -> lx_get_log true x1 = (x1, Ok (GCopy (Some ids) l)) ->
    two_deep (s_buffer (settle x)) ->
    (exists sl, ids = map DStr sl) /\ save_log (x_dir x) (settle x) ids (leaf_map enc l) = (x_dir x1, x_saver x1, Ok tt) /\ x_save x1 = true /\ settle x1 = x_saver x1 /\ two_deep (s_buffer (x_saver x1)).
  Proof.
    intros S1 E GL TD. unfold ModelTrainer.training_step in E. apply sbind_ok in E. destruct E as (x0 & oi & E0 & E). injection E0 as -> Ei. apply sbind_ok in E. destruct E as (x0' & sc & E0 & E). injection E0 as -> _. rename x0' into x0.
    assert (G : forall y, x_dir y = x_dir x0 -> x_saver y = settle x0 -> x_save y = true -> x_views y = [] -> x_log y = [] -> (lx_enter ;; finish eigh enc (run_evs kind eigh (mi_body m sc))) y = (x1, Ok tt) ->
      x_ids y = Some ids /\ save_log (x_dir x0) (settle x0) ids (leaf_map enc l) = (x_dir x1, x_saver x1, Ok tt) /\ x_save x1 = true /\ settle x1 = x_saver x1 /\ two_deep (s_buffer (x_saver x1))).
    { intros y Y1 Y2 Y3 Y4 Y5 EY. apply sbind_ok in EY. destruct EY as (z & [] & EZ & EY). pose proof (enter_ids _ _ _ EZ) as Iz. pose proof (enter_log _ _ _ EZ) as (Lz & Wz). apply enter_dirs in EZ. destruct EZ as (Z1 & _ & Z2 & Z3 & _).
      unfold finish in EY. destruct (run_evs kind eigh (mi_body m sc) z) as [v o] eqn:EV. pose proof (evs_ids _ _ _ _ EV) as Iv. pose proof (evs_views _ _ _ _ EV) as Vv. pose proof (evs_wf kind eigh _ _ _ _ EV) as Lv. apply evs_dirs in EV. destruct EV as (V1 & _ & V2 & V3 & _).
      destruct o as [u|er]; [|destruct (lx_exit eigh enc v) as [v2 [u2|e2]]; discriminate EY]. destruct (exit_saves v x1 ids l) as (K1 & K2 & K3); [congruence|exact EY|exact GL|congruence|apply Lv; rewrite Lz, Y5; split; [constructor|discriminate]|rewrite V2, Z2, Y2; exact TD|].
      unfold same_ids in *. split; [congruence|]. split; [|exact K3]. rewrite <- K2. f_equal; congruence. }
    unfold block in E. destruct oi as [ids0|].
    - unfold with_block, lx_call, binfo_clear in E. unfold sbind at 1 in E. unfold sbind at 1 in E. apply G in E; [|reflexivity|reflexivity|exact S1|reflexivity|reflexivity]. destruct E as (K1 & K). split; [|exact K]. cbn in K1. injection K1 as <-.
      unfold get_data_id in Ei. destruct (String.eqb (ha_logic a) "detokenize").
      + destruct tok as [f|]; [|discriminate Ei]. destruct (f (mi_input m)) as [sl|]; [|discriminate Ei]. injection Ei as <-. exists sl. reflexivity.
      + destruct (String.eqb (ha_logic a) "hash"); [|discriminate Ei]. destruct (snd _) as [sl|]; [|discriminate Ei]. injection Ei as <-. exists sl. reflexivity.
    - unfold sbind at 1 in E. apply G in E; [|reflexivity|reflexivity|exact S1|reflexivity|reflexivity]. destruct E as (K1 & _). discriminate K1.
  Qed.

  (** ---- all steps ---- *)
  Definition writes (g : list did * nd dten) : list did * nd array := (fst g, leaf_map enc (snd g)).
  Definition reads (g : list did * nd dten) : list string * nd (@sval F) := (map show (fst g), leaf_map VT (snd g)).
  Lemma trained_saves a (x : lx) ms ls x1 : x_save x = true -> settle x = x_saver x -> two_deep (s_buffer (x_saver x)) -> trained a x ms ls x1 ->
    exists gs, ls = map reads gs /\ Forall (fun g => exists sl, fst g = map DStr sl) gs /\ save_batches (x_dir x) (x_saver x) (map writes gs) = (x_dir x1, x_saver x1, Ok tt) /\ x_save x1 = true /\ settle x1 = x_saver x1.
  Proof.
    intros Sv SE TD T1. induction T1 as [x|x m ms x1 ids l ls x2 E G T1 IH]; [exists []; repeat split; [constructor|exact Sv|exact SE]|].
    rewrite <- SE in TD. destruct (step_saves a m x x1 ids l Sv E G TD) as (Q & K & Sv1 & SE1 & TD1). rewrite SE in K. destruct (IH Sv1 SE1 TD1) as (gs & -> & J & B & Sv2). exists ((ids, l) :: gs). split; [reflexivity|]. split; [constructor; [exact Q|exact J]|]. split; [|exact Sv2].
    cbn [map save_batches writes fst snd]. rewrite K. exact B.
  Qed.
  Lemma finalize_saves (x1 x2 : lx) d s bs : save_batches d s bs = (x_dir x1, x_saver x1, Ok tt) -> settle x1 = x_saver x1 -> lx_finalize x1 = (x2, Ok tt) -> save_run d s bs = (x_dir x2, x_saver x2, Ok tt).
  Proof.
    intros B SE E. unfold save_run. rewrite B. unfold lx_finalize in E. apply sbind_ok in E. destruct E as (y & [] & E1 & E2). destruct (finalize (x_disk x1) (x_state x1)) as [s' [dk|er]]; [|discriminate E1]. injection E1 as <-.
    change (settle (with_store (with_state x1 s') (x_saver x1) (x_dir x1) dk)) with (settle x1) in E2. rewrite SE in E2. cbn [with_store with_state x_dir] in E2. destruct (saver_finalize (x_dir x1) (x_saver x1)) as [[d' sv] o]. injection E2 as <- ->. reflexivity.
  Qed.
  Lemma written_batches (M : tlog) ids : forall ks off gs, map as_nest (map reads gs) = batches off ks (map show ids) M -> map fst gs = map fst (wbatches enc M off ks ids) ->
    map writes gs = wbatches enc M off ks ids.
  Proof.
    induction ks as [|k ks IH]; intros off [|[i l] gs] E J; try discriminate E; [reflexivity|]. cbn [map batches wbatches fst] in *. injection E as _ El E. injection J as -> J. cbn [writes fst snd reads as_nest] in *.
    unfold reads in El. cbn [snd] in El. apply raw_of in El. subst l. unfold writes at 1. cbn [fst snd]. rewrite raw_enc. f_equal. apply IH; assumption.
  Qed.
  (** the identifiers, cut as the batches are *)
  Lemma cut_ids (M : tlog) : forall ks gs sids, map as_nest (map reads gs) = batches 0 ks sids M -> fold_right Nat.add 0 ks = length sids ->
    sids = map show (concat (map fst gs)) /\ map fst gs = map fst (wbatches enc M 0 ks (concat (map fst gs))).
  Proof.
    assert (G : forall ks gs sids off pre, map as_nest (map reads gs) = batches off ks sids M -> off + fold_right Nat.add 0 ks = length sids -> length pre = off ->
      skipn off sids = map show (concat (map fst gs)) /\ map fst gs = map fst (wbatches enc M off ks (pre ++ concat (map fst gs)))).
    { induction ks as [|k ks IH]; intros [|[i l] gs] sids off pre E L P; try discriminate E.
      - cbn [fold_right] in L. rewrite skipn_all2 by lia. split; reflexivity.
      - cbn [map batches fst] in E. injection E as Ei _ E. unfold reads in Ei. cbn [fst] in Ei. cbn [fold_right] in L. assert (Lk : length i = k). { rewrite <- (map_length show), Ei, firstn_length, skipn_length. lia. }
        destruct (IH gs sids (off + k) (pre ++ i)) as (Q1 & Q2); [exact E|lia|rewrite app_length; lia|]. cbn [map concat fst wbatches]. split.
        + rewrite map_app, <- Q1, Ei. rewrite (Nat.add_comm off k), <- skipn_skipn. symmetry. apply firstn_skipn.
        + rewrite Q2 at 1. rewrite <- app_assoc. f_equal. rewrite skipn_app, skipn_all2 by lia. rewrite P, Nat.sub_diag. cbn [skipn app]. rewrite firstn_app, firstn_all2 by lia. rewrite Lk, Nat.sub_diag. cbn [firstn]. rewrite app_nil_r. reflexivity. }
    intros ks gs sids E L. exact (G ks gs sids 0 [] E L eq_refl).
  Qed.

  (** ---- the trainer's epoch ---- *)
  Definition put_x (p : tr) (x : lx) : tr := tr_set_lm p (tr_sched p) (lm_set_x (tr_lm p) x).
  Lemma put_x_twice p x y : put_x (put_x p x) y = put_x p y.
  Proof. destruct p as [c s]. destruct s. reflexivity. Qed.
  Lemma put_x_x p x : lm_x (tr_lm (put_x p x)) = x.
  Proof. reflexivity. Qed.
  Lemma put_x_id p : put_x p (lm_x (tr_lm p)) = p.
  Proof. destruct p as [c s]. destruct s. reflexivity. Qed.
  Lemma log_train a m p (x1 : lx) : training_step a m (lm_x (tr_lm p)) = (x1, Ok tt) -> on_tlm (on_x (training_step a m)) p = (put_x p x1, Ok tt).
  Proof. intros E. unfold on_tlm, on_x. rewrite E. reflexivity. Qed.
  Lemma log_step a p : tr_mode p = "log" -> forall ms (x1 : lx) ls, trained a (lm_x (tr_lm p)) ms ls x1 -> do_step a ms p = (put_x p x1, Ok tt).
  Proof.
    intros Mo ms. revert p Mo. induction ms as [|m ms IH]; intros p Mo x1 ls T1; inversion T1 as [|? ? ? y ids l ls' ? E G T2]; subst; [cbn; rewrite put_x_id; reflexivity|].
    pose proof (log_train a m p y E) as K. assert (Mo1 : tr_mode (put_x p y) = "log") by exact Mo. specialize (IH (put_x p y) Mo1 x1 ls' T2). rewrite put_x_twice in IH.
    destruct ms as [|m2 ms].
    - cbn [ModelTrainer.do_step]. rewrite (sbind_run _ _ _ _ _ K). unfold on_step_end, sbind, sget. rewrite Mo1. cbn. inversion T2; subst. reflexivity.
    - cbn [ModelTrainer.do_step]. rewrite (sbind_run _ _ _ _ _ K). unfold on_substep_end at 1. unfold sbind at 1 2. unfold sget at 1. rewrite Mo1. cbn [mem existsb]. exact IH.
  Qed.
  Lemma log_steps a : forall steps p (x1 : lx) ls, tr_mode p = "log" -> trained a (lm_x (tr_lm p)) (concat steps) ls x1 -> seach (do_step a) steps p = (put_x p x1, Ok tt).
  Proof.
    induction steps as [|ms steps IH]; intros p x1 ls Mo T1; cbn [concat seach] in *; [inversion T1; subst; rewrite put_x_id; reflexivity|].
    apply trained_app in T1. destruct T1 as (l1 & l2 & y & _ & _ & T1 & T2). rewrite (sbind_run _ _ _ _ _ (log_step a p Mo ms y l1 T1)).
    rewrite (IH (put_x p y) x1 l2 Mo T2), put_x_twice. reflexivity.
  Qed.
  Definition put_done (p : tr) (x : lx) : tr := tr_set_lm p (tr_sched p) (lm_set_conf (lm_set_x (tr_lm p) x) (Some (lm_cfg (tr_lm p)))).
  Lemma finalize_trained a p p1 steps ls (x1 x2 : lx) : tr_mode p = "log" -> on_epoch_begin rnd svd p = (p1, Ok tt) -> trained a (lm_x (tr_lm p1)) (concat steps) ls x1 -> lx_finalize x1 = (x2, Ok tt) ->
    do_epoch a steps p = (put_done p1 x2, Ok tt).
  Proof.
    intros Mo E T1 Fi. assert (M1 : tr_mode p1 = "log") by (apply fr_epoch_begin in E; destruct E as (Q & _); congruence). unfold ModelTrainer.do_epoch. rewrite (sbind_run _ _ _ _ _ E). rewrite (sbind_run _ _ _ _ _ (log_steps a steps p1 x1 ls M1 T1)).
    unfold on_epoch_end. rewrite (sbind_run _ _ _ _ _ (eq_refl : sget (put_x p1 x1) = _)). change (tr_mode (put_x p1 x1)) with (tr_mode p1). rewrite M1. change (String.eqb "log" "log") with true. cbn beta iota.
    unfold on_tlm, lm_finalize, sbind, on_x. change (lm_x (tr_lm (put_x p1 x1))) with x1. rewrite Fi. reflexivity.
  Qed.
  Lemma nodup_map {A B} (f : A -> B) l : NoDup (map f l) -> NoDup l.
  Proof. induction l as [|x l IH]; intros N; [constructor|]. inversion N as [|? ? J N2]; subst. constructor; [intros K; apply J, in_map, K|apply IH, N2]. Qed.
  Theorem epoch_written dt e exact ms n (M : tlog) a steps (p p1 : tr) rank w thr ls x1 x2 ks sids :
    codec dt e exact enc dec -> storable exact ms n M -> ms <> [] -> NoDup ms -> 0 < ha_bs a ->
    tr_mode p = "log" -> on_epoch_begin rnd svd p = (p1, Ok tt) -> x_save (lm_x (tr_lm p1)) = true ->
    x_saver (lm_x (tr_lm p1)) = saver_init rank w thr (grad_paths ms) -> (w <= 1)%Z -> fresh_dir (x_dir (lm_x (tr_lm p1))) ->
    trained a (lm_x (tr_lm p1)) (concat steps) ls x1 -> lx_finalize x1 = (x2, Ok tt) ->
    map as_nest ls = batches 0 ks sids M -> fold_right Nat.add 0 ks = n -> length sids = n -> NoDup sids ->
    exists p', do_epoch a steps p = (p', Ok tt) /\ lm_x (tr_lm p') = x2 /\ tr_built p' = tr_built p1 /\ tr_loader p' = tr_loader p1 /\
      log_batches dec show (ha_bs a) (x_dir x2) = Ok (batches 0 (map (@length string) (chunks (ha_bs a) sids)) sids (regrad ms M)).
  Proof.
    intros CD ST NE N B Mo EB Sv Es W Fd T1 Fi EL Sk Ls ND. exists (put_done p1 x2). split; [apply (finalize_trained a p p1 steps ls x1 x2); assumption|]. split; [reflexivity|]. split; [reflexivity|]. split; [reflexivity|].
    assert (SE0 : settle (lm_x (tr_lm p1)) = x_saver (lm_x (tr_lm p1))) by (apply settle_empty; rewrite Es; reflexivity). assert (TD0 : two_deep (s_buffer (x_saver (lm_x (tr_lm p1))))) by (rewrite Es; intros i b; discriminate).
    destruct (trained_saves a _ _ _ _ Sv SE0 TD0 T1) as (gs & -> & J & SB & _ & SE). apply (finalize_saves x1 x2) in SB; [|exact SE|exact Fi]. destruct (cut_ids M ks gs sids EL) as (Q1 & Q2); [congruence|]. set (ids := concat (map fst gs)) in *.
    rewrite Q1 in EL. rewrite (written_batches M ids ks 0 gs EL Q2) in SB. rewrite Es in SB.
    assert (J2 : Forall json_id ids). { unfold ids. clear - J. induction J as [|g gs (sl & E) J IH]; [constructor|]. cbn [map concat]. rewrite E. apply Forall_app. split; [|exact IH]. apply Forall_forall. intros d I0. apply in_map_iff in I0. destruct I0 as (s & <- & _). exact Logic.I. }
    assert (Li : length ids = n) by (rewrite <- Ls, Q1, map_length; reflexivity).
    destruct (read_back dt e exact enc dec CD show ms n M ST rank w thr _ ks ids (ha_bs a) NE N Fd W J2) as (d' & s' & R1 & R2); auto.
    { apply (nodup_map show). rewrite <- Q1. exact ND. }
    rewrite R1 in SB. injection SB as -> _. rewrite R2. rewrite Q1. f_equal. f_equal. unfold chunks. rewrite map_length. clear. generalize (length ids) as f. intros f. generalize ids. induction f as [|f IH]; intros l; [reflexivity|].
    destruct l as [|d r] eqn:D; [reflexivity|]. rewrite <- D.
    replace (chunks_fuel (S f) (ha_bs a) l) with (firstn (ha_bs a) l :: chunks_fuel f (ha_bs a) (skipn (ha_bs a) l)) by (rewrite D; reflexivity).
    replace (chunks_fuel (S f) (ha_bs a) (map show l)) with (firstn (ha_bs a) (map show l) :: chunks_fuel f (ha_bs a) (skipn (ha_bs a) (map show l))) by (rewrite D; reflexivity).
    cbn [map]. rewrite skipn_map, <- IH, firstn_map, map_length. reflexivity.
  Qed.
End Disk.
