(** Whole runs: the training epoch of a trainer. *)
From Coq Require Import ZArith Permutation Lia.
From Verif Require Import Py PyStr Field Tensor ModelGrad Monad ModelState ModelMmap ModelSaver ModelLoader ModelLogger ModelModules ModelLora ModelScheduler ModelInfluence ModelUtils ModelTrainer SpecGrad SpecState SpecStore SpecLogger SpecInfluence SpecRows SpecTrainer SpecDisk SpecWhole StateProofs1 StateProofs3 StateProofs4 StateProofs5 GradProofs1 LogProofs1 LogProofs8 LogProofs9 InfProofs10 ViewProofs ViewProofs2 DiskProofs1 DiskProofs2 DiskProofs3 WholeProofs1 WholeProofs2 WholeProofs3.
Local Open Scope string_scope.
Local Open Scope list_scope.
Local Open Scope nat_scope.

Section P.
  Context {F : Type} `{OField F}.
  Add Field wp4field : f_theory.
  Notation tensor := (tensor F).
  Notation dten := (@dten F).
  Notation lx := (@lx F).
  Notation lstate := (@lstate F).
  Notation tlog := (@tlog F).
  Notation tr := (@tr F).
  Context (rnd : mid -> list nat -> F) (svd : tensor -> res tensor) (kind : mid -> mkind) (wsize : mid -> nat).
  Context (eigh : tensor -> res (tensor * tensor)) (inverse : tensor -> res tensor) (fsqrt : F -> F).
  Context (enc : dten -> array) (dec : array -> dten) (show : did -> string).
  Context (tok : option (ModelUtils.data -> res (list string))) (hash : string -> string).
  Notation trained := (trained kind eigh enc show tok hash).
  Notation training_step := (training_step kind eigh enc tok hash).
  Notation reachable := (reachable kind wsize eigh enc).
  Notation logged_epoch := (logged_epoch kind eigh enc).
  Notation extract_log := (extract_log rnd svd kind eigh inverse fsqrt enc dec show tok hash).
  Notation new_run := (new_run kind wsize eigh enc).
  Notation training := (training rnd svd kind eigh enc dec show tok hash).
  Notation on_epoch_begin := (on_epoch_begin rnd svd).

  (** ---- training steps as batches ---- *)
  Definition is_batch (a : @hfargs F) (m : @micro F) (b : @batch F) : Prop := bt_mask b = mi_mask m /\ bt_evs b = mi_body m (step_scale a m).
  Lemma step_epoch a m (x x1 : lx) ids l : training_step a m x = (x1, Ok tt) -> lx_get_log true x1 = (x1, Ok (GCopy (Some ids) l)) ->
    exists b, is_batch a m b /\ epoch kind eigh enc [b] x x1.
  Proof.
    intros E G. unfold ModelTrainer.training_step in E. apply sbind_ok in E as (x0 & oi & E0 & E). injection E0 as -> Ei. apply sbind_ok in E as (x0' & sc & E0 & E). injection E0 as -> Es.
    unfold block in E. destruct oi as [ids0|].
    - exists (Batch ids0 (mi_mask m) (mi_body m sc)). split; [split; [reflexivity|unfold step_scale; rewrite Es; reflexivity]|]. apply (e_with _ _ _ _ _ false _ x1); [exact E|constructor].
    - exfalso. apply sbind_ok in E as (y & [] & E1 & E). apply sbind_ok in E as (z & [] & E2 & E). injection E1 as <-. apply enter_ids in E2. destruct (run_evs kind eigh (mi_body m sc) z) as [v [u|er]] eqn:EV.
      + apply evs_ids in EV. unfold lx_exit, sbind at 1, sget in E. apply update_stores in E as (s & sv & d & vs & ->). unfold lx_get_log in G. destruct (forallb _ _); [|discriminate G]. injection G as G _. cbn in G.
        unfold same_ids in *. rewrite EV, E2 in G. discriminate G.
      + destruct (lx_exit eigh enc v) as [w [u|e']]; discriminate E.
  Qed.
  Lemma copy_read (x : lx) ids l : lx_get_log true x = (x, Ok (GCopy ids l)) -> read_got x (GView (x_ids x)) = (ids, l).
  Proof. unfold lx_get_log. destruct (forallb _ _); [|discriminate]. intros [= <- <-]. reflexivity. Qed.
  Lemma trained_logged a (x x1 : lx) ms ls : trained a x ms ls x1 -> forall Ls, map snd ls = map log_nd Ls -> exists bs, Forall2 (is_batch a) ms bs /\ logged_epoch bs Ls x x1.
  Proof.
    induction 1 as [x|x m ms x1 ids l ls x2 E G T1 IH]; intros [|L Ls] EL; try discriminate EL; [exists []; split; constructor|]. cbn [map snd] in EL. injection EL as E1 EL.
    destruct (step_epoch a m x x1 ids l E G) as (b & B1 & B2). destruct (IH Ls EL) as (bs & B3 & B4). exists (b :: bs). split; [constructor; assumption|].
    apply (le_batch _ _ _ b bs L Ls x x1 x2 (Some ids) l); [exact B2|exact (copy_read x1 _ _ G)|exact E1|exact B4].
  Qed.
  Lemma batch_evs mods names o off a : forall ms bs h, Forall2 (is_batch a) ms bs -> epoch_calls kind mods names o off h bs = epoch_calls kind mods names o off h (map (step_batch a) ms).
  Proof.
    intros ms bs h HB. revert h. induction HB as [|m b ms bs (E1 & E2) HB IH]; intros h; [reflexivity|]. cbn [map epoch_calls step_batch bt_mask bt_evs]. rewrite E1, E2, IH. reflexivity.
  Qed.
  Lemma batch_own a ms bs : Forall2 (is_batch a) ms bs -> Forall (fun m => forall k, own_backward [] (mi_body m k)) ms -> Forall (fun b => own_backward [] (bt_evs b)) bs.
  Proof. induction 1 as [|m b ms bs (E1 & E2) HB IH]; intros HO; [constructor|]. apply Forall_cons_iff in HO as [HO0 HO]. constructor; [rewrite E2; apply HO0|exact (IH HO)]. Qed.

  (** ---- the logs of the batches ---- *)
  Fixpoint parts (off : nat) (ks : list nat) (M : tlog) : list tlog := match ks with [] => [] | k :: r => part off k M :: parts (off + k) r M end.
  Lemma batches_parts M : forall ks off sids (ls : list (list string * nd (@sval F))), map as_nest ls = batches off ks sids M -> map snd ls = map log_nd (parts off ks M).
  Proof.
    induction ks as [|k ks IH]; intros off sids [|[i l] ls] E; try discriminate E; [reflexivity|]. cbn [map batches parts as_nest fst snd] in *. injection E as _ -> E. f_equal. exact (IH _ _ _ E).
  Qed.
  Lemma rows_samples off k n (t : tensor) : hd 0 (shape t) = n -> off + k <= n -> samples (rows off k t) = map (slice t) (seq off k).
  Proof.
    intros E L. unfold samples, batch_size. cbn [rows shape hd]. replace off with (off + 0) at 2 by lia. rewrite <- (map_map (fun i => off + i) (slice t)) || idtac.
    assert (K : forall j s, s + j = k -> map (slice (rows off k t)) (seq s j) = map (slice t) (seq (off + s) j)).
    { induction j as [|j IH]; intros s Hs; [reflexivity|]. cbn [seq map]. rewrite slice_rows by lia. f_equal. rewrite IH by lia. f_equal. f_equal. lia. }
    exact (K k 0 eq_refl).
  Qed.
  Lemma parts_grads m (M : tlog) d t n rest : grad_of M m = Some (d, t) -> shape t = n :: rest -> forall ks off, off + fold_right Nat.add 0 ks <= n ->
    grad_rows (grads m (parts off ks M)) = map (@Tensor.data F) (map (slice t) (seq off (fold_right Nat.add 0 ks))) /\ (ks <> [] -> grads m (parts off ks M) <> []).
  Proof.
    intros G S. induction ks as [|k ks IH]; intros off L; [split; [reflexivity|congruence]|]. cbn [fold_right] in L. destruct (IH (off + k) ltac:(lia)) as [I1 _]. unfold grads, grad_rows in *. cbn [parts map concat]. rewrite part_grad, G. cbn [option_map fst snd app map concat].
    split; [|discriminate]. rewrite I1, (rows_samples off k n) by (try rewrite S; try reflexivity; lia). cbn [fold_right]. rewrite seq_app, !map_app. reflexivity.
  Qed.
  Lemma parts_none m (M : tlog) : grad_of M m = None -> forall ks off, grads m (parts off ks M) = [].
  Proof. intros G. induction ks as [|k ks IH]; intros off; [reflexivity|]. unfold grads in *. cbn [parts map concat]. rewrite part_grad, G. exact (IH _). Qed.
  Lemma parts_good exact ms n (M : tlog) : storable exact ms n M -> (forall m, In m (dkeys M) -> In m ms) -> forall ks off, Forall (fun k => k <> 0) ks -> off + fold_right Nat.add 0 ks <= n -> Forall good_grads (parts off ks M).
  Proof.
    intros (U & _ & ST) HI. induction ks as [|k ks IH]; intros off HK L; [constructor|]. apply Forall_cons_iff in HK as [HK0 HK]. cbn [fold_right] in L. cbn [parts]. constructor; [|apply IH; [exact HK|lia]].
    intros m J. rewrite part_keys in J. destruct (ST m (HI m J)) as (d & t & k' & rest & G & S & P & _). exists d, (rows off k t). split; [rewrite part_grad; unfold grad_of; rewrite G; reflexivity|].
    destruct (U m "grad" _ G) as (r & S' & W). cbn [snd] in *. split; [apply (rows_wf off k t n r S' W); lia|]. unfold rows. cbn [shape]. rewrite S. cbn [tl]. rewrite prod_cons. destruct k; [congruence|]. destruct (prod (k' :: rest)); [lia|]. discriminate.
  Qed.
  (** the moment over all parts *)
  Lemma parts_moment m (M : tlog) d t n rest ks st : grad_of M m = Some (d, t) -> shape t = n :: rest -> twf t -> splits ks n ->
    grads m (parts 0 ks M) <> [] /\
    moment st (width (grad_rows (grads m (parts 0 ks M)))) (grad_rows (grads m (parts 0 ks M))) (fnat (length (grad_rows (grads m (parts 0 ks M))))) =
    moment st (prod rest) (map (@Tensor.data F) (samples t)) (fnat n).
  Proof.
    intros G S W (NE & NZ & SU). destruct (parts_grads m M d t n rest G S ks 0 ltac:(lia)) as [I1 I2]. split; [exact (I2 NE)|]. rewrite I1, SU.
    assert (N0 : n <> 0) by (destruct ks as [|k ks]; [congruence|]; apply Forall_inv in NZ; cbn in SU; lia).
    assert (E : map (slice t) (seq 0 n) = samples t) by (unfold samples, batch_size; rewrite S; reflexivity). rewrite E.
    assert (Wd : width (map (@Tensor.data F) (samples t)) = prod rest).
    { rewrite <- E. destruct n as [|n]; [congruence|]. cbn [seq map]. unfold width. cbn [hd]. apply (slice_length_t (Datatypes.S n) rest t 0 S W). lia. }
    rewrite Wd, map_length. replace (length (samples t)) with n; [reflexivity|]. unfold samples, batch_size. rewrite S, map_length, seq_length. reflexivity.
  Qed.

  (** ---- the schedule ---- *)
  Definition run_opts (h : string) : opts := if String.eqb h "raw" then Opts [] [] [PLog; PCovariance] else Opts [PCovariance] [PCovariance] [PLog].
  Definition begun (h : string) (x : lx) : lx := with_opt (with_saves x true (x_save_batch x)) (run_opts h).
  Lemma run_begins h (p p1 : tr) : h = "raw" \/ h = "kfac" -> new_sched "none" h "grad" = Ok (tr_sched p) -> on_epoch_begin (tr_set_mode p "log") = (p1, Ok tt) ->
    exists c, p1 = tr_set_lm (tr_set_mode p "log") c (lm_set_x (tr_lm p) (begun h (lm_x (tr_lm p)))).
  Proof.
    destruct p as [c s l1 l2 sc mo ac bu lo]. cbn [tr_sched]. intros Hh Ec E.
    destruct Hh as [-> | ->]; injection Ec as <-; destruct s; cbn in E; injection E as <-; eexists; reflexivity.
  Qed.
  Lemma begun_reachable h (x : lx) : h = "raw" \/ h = "kfac" -> reachable x -> reachable (begun h x).
  Proof.
    intros Hh HR. assert (R1 : reachable (with_saves x true (x_save_batch x))) by (apply (reachable_op kind wsize eigh enc (XSave true) x _ (Ok tt) HR); reflexivity).
    destruct Hh as [-> | ->].
    - apply (reachable_op kind wsize eigh enc (XSetup [("grad", [AClass PLog; AClass PCovariance])]) _ _ (Ok tt) R1). reflexivity.
    - apply (reachable_op kind wsize eigh enc (XSetup [("forward", [AClass PCovariance]); ("backward", [AClass PCovariance]); ("grad", [AClass PLog])]) _ _ (Ok tt) R1). reflexivity.
  Qed.
  Lemma run_moments h : all_moments (run_opts h).
  Proof.
    unfold run_opts. destruct (String.eqb h "raw"); (split; [intros p [J|J]; cbn in J; intuition|split; [repeat constructor; cbn; intuition|intros p J; cbn in J; intuition]]).
  Qed.

  (** ---- extract_log ---- *)
  Lemma extract_run h ms a p steps sids (M : tlog) : h = "raw" \/ h = "kfac" -> new_run h ms a p -> training ms a p steps sids M ->
    let x0 := begun h (lm_x (tr_lm p)) in
    let cs := epoch_calls kind (x_mods x0) (x_names x0) (x_opt x0) (x_offload x0) (x_heap x0) (map (step_batch a) (concat steps)) in
    Forall call_ok cs ->
    exists p' ks lc s, extract_log a [steps] p = (p', Ok tt) /\ tr_acc p' = tr_acc p /\ same_results p p' /\ splits ks (length sids) /\
      x_opt x0 = run_opts h /\
      log_batches dec show (ha_bs a) (x_dir (lm_x (tr_lm p'))) = Ok (batches 0 (map (@length string) (chunks (ha_bs a) sids)) sids (regrad ms M)) /\
      finalized x0 (parts 0 ks M) cs (x_state (lm_x (tr_lm p'))) /\
      run_calls lc (x_state (lm_x (tr_lm p))) = (s, Ok tt) /\ Forall call_ok lc /\ (exists dk dk', finalize dk s = (x_state (lm_x (tr_lm p')), Ok dk')).
  Proof.
    intros Hh (Ec & Ei & HR & HP & HF & rank & w & thr & Es & Hw) (NE & ND & HI & HB & NDs & HO & (dt & e & exact & CD & ST) & p1 & ls & x1 & ks & EB & T1 & EL & SP) x0 cs HC.
    destruct (run_begins h p p1 Hh Ec EB) as (c1 & E1). assert (X0 : lm_x (tr_lm p1) = x0) by (rewrite E1; reflexivity). rewrite X0 in T1.
    pose proof (batches_parts M ks 0 sids ls EL) as EP. destruct (trained_logged a x0 x1 _ ls T1 (parts 0 ks M) EP) as (bs & B1 & B2).
    assert (HR0 : reachable x0) by exact (begun_reachable h _ Hh HR). pose proof (batch_own a _ _ B1 HO) as HW. destruct SP as (SP1 & SP2 & SP3).
    assert (HG : Forall good_grads (parts 0 ks M)) by (apply (parts_good exact ms (length sids) M ST HI); [exact SP2|lia]).
    assert (HM : all_moments (x_opt x0)) by exact (run_moments h).
    assert (Ecs : epoch_calls kind (x_mods x0) (x_names x0) (x_opt x0) (x_offload x0) (x_heap x0) bs = cs) by (unfold cs; apply (batch_evs _ _ _ _ a); exact B1).
    destruct (logged_finalize kind wsize eigh enc (x_disk x1) bs (parts 0 ks M) x0 x1 B2 HR0 HP HM HW HG) as (s' & dk' & Ef & HFin); [rewrite Ecs; exact HC|]. rewrite Ecs in HFin.
    destruct (logged_run kind wsize eigh enc bs (parts 0 ks M) x0 x1 B2 HR0 HM HW) as (HL & _ & HLen & HN).
    (* finalize of the saver *)
    assert (Sv : x_save x0 = true) by reflexivity. assert (Esx : x_saver x0 = saver_init rank w thr (grad_paths ms)) by exact Es.
    assert (SE0 : settle x0 = x_saver x0) by (apply settle_empty; rewrite Esx; reflexivity). assert (TD0 : two_deep (s_buffer (x_saver x0))) by (rewrite Esx; intros i b; discriminate).
    assert (Fi : exists x2, lx_finalize x1 = (x2, Ok tt) /\ x_state x2 = s').
    { destruct (trained_saves kind eigh enc show tok hash a _ _ _ _ Sv SE0 TD0 T1) as (gs & El & J & SB & _ & SE). rewrite El in EL. destruct (cut_ids enc show M ks gs sids EL) as (Q1 & Q2); [congruence|]. set (ids := concat (map fst gs)) in *.
      pose proof EL as EL2. rewrite Q1 in EL2. rewrite (written_batches enc show M ids ks 0 gs EL2 Q2) in SB. rewrite Esx in SB.
      assert (J2 : Forall json_id ids). { unfold ids. clear - J. induction J as [|g gs (sl & E) J IH]; [constructor|]. cbn [map concat]. rewrite E. apply Forall_app. split; [|exact IH]. apply Forall_forall. intros d I0. apply in_map_iff in I0. destruct I0 as (s & <- & _). exact Logic.I. }
      assert (Li : length ids = length sids) by (rewrite Q1, map_length; reflexivity).
      destruct (read_back dt e exact enc dec CD show ms (length sids) M ST rank w thr (x_dir x0) ks ids (ha_bs a) NE ND HF Hw J2) as (d' & sv' & R1 & R2); auto.
      { apply (nodup_map show). rewrite <- Q1. exact NDs. }
      unfold save_run in R1. rewrite SB in R1. unfold lx_finalize. unfold sbind at 1. rewrite Ef. cbv beta iota.
      change (settle (with_store (with_state x1 s') (x_saver (with_state x1 s')) (x_dir (with_state x1 s')) dk')) with (settle x1) || idtac.
      match goal with |- context [settle ?z] => change (settle z) with (settle x1) end. rewrite SE. match goal with |- context [saver_finalize ?z _] => change z with (x_dir x1) end.
      rewrite R1. eexists. split; [reflexivity|]. reflexivity. }
    destruct Fi as (x2 & Fi & Sx2).
    assert (Mo : tr_mode (tr_set_mode p "log") = "log") by reflexivity.
    destruct (epoch_written rnd svd kind eigh inverse fsqrt enc dec show tok hash dt e exact ms (length sids) M a steps (tr_set_mode p "log") p1 rank w thr ls x1 x2 ks sids) as (p' & K1 & K2 & K3 & K4 & K5); auto; try (rewrite X0; assumption).
    pose proof (finalize_trained rnd svd kind eigh inverse fsqrt enc dec show tok hash a (tr_set_mode p "log") p1 steps ls x1 x2 Mo EB ltac:(rewrite X0; exact T1) Fi) as K6. rewrite K1 in K6. apply (f_equal fst) in K6. cbn [fst] in K6.
    exists p', ks, (lcalls kind (x_mods x0) (x_names x0) (x_opt x0) (x_offload x0) (x_heap x0) bs (parts 0 ks M)), (x_state x1).
    split. { unfold ModelTrainer.extract_log, set_mode. erewrite sbind_run by reflexivity. unfold do_train, on_train_begin. rewrite Ei. cbn [seach]. unfold sbind at 1. unfold sbind at 1. cbn [sget]. unfold sbind at 1. cbn. unfold sbind. rewrite K1. reflexivity. }
    split. { rewrite K6, E1. reflexivity. } split. { rewrite K6, E1. repeat split; reflexivity. } split; [exact (conj SP1 (conj SP2 SP3))|]. split; [reflexivity|]. rewrite K2. split; [exact K5|]. rewrite Sx2. split; [exact HFin|]. split; [exact HL|].
    split. { apply lcalls_ok; [exact HLen|exact HG|]. rewrite Ecs. exact HC. } exists (x_disk x1), dk'. exact Ef.
  Qed.
End P.
