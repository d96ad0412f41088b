(** The epochs of a Lightning run; what the other runs leave alone; the default data ids. *)
From Coq Require Import ZArith Lia.
From Verif Require Import Py PyStr Field Tensor ModelGrad Monad ModelState ModelMmap ModelSaver ModelLoader ModelLogger ModelModules ModelLora ModelScheduler ModelInfluence ModelUtils ModelTrainer ModelLightning SpecGrad SpecState SpecInfluence SpecRows SpecTrainer SpecLightning LogProofs1 TrainProofs1 TrainProofs2 TrainProofs3 LightProofs1.
Local Open Scope string_scope.
Local Open Scope list_scope.
Local Open Scope nat_scope.

Section Proofs.
  Context {F : Type} `{OField F}.
  Notation tensor := (tensor F).
  Notation lx := (@lx F).
  Notation ifn := (@ifn F).
  Notation tr := (@tr F).
  Context (rnd : mid -> list nat -> F) (svd : tensor -> res tensor) (kind : mid -> mkind).
  Context (eigh : tensor -> res (tensor * tensor)) (inverse : tensor -> res tensor) (fsqrt : F -> F).
  Context (enc : @dten F -> array) (dec : array -> @dten F) (show : did -> string).
  Context {B X : Type} (extract : B -> SM X (list did)) (mask : option (B -> res (option (@dten F)))) (body : B -> list (@ev F)).
  Notation pl := (@pl F X).
  Notation pl_batch := (pl_batch kind eigh inverse fsqrt enc dec show extract mask body).
  Notation pl_do_epoch := (pl_do_epoch rnd svd kind eigh inverse fsqrt enc dec show extract mask body).
  Notation fit_epochs := (fit_epochs rnd svd kind eigh inverse fsqrt enc dec show extract mask body).
  Notation fit := (fit rnd svd kind eigh inverse fsqrt enc dec show extract mask body).
  Notation pl_extract := (pl_extract rnd svd kind eigh inverse fsqrt enc dec show extract mask body).
  Notation pl_influence := (pl_influence rnd svd kind eigh inverse fsqrt enc dec show extract mask body).
  Notation pl_self := (pl_self rnd svd kind eigh inverse fsqrt enc dec show extract mask body).

  Definition keepc (q q' : pl) : Prop := pl_mode q' = pl_mode q /\ (pl_mode q <> "influence" -> same_scores q q') /\ pl_epoch q' = pl_epoch q /\ pl_stop q' = pl_stop q /\ sc_all (tr_sched (pl_t q')) = sc_all (tr_sched (pl_t q)).
  Definition keep (q q' : pl) : Prop := keepc q q' /\ tr_sched (pl_t q') = tr_sched (pl_t q).
  Lemma keepc_refl q : keepc q q.
  Proof. repeat split. Qed.
  Lemma keepc_trans q1 q2 q3 : keepc q1 q2 -> keepc q2 q3 -> keepc q1 q3.
  Proof. unfold keepc, same_scores. intros (A1 & A2 & A3 & A4 & A5) (B1 & B2 & B3 & B4 & B5). split; [congruence|]. split; [|repeat split; congruence]. intros N. specialize (A2 N). rewrite <- A1 in N. specialize (B2 N). intuition congruence. Qed.
  Lemma keep_refl q : keep q q.
  Proof. split; [apply keepc_refl|reflexivity]. Qed.
  Lemma keep_trans q1 q2 q3 : keep q1 q2 -> keep q2 q3 -> keep q1 q3.
  Proof. intros (A & A1) (B1 & B2). split; [apply (keepc_trans q1 q2 q3 A B1)|congruence]. Qed.
  Lemma k_ret {A} (y : A) q q' r : sret y q = (q', r) -> keep q q'.
  Proof. intros [= <- _]. apply keep_refl. Qed.
  Lemma k_lift {A} (y : res A) q q' r : lift y q = (q', r) -> keep q q'.
  Proof. intros [= <- _]. apply keep_refl. Qed.
  Lemma k_get q q' r : sget q = (q', r) -> keep q q'.
  Proof. intros [= <- _]. apply keep_refl. Qed.
  Lemma k_ext {A} (m : SM X A) (q q' : pl) r : on_ext m q = (q', r) -> keep q q'.
  Proof. unfold on_ext. destruct (m (pl_ext q)). intros [= <- _]. repeat split. Qed.
  Definition trk (p p' : tr) : Prop := tr_mode p' = tr_mode p /\ tr_sched p' = tr_sched p /\ (tr_mode p <> "influence" -> tr_scores p' = tr_scores p /\ tr_lists p' = tr_lists p /\ tr_dicts p' = tr_dicts p).
  Lemma trk_trans p1 p2 p3 : trk p1 p2 -> trk p2 p3 -> trk p1 p3.
  Proof. unfold trk. intros (A1 & A2 & A3) (B1 & B2 & B3). split; [congruence|]. split; [congruence|]. intros N. specialize (A3 N). rewrite <- A1 in N. specialize (B3 N). intuition congruence. Qed.
  Lemma k_t {A} (m : SM tr A) (q q' : pl) r : (forall p' o, m (pl_t q) = (p', o) -> trk (pl_t q) p') -> on_t m q = (q', r) -> keep q q'.
  Proof. intros K. unfold on_t. destruct (m (pl_t q)) as [p' o]. intros [= <- _]. destruct (K p' o eq_refl) as (A1 & A2 & A3). split; [|exact A2]. repeat split; try assumption; try (apply A3; assumption). cbn [pl_t]. rewrite A2. reflexivity. Qed.
  Lemma trk_tlm {A} (m : SM (@lm F) A) p p' r : on_tlm m p = (p', r) -> trk p p'.
  Proof. unfold on_tlm. destruct (m (tr_lm p)). intros [= <- _]. repeat split. Qed.
  Lemma k_lx {A} (m : SM lx A) (q q' : pl) r : on_lx m q = (q', r) -> keep q q'.
  Proof. apply k_t. intros p' o. apply trk_tlm. Qed.
  Lemma k_fin (q q' : pl) r : on_t (on_tlm lm_finalize) q = (q', r) -> keep q q'.
  Proof. apply k_t. intros p' o. apply trk_tlm. Qed.
  Lemma trk_live p p' r : live_log show p = (p', r) -> trk p p'.
  Proof. unfold live_log. apply (sbind_rel trk trk_trans); [intros y o; apply trk_tlm|]. intros g y y' o. destruct (fst (read_got _ g)); intros [= <- _]; repeat split. Qed.
  Lemma trk_build a p p' r : build_loader dec show a p = (p', r) -> trk p p'.
  Proof. unfold build_loader. destruct (tr_built p); [intros [= <- _]; repeat split|]. destruct (log_batches _ _ _ _); intros [= <- _]; repeat split. Qed.
  Lemma trk_infl {A} (m : SM ifn A) p p' r : tr_mode p = "influence" -> on_infl m p = (p', r) -> trk p p'.
  Proof. intros Mo. unfold on_infl. destruct (m (tr_ifn p)). intros [= <- _]. repeat split; congruence. Qed.
  Lemma trk_self {A} (m : SM (@lstate F) A) p p' r : on_infl (on_lstate m) p = (p', r) -> trk p p'.
  Proof. unfold on_infl, on_lstate, tr_ifn. cbn [if_state]. destruct (m (x_state (lm_x (tr_lm p)))) as [s o]. intros E. apply (f_equal fst) in E. cbn [fst] in E. subst p'. repeat split. Qed.
  Lemma k_batch_end a (q q' : pl) r : pl_batch_end eigh inverse fsqrt enc dec show a q = (q', r) -> keep q q'.
  Proof.
    unfold pl_batch_end. apply (sbind_rel keep keep_trans); [intros y o; apply k_lx|]. intros [] y y' o. unfold sbind at 1. unfold sget at 1.
    destruct (String.eqb (pl_mode y) "influence") eqn:E1; [|destruct (String.eqb (pl_mode y) "self_influence"); [|apply k_ret]]; apply k_t; intros p' o'.
    - apply String.eqb_eq in E1. change (tr_mode (pl_t y) = "influence") in E1. intros E. unfold sbind at 1 in E. destruct (live_log show (pl_t y)) as [p1 [g|e]] eqn:EL; apply trk_live in EL; [|injection E as <- _; exact EL].
      unfold sbind at 1 in E. destruct (build_loader dec show a p1) as [p2 [l|e]] eqn:EB; apply trk_build in EB; [|injection E as <- _; apply (trk_trans _ p1); assumption].
      pose proof (trk_trans _ _ _ EL EB) as T2. apply (trk_trans _ p2 p' T2). destruct T2 as (M2 & _). revert E. apply (sbind_rel trk trk_trans); [intros z o2; apply trk_infl; congruence|]. intros u z z' o2 [= <- _]. repeat split.
    - apply (sbind_rel trk trk_trans); [intros z o2; apply trk_live|]. intros g z z' o2. apply (sbind_rel trk trk_trans); [intros w o3; apply trk_build|]. intros l w w' o3. apply (sbind_rel trk trk_trans); [intros v o4; apply trk_self|]. intros u v v' o4 [= <- _]. repeat split.
  Qed.
  Lemma k_batch a b (q q' : pl) r : pl_batch a b q = (q', r) -> keep q q'.
  Proof.
    unfold ModelLightning.pl_batch. apply (sbind_rel keep keep_trans); [intros y o; unfold pl_batch_start|].
    - apply (sbind_rel keep keep_trans); [intros z o2; apply k_ext|]. intros ids z z' o2. apply (sbind_rel keep keep_trans); [intros w o3; apply k_lift|]. intros m w w' o3. apply k_lx.
    - intros [] y y' o. apply (sbind_rel keep keep_trans); [intros z o2; apply k_lx|]. intros [] z z' o2. apply k_batch_end.
  Qed.
  Lemma k_batches a bs (q q' : pl) r : seach (pl_batch a) bs q = (q', r) -> keep q q'.
  Proof. apply (seach_rel keep keep_refl keep_trans). intros b y y' o _. apply k_batch. Qed.
  Lemma next_all c (s : @lm F) c' s' r : sched_next rnd svd (c, s) = ((c', s'), r) -> sc_all c' = sc_all c /\ (forall z, r = Ok z -> length (sc_rest c) = S (length (sc_rest c'))).
  Proof.
    unfold sched_next. intros E. unfold sbind at 1 in E. cbn [fst snd] in E. destruct (sc_rest c) as [|st l] eqn:Er; [cbn in E; injection E as <- _ <-; split; [reflexivity|discriminate]|].
    assert (K : forall A (m : SM (@lm F) A) q q' o, on_lm m q = (q', o) -> fst q' = fst q). { intros A m q q' o. unfold on_lm. destruct (m (snd q)). intros [= <- _]. reflexivity. }
    set (R := fun q q' : sched * @lm F => fst q' = fst q) in *. assert (Rt : forall x y z, R x y -> R y z -> R x z) by (unfold R; intuition congruence).
    set (c1 := Sched (sc_lora c) (sc_hessian c) (sc_save c) (sc_epoch c + 1) (sc_all c) l) in *.
    assert (Q : R (c1, s) (c', s')).
    { revert E. apply (sbind_rel R Rt); [intros y o [= <- _]; reflexivity|]. intros q y y' o. apply (sbind_rel R Rt); [intros z o'; destruct (_ =? _)%Z; [apply K|intros [= <- _]; reflexivity]|].
      intros [] z z' o'. apply (sbind_rel R Rt); [intros w o2; destruct (_ =? _)%Z; [apply K|intros [= <- _]; reflexivity]|]. intros [] w w' o2. apply (sbind_rel R Rt); [intros v o3; apply K|]. intros [] v v' o3 [= <- _]. reflexivity. }
    unfold R in Q. cbn [fst] in Q. rewrite Q. split; reflexivity.
  Qed.
  Definition limit (q : pl) : nat := if String.eqb (pl_mode q) "log" then pl_total q else 1.
  Lemma k_start (q q' : pl) r : pl_epoch_start rnd svd q = (q', r) -> keepc q q' /\ (r = Ok tt -> pl_left q = (if String.eqb (pl_mode q) "log" then 1 else 0) + pl_left q').
  Proof.
    unfold pl_epoch_start. unfold sbind at 1. unfold sget at 1. destruct (String.eqb (pl_mode q) "log").
    - unfold sbind, on_t, on_sched. destruct (sched_next rnd svd (tr_sched (pl_t q), tr_lm (pl_t q))) as [[c s] o] eqn:E. apply next_all in E. destruct E as (E1 & E2).
      destruct o as [z|e]; intros [= <- <-]; (split; [repeat split; exact E1|]); [|discriminate]. intros _. exact (E2 z eq_refl).
    - intros E. assert (K : keep q q'). { revert E. apply (sbind_rel keep keep_trans); [intros z o; apply k_lx|]. intros [] z z' o. apply k_lx. } destruct K as (K1 & K2). split; [exact K1|]. intros _. unfold pl_left. rewrite K2. reflexivity.
  Qed.
  Lemma epoch_ok a bs (q q' : pl) : pl_do_epoch a bs q = (q', Ok tt) ->
    pl_mode q' = pl_mode q /\ pl_total q' = pl_total q /\ pl_epoch q' = S (pl_epoch q) /\ pl_stop q' = (if limit q - 1 <=? pl_epoch q then true else pl_stop q) /\
    pl_left q = (if String.eqb (pl_mode q) "log" then 1 else 0) + pl_left q'.
  Proof.
    unfold ModelLightning.pl_do_epoch. intros E. apply sbind_ok in E. destruct E as (q1 & [] & E1 & E). apply sbind_ok in E. destruct E as (q2 & [] & E2 & E). apply sbind_ok in E. destruct E as (q3 & [] & E3 & E). injection E as <-.
    apply k_start in E1. destruct E1 as (K1 & L1). specialize (L1 eq_refl). apply k_batches in E2. destruct E2 as (K2 & S2). pose proof (keepc_trans _ _ _ K1 K2) as K12.
    unfold pl_epoch_end in E3. unfold sbind at 1 in E3. unfold sget at 1 in E3. apply sbind_ok in E3. destruct E3 as (q4 & [] & E4 & E5).
    assert (K4 : keep q2 q4) by (destruct (String.eqb (pl_mode q2) "log"); [exact (k_fin _ _ _ E4)|exact (k_ret _ _ _ _ E4)]). destruct K4 as (K4 & S4).
    pose proof (keepc_trans _ _ _ K12 K4) as (M & _ & Ep & St & Al). injection E5 as <-.
    unfold pl_mode, pl_total, pl_left, limit in *. cbn [pl_t pl_epoch pl_stop] in *. unfold pl_total. rewrite M, Ep, St, Al, S4, S2. repeat split. exact L1.
  Qed.
  Lemma fit_prefix a : forall es (q : pl), pl_stop q = false -> fit_epochs a es q = fit_epochs a (firstn (Nat.max 1 (limit q - pl_epoch q)) es) q.
  Proof.
    induction es as [|e es IH]; intros q Sq; [rewrite firstn_nil; reflexivity|].
    assert (EK : exists k, Nat.max 1 (limit q - pl_epoch q) = S k) by (exists (Nat.max 1 (limit q - pl_epoch q) - 1); lia). destruct EK as (k & EK). rewrite EK. cbn [firstn ModelLightning.fit_epochs].
    unfold sbind. destruct (pl_do_epoch a e q) as [q1 [[]|er]] eqn:E1; [|reflexivity]. apply epoch_ok in E1. destruct E1 as (M & T1 & Ep & St & _). unfold sget. rewrite St, Sq.
    destruct (Nat.leb_spec (limit q - 1) (pl_epoch q)) as [Lq|Lq]; [reflexivity|]. rewrite Sq in St. destruct (Nat.leb_spec (limit q - 1) (pl_epoch q)) as [Lq2|Lq2]; [lia|].
    assert (LQ : limit q1 = limit q) by (unfold limit; rewrite M, T1; reflexivity). rewrite (IH q1 St). f_equal. f_equal. rewrite LQ, Ep. lia.
  Qed.
  Lemma fit_count a : forall es (q q' : pl), pl_stop q = false -> fit_epochs a es q = (q', Ok tt) ->
    let k := Nat.min (length es) (Nat.max 1 (limit q - pl_epoch q)) in
    pl_epoch q' = pl_epoch q + k /\ pl_mode q' = pl_mode q /\ pl_left q = (if String.eqb (pl_mode q) "log" then k else 0) + pl_left q'.
  Proof.
    induction es as [|e es IH]; intros q q' Sq E k.
    - injection E as <-. subst k. cbn [length Nat.min]. repeat split; [lia|]. destruct (String.eqb _ _); reflexivity.
    - cbn [ModelLightning.fit_epochs] in E. apply sbind_ok in E. destruct E as (q1 & [] & E1 & E). apply epoch_ok in E1. destruct E1 as (M & T1 & Ep & St & Lf). unfold sbind, sget in E. rewrite St, Sq in E.
      assert (LQ : limit q1 = limit q) by (unfold limit; rewrite M, T1; reflexivity). cbn [length] in k.
      destruct (Nat.leb_spec (limit q - 1) (pl_epoch q)) as [Lq|Lq].
      + injection E as <-. assert (K1 : k = 1) by (subst k; lia). rewrite K1, Ep, M. repeat split; [lia|]. exact Lf.
      + destruct (IH q1 q') as (A1 & A2 & A3); [rewrite St; destruct (Nat.leb_spec (limit q - 1) (pl_epoch q)); [lia|exact Sq]|exact E|].
        rewrite LQ, Ep in A1, A3. rewrite M in A3. assert (K1 : k = S (Nat.min (length es) (Nat.max 1 (limit q - S (pl_epoch q))))) by (subst k; lia). rewrite K1. repeat split; [lia|congruence|]. rewrite Lf, A3. destruct (String.eqb _ _); lia.
  Qed.
  (** ---- the statements ---- *)
  Theorem light_epochs a es (q : pl) : pl_extract a es q = pl_extract a (firstn (Nat.max 1 (pl_total q - pl_epoch q)) es) q /\
    (forall q', pl_extract a es q = (q', Ok tt) -> let k := Nat.min (length es) (Nat.max 1 (pl_total q - pl_epoch q)) in pl_epoch q' = pl_epoch q + k /\ pl_left q = k + pl_left q').
  Proof.
    set (q1 := PL (tr_set_mode (pl_t q) "log") (pl_ext q) (pl_epoch q) false : pl).
    assert (E : forall l, pl_extract a l q = fit_epochs a l q1) by reflexivity.
    split; [rewrite !E; exact (fit_prefix a es q1 eq_refl)|]. intros q' EQ. rewrite E in EQ. destruct (fit_count a es q1 q' eq_refl EQ) as (A1 & _ & A2). split; [exact A1|exact A2].
  Qed.
  Theorem light_unfinished a es (q q' : pl) : 0 < pl_epoch q -> pl_left q = pl_total q -> 2 <= pl_total q -> pl_extract a es q = (q', Ok tt) -> 0 < pl_left q'.
  Proof. intros E0 L T2 E. destruct (light_epochs a es q) as (_ & G). destruct (G q' E) as (_ & G2). cbv zeta in G2. lia. Qed.
  Theorem light_one_epoch a es (q : pl) : pl_influence a es q = pl_influence a (firstn 1 es) q /\ pl_self a es q = pl_self a (firstn 1 es) q.
  Proof.
    assert (L1 : forall m, Nat.eqb 0 0 = true -> (if String.eqb m "log" then 1 else 1) = 1) by (intros m _; destruct (String.eqb m "log"); reflexivity).
    assert (G : forall mode, String.eqb mode "log" = false -> let q1 := PL (tr_set_mode (pl_t q) mode) (pl_ext q) (pl_epoch q) false : pl in fit_epochs a es q1 = fit_epochs a (firstn 1 es) q1).
    { intros mode Em q1. rewrite (fit_prefix a es q1 eq_refl). f_equal. f_equal. unfold limit. change (pl_mode q1) with mode. rewrite Em. lia. }
    split.
    - assert (E : forall l, pl_influence a l q = (fit_epochs a l ;; let! q := sget in sret (tr_scores (pl_t q))) (PL (tr_set_mode (pl_t q) "influence") (pl_ext q) (pl_epoch q) false)) by reflexivity.
      rewrite !E. unfold sbind at 1. rewrite (G "influence" eq_refl). reflexivity.
    - exact (G "self_influence" eq_refl).
  Qed.
  Lemma fit_keeps a es : forall (q q' : pl) r, pl_mode q <> "influence" -> fit_epochs a es q = (q', r) -> same_scores q q'.
  Proof.
    assert (P : forall bs (q q' : pl) r, pl_mode q <> "influence" -> pl_do_epoch a bs q = (q', r) -> pl_mode q' = pl_mode q /\ same_scores q q').
    { intros bs q q' r N. set (R := fun q q' : pl => pl_mode q' = pl_mode q /\ (pl_mode q <> "influence" -> same_scores q q')).
      assert (Rt : forall x y z, R x y -> R y z -> R x z). { intros x y z (A1 & A2) (B1 & B2). split; [congruence|]. intros Nx. specialize (A2 Nx). rewrite <- A1 in Nx. specialize (B2 Nx). unfold same_scores in *. intuition congruence. }
      assert (Rc : forall x y, keepc x y -> R x y) by (intros x y (A1 & A2 & _); split; assumption). assert (Rk : forall x y, keep x y -> R x y) by (intros x y (A & _); apply Rc, A).
      intros E. assert (K : R q q'); [|destruct K as (K1 & K2); split; [exact K1|exact (K2 N)]]. revert E. apply (sbind_rel R Rt); [intros y o E; apply Rc, (k_start _ _ _ E)|]. intros [] y y' o. apply (sbind_rel R Rt); [intros z o2 E; apply Rk, (k_batches a bs _ _ _ E)|].
      intros [] z z' o2. apply (sbind_rel R Rt); [|intros [] w w' o3 [= <- _]; repeat split]. intros w o3. unfold pl_epoch_end. unfold sbind at 1. unfold sget at 1. apply (sbind_rel R Rt); [|intros [] v v' o4 [= <- _]; repeat split].
      intros v o4 E. apply Rk. destruct (String.eqb _ _); [exact (k_fin _ _ _ E)|exact (k_ret _ _ _ _ E)]. }
    induction es as [|e es IH]; intros q q' r N E; cbn [ModelLightning.fit_epochs] in E; [injection E as <- _; repeat split|].
    unfold sbind at 1 in E. destruct (pl_do_epoch a e q) as [q1 [[]|er]] eqn:E1; apply P in E1; [|exact N| |exact N].
    - destruct E1 as (M1 & S1). unfold sbind, sget in E. destruct (pl_stop q1); [injection E as <- _; exact S1|]. apply IH in E; [|congruence]. unfold same_scores in *. intuition congruence.
    - injection E as <- _. apply E1.
  Qed.
  Theorem light_other_runs a es (q q' : pl) r : pl_self a es q = (q', r) \/ pl_extract a es q = (q', r) -> same_scores q q'.
  Proof.
    intros [E|E].
    - apply (fit_keeps a es (PL (tr_set_mode (pl_t q) "self_influence") (pl_ext q) (pl_epoch q) false) q' r); [discriminate|exact E].
    - apply (fit_keeps a es (PL (tr_set_mode (pl_t q) "log") (pl_ext q) (pl_epoch q) false) q' r); [discriminate|exact E].
  Qed.
  (** self_influence needs a readable log although it does not use it *)
  Theorem light_self_needs_log a b (q : pl) e1 ids m x1 x2 x3 g er : pl_mode q = "self_influence" -> extract b (pl_ext q) = (e1, Ok ids) -> mask_of mask b = Ok m ->
    lx_start ids m (lm_x (tr_lm (pl_t q))) = (x1, Ok tt) -> run_evs kind eigh (body b) x1 = (x2, Ok tt) -> lx_end eigh enc false x2 = (x3, Ok tt) ->
    x_ids x3 = Some g -> tr_built (pl_t q) = None -> log_batches dec show (pa_bs a) (x_dir x3) = Err er ->
    exists q', pl_batch a b q = (q', Err er) /\ lm_x (tr_lm (pl_t q')) = x3 /\ pl_ext q' = e1.
  Proof.
    intros Mo EX EM E1 E2 E3 IX BL EB. destruct q as [p e n st]. unfold pl_mode in *. cbn [pl_t pl_ext pl_epoch pl_stop] in *.
    set (put := fun x e => PL (tr_set_lm p (tr_sched p) (lm_set_x (tr_lm p) x)) e n st : pl).
    assert (EX' : on_ext (extract b) (PL p e n st : pl) = (PL p e1 n st, Ok ids)) by (unfold on_ext; cbn [pl_ext]; rewrite EX; reflexivity).
    assert (ES : on_lx (lx_start ids m) (PL p e1 n st : pl) = (put x1 e1, Ok tt)) by (unfold on_lx, on_t, on_tlm, on_x; cbn [pl_t]; rewrite E1; reflexivity).
    assert (EV : on_lx (run_evs kind eigh (body b)) (put x1 e1) = (put x2 e1, Ok tt)).
    { unfold on_lx, on_t, on_tlm, on_x. change (lm_x (tr_lm (pl_t (put x1 e1)))) with x1. rewrite E2. reflexivity. }
    assert (EN : on_lx (lx_end eigh enc false) (put x2 e1) = (put x3 e1, Ok tt)).
    { unfold on_lx, on_t, on_tlm, on_x. change (lm_x (tr_lm (pl_t (put x2 e1)))) with x2. rewrite E3. reflexivity. }
    assert (EL : live_log show (pl_t (put x3 e1)) = (pl_t (put x3 e1), Ok (map show g, Nest (leaf_map VT (snd (read_got x3 (GView (x_ids x3)))))))).
    { unfold live_log, sbind, on_tlm, on_x, lx_get_log. change (lm_x (tr_lm (pl_t (put x3 e1)))) with x3. rewrite IX. reflexivity. }
    assert (ED : build_loader dec show a (pl_t (put x3 e1)) = (pl_t (put x3 e1), Err er)).
    { unfold build_loader. change (tr_built (pl_t (put x3 e1))) with (tr_built p). rewrite BL. change (lm_x (tr_lm (pl_t (put x3 e1)))) with x3. rewrite EB. reflexivity. }
    exists (put x3 e1). split; [|split; reflexivity]. unfold ModelLightning.pl_batch, pl_batch_start, pl_batch_end. unfold sbind at 1. rewrite (sbind_run _ _ _ _ _ EX'). unfold sbind at 1. unfold lift at 1. fold (mask_of mask b). rewrite EM, ES.
    rewrite (sbind_run _ _ _ _ _ EV), (sbind_run _ _ _ _ _ EN). unfold sbind at 1. unfold sget at 1. change (pl_mode (put x3 e1)) with (tr_mode p). rewrite Mo. change (String.eqb "self_influence" "influence") with false. change (String.eqb "self_influence" "self_influence") with true. cbv iota.
    unfold on_t. rewrite (sbind_run _ _ _ _ _ EL). unfold sbind at 1. rewrite ED. reflexivity.
  Qed.
End Proofs.

(** ---- the default extractor ---- *)
Lemma hash_ids_run hash : forall l acc (e : env) bs, map bytes_of l = map Some bs -> exists e', hash_ids hash l acc e = (e', Ok (acc ++ map hash bs)) /\ fst e' = fst e.
Proof.
  induction l as [|d l IH]; intros acc e bs Q; destruct bs as [|b bs]; try discriminate Q; cbn [hash_ids map].
  - exists e. rewrite app_nil_r. split; reflexivity.
  - cbn [map] in Q. injection Q as Q1 Q2. assert (TN : exists o, to_numpy d = Ok (o, b)). { destruct d as [o c|[c|]|]; cbn in Q1; try discriminate Q1; injection Q1 as ->; [exists (Some o)|exists None]; reflexivity. }
    destruct TN as (o & TN). unfold sbind at 1. unfold lift at 1. rewrite TN. cbn [fst snd]. unfold sbind at 1. destruct o as [o|].
    + destruct (IH (acc ++ [hash b]) (fst e, o :: snd e) bs Q2) as (e' & E & G). exists e'. rewrite E, <- app_assoc. split; [reflexivity|exact G].
    + destruct (IH (acc ++ [hash b]) e bs Q2) as (e' & E & G). exists e'. cbn [sret]. unfold sret. rewrite E, <- app_assoc. split; [reflexivity|exact G].
Qed.
Theorem default_ids {B} (items : B -> data) hash b l bs (e : env) : g_mode (fst e) = "hash" -> d_items (items b) = Some l -> map bytes_of l = map Some bs ->
  exists e', default_extract items hash b e = (e', Ok (map (fun s => DStr (hash s)) bs)) /\ g_mode (fst e') = "hash".
Proof.
  intros M I0 Q. destruct (hash_ids_run hash l [] e bs Q) as (e' & E & G). exists e'. unfold default_extract, gen_call. unfold sbind at 1. unfold sbind at 1. unfold sget at 1. rewrite M. change (String.eqb "hash" "hash") with true. cbv iota. rewrite I0, E. cbn [app]. unfold sret. rewrite map_map. split; [reflexivity|congruence].
Qed.
Lemma hash_ids_bad hash : forall l acc (e : env), (exists d, In d l /\ bytes_of d = None) -> exists e' er, hash_ids hash l acc e = (e', Err er) /\ (er = TypeError \/ er = ValueError).
Proof.
  induction l as [|d l IH]; intros acc e (d0 & I0 & Q); [destruct I0|]. cbn [hash_ids]. unfold sbind at 1. unfold lift at 1. destruct (to_numpy d) as [p|er] eqn:TN.
  - assert (Nd : exists d1, In d1 l /\ bytes_of d1 = None). { destruct I0 as [->|I0]; [|eauto]. destruct d0 as [o c|[c|]|]; discriminate. }
    unfold sbind at 1. destruct (fst p); apply IH; exact Nd.
  - exists e, er. split; [reflexivity|]. destruct d as [o c|[c|]|]; cbn in TN; try discriminate TN; injection TN as <-; auto.
Qed.
Theorem default_bad {B} (items : B -> data) hash b l (e : env) : g_mode (fst e) = "hash" -> d_items (items b) = Some l -> (exists d, In d l /\ bytes_of d = None) ->
  exists e' er, default_extract items hash b e = (e', Err er) /\ (er = TypeError \/ er = ValueError).
Proof.
  intros M I0 Q. destruct (hash_ids_bad hash l [] e Q) as (e' & er & E & K). exists e', er. split; [|exact K]. unfold default_extract, gen_call. unfold sbind at 1. unfold sbind at 1. unfold sget at 1. rewrite M. change (String.eqb "hash" "hash") with true. cbv iota. rewrite I0, E. reflexivity.
Qed.
