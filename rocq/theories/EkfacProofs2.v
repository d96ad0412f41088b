(** Whole runs with corrected eigenvalues: the updates of the second epoch. *)
From Coq Require Import ZArith Permutation Lia.
From Verif Require Import Py PyStr Field Tensor ModelGrad Monad ModelState ModelMmap ModelSaver ModelLogger ModelModules ModelLora ModelScheduler ModelUtils ModelTrainer SpecGrad SpecState SpecLogger SpecInfluence SpecTrainer SpecWhole SpecEkfac StateProofs1 StateProofs3 StateProofs4 StateProofs7 GradProofs1 InfProofs10 LogProofs1 LogProofs3 LogProofs5 LogProofs6 LogProofs8 LogProofs9 TrainProofs2 ViewProofs WholeProofs1 WholeProofs2 WholeProofs4 WholeProofs6.
Local Open Scope string_scope.
Local Open Scope list_scope.
Local Open Scope nat_scope.

Section P.
  Context {F : Type} `{OField F}.
  Notation tensor := (tensor F).
  Notation dten := (@dten F).
  Notation lx := (@lx F).
  Notation lstate := (@lstate F).
  Notation tlog := (@tlog F).
  Variable kind : mid -> mkind.
  Variable wsize : mid -> nat.
  Variable eigh : tensor -> res (tensor * tensor).
  Variable enc : dten -> array.
  Notation run_evs := (run_evs kind eigh).
  Notation reachable := (reachable kind wsize eigh enc).
  Notation logged_epoch := (logged_epoch kind eigh enc).

  Definition eopts : opts := Opts [] [] [PLog; PCorrectedEigval].
  Lemma eig_calls ms : forall x x' : lx, seach (fun m => run_plugin eigh PCorrectedEigval None m "grad" None) ms x = (x', Ok tt) ->
    only_state x x' /\ run_ecalls eigh (map (fun m => ECall (binfo_of x) m (x_offload x)) ms) (x_state x) = (x_state x', Ok tt).
  Proof.
    induction ms as [|m ms IH]; intros x x' E; cbn [seach] in E.
    - apply (f_equal fst) in E. cbn [fst sret] in E. subst x'. split; [apply only_state_refl|reflexivity].
    - apply sbind_ok in E as (y & [] & E1 & E2). pose proof (run_plugin_none eigh _ _ _ _ _ _ _ E1) as HO.
      destruct (IH y x' E2) as [HO2 HC]. split; [exact (only_state_trans _ _ _ HO HO2)|].
      assert (Hb : binfo_of y = binfo_of x /\ x_offload y = x_offload x) by (rewrite HO; split; reflexivity). destruct Hb as [Hb Hf]. rewrite Hb, Hf in HC.
      unfold run_ecalls in *. cbn [map seach]. rewrite (sbind_run _ _ _ (x_state y) tt); [exact HC|]. cbn [e_b e_m e_off].
      cbn [run_plugin data_of] in E1. unfold on_state in E1. destruct (corrected_eigval_update _ _ _ _ _ _) as [s' q]. apply (f_equal (fun p => (x_state (fst p), snd p))) in E1. exact E1.
  Qed.
  Lemma update_eig sv (x x' : lx) : x_opt x = eopts -> update eigh enc sv x = (x', Ok tt) ->
    run_ecalls eigh (map (fun m => ECall (binfo_of x) m (x_offload x)) (dkeys (x_log x))) (x_state x) = (x_state x', Ok tt) /\ x_log x' = x_log x.
  Proof.
    intros Ho E. rewrite update_eq, Ho in E. apply sbind_ok in E as (y & [] & E1 & E2). unfold LogProofs1.grad_stats in E1. cbn [o_grad eopts skipn seach] in E1.
    apply sbind_ok in E1 as (y0 & [] & E1 & E0). apply (f_equal fst) in E0. cbn [fst sret] in E0. subst y0. rewrite (sbind_run sget _ _ _ _ eq_refl) in E1. destruct (eig_calls _ x y E1) as [HO HC].
    assert (Hx : x_state x' = x_state y /\ x_log x' = x_log y).
    { destruct sv; [|apply (f_equal fst) in E2; cbn [fst sret] in E2; subst x'; split; reflexivity].
      unfold lx_save_log in E2. destruct (x_ids y); [|discriminate E2]. destruct (save_log _ _ _ _) as [[d' s'] o]. apply (f_equal fst) in E2. cbn [fst] in E2. subst x'. split; reflexivity. }
    destruct Hx as [Hx Hl]. rewrite Hx. split; [exact HC|]. rewrite Hl, HO. reflexivity.
  Qed.
  Definition batch_ecalls (mask : option tensor) (off : bool) (L : tlog) : list (@ecall F) := map (fun m => ECall (BInfo mask (log_nd L)) m off) (dkeys L).
  Lemma batch_eig b (x x1 x2 x3 : lx) sv ids l L : reachable x -> begins (bt_ids b) (bt_mask b) x x1 -> x_opt x = eopts ->
    run_evs (bt_evs b) x1 = (x2, Ok tt) -> own_backward [] (bt_evs b) -> update eigh enc sv x2 = (x3, Ok tt) ->
    read_got x3 (GView (x_ids x3)) = (ids, l) -> leaf_map VT l = log_nd L ->
    run_ecalls eigh (batch_ecalls (option_map snd (bt_mask b)) (x_offload x) L) (x_state x) = (x_state x3, Ok tt) /\ x_opt x3 = x_opt x /\ x_offload x3 = x_offload x /\ NoDup (dkeys L).
  Proof.
    intros HR HB Ho E HW EU EG EL. assert (HM : moments_only (x_opt x)) by (rewrite Ho; intros p [[]|[]]). destruct (batch_statistics _ _ _ _ _ _ _ _ _ _ HR HB HM E HW) as [HC HH].
    destruct (stats_opts _ _ _ _ _ _ _ _ _ _ HR HB E) as (Q1 & Q2 & Q3 & Q4). rewrite Ho in HC at 1. unfold eopts in HC. rewrite no_stats in HC. cbn in HC. injection HC as HC.
    rewrite Ho in Q1. destruct (update_eig sv x2 x3 Q1 EU) as (HC2 & Hl).
    assert (Hm : x_mask x2 = bt_mask b).
    { destruct (begins_fresh _ _ _ _ _ _ _ _ HR HB) as (_ & _ & Em & _). apply run_evs_grows in E as (c & s & l0 & h & hs & ->). exact Em. }
    apply update_stores in EU as (s & sv' & d & vs & EQ). assert (Hh : x_heap x3 = x_heap x2) by (rewrite EQ; reflexivity).
    injection EG as _ EG. subst l. rewrite log_nd_vt in EL. rewrite Hl, Hh in EL.
    assert (Hb : binfo_of x2 = BInfo (option_map snd (bt_mask b)) (log_nd L)).
    { unfold binfo_of. rewrite EL, Hm. destruct (bt_mask b); reflexivity. }
    rewrite Hb, (log_nd_keys _ _ _ EL), Q4, <- HC in HC2. split; [exact HC2|]. assert (HN : NoDup (dkeys L)).
    { rewrite <- (log_nd_keys _ _ _ EL). apply evs_wf in E. apply E. destruct (begins_fresh _ _ _ _ _ _ _ _ HR HB) as (El & _). rewrite El. split; [constructor|discriminate]. }
    rewrite EQ. cbn. rewrite Ho. auto.
  Qed.
  Fixpoint epoch_ecalls (off : bool) (bs : list (@batch F)) (Ls : list tlog) : list (@ecall F) :=
    match bs, Ls with
    | b :: r, L :: q => batch_ecalls (option_map snd (bt_mask b)) off L ++ epoch_ecalls off r q
    | _, _ => []
    end.
  Lemma ecalls_app es1 es2 (s s1 s2 : lstate) : run_ecalls eigh es1 s = (s1, Ok tt) -> run_ecalls eigh es2 s1 = (s2, Ok tt) -> run_ecalls eigh (es1 ++ es2) s = (s2, Ok tt).
  Proof.
    unfold run_ecalls. revert s. induction es1 as [|e es1 IH]; intros s E1 E2; [cbn in E1; injection E1 as ->; exact E2|]. cbn [seach app] in *. apply sbind_ok in E1 as (y & [] & Ea & Eb). rewrite (sbind_run _ _ _ _ _ Ea). exact (IH y Eb E2).
  Qed.
  Lemma logged_eig bs Ls (x x' : lx) : logged_epoch bs Ls x x' -> reachable x -> x_opt x = eopts -> Forall (fun b => own_backward [] (bt_evs b)) bs ->
    run_ecalls eigh (epoch_ecalls (x_offload x) bs Ls) (x_state x) = (x_state x', Ok tt) /\ reachable x' /\ length Ls = length bs /\ Forall (fun L => NoDup (dkeys L)) Ls.
  Proof.
    intros HE. induction HE as [x|b bs L Ls x x1 x2 ids l EB EG EL HE IH]; intros HR HM HW; [split; [reflexivity|split; [exact HR|split; [reflexivity|constructor]]]|].
    apply Forall_cons_iff in HW as [HW0 HW].
    assert (K : run_ecalls eigh (batch_ecalls (option_map snd (bt_mask b)) (x_offload x) L) (x_state x) = (x_state x1, Ok tt) /\
      (x_opt x1 = x_opt x /\ x_offload x1 = x_offload x /\ NoDup (dkeys L)) /\ reachable x1).
    { inversion EB as [|b0 bs0 save x0 y1 y2 E EB2|b0 bs0 save x0 y1 y2 E EB2]; subst; inversion EB2; subst.
      - apply sbind_ok in E as (y & [] & E1 & E). apply sbind_ok in E as (z & [] & E2 & E3). pose proof E3 as E4. rewrite end_saves in E3.
        destruct (batch_eig b x y z x1 _ ids l L HR (or_introl E1) HM E2 HW0 E3 EG EL) as (C1 & C2). split; [exact C1|split; [exact C2|]].
        assert (HRy : reachable y) by exact (reachable_op _ _ _ _ (XStart (bt_ids b) (bt_mask b)) x y _ HR E1).
        assert (HRz : reachable z) by exact (reachable_evs _ _ _ _ _ _ _ _ HRy E2).
        exact (reachable_op _ _ _ _ (XEnd save) z x1 _ HRz E4).
      - unfold with_block in E. apply sbind_ok in E as (y0 & [] & E0 & E). apply sbind_ok in E as (y & [] & E1 & E).
        assert (HB : begins (bt_ids b) (bt_mask b) x y) by (right; exists save; rewrite (sbind_run _ _ _ _ _ E0); exact E1).
        assert (HRy0 : reachable y0) by exact (reachable_op _ _ _ _ (XCall (bt_ids b) (bt_mask b) save) x y0 _ HR E0).
        assert (HRy : reachable y) by exact (reachable_op _ _ _ _ XEnter y0 y _ HRy0 E1).
        destruct (run_evs (bt_evs b) y) as [z [[]|er]] eqn:E2; [|destruct (lx_exit eigh enc z) as [w [u|e']]; discriminate E].
        pose proof E as E3. rewrite exit_saves in E3.
        destruct (batch_eig b x y z x1 _ ids l L HR HB HM E2 HW0 E3 EG EL) as (C1 & C2). split; [exact C1|split; [exact C2|]].
        assert (HRz : reachable z) by exact (reachable_evs _ _ _ _ _ _ _ _ HRy E2). exact (reachable_op _ _ _ _ XExit z x1 _ HRz E). }
    destruct K as (C1 & (Q1 & Q4 & HN) & HR1). rewrite Q1, Q4 in IH. destruct (IH HR1 HM HW) as (C2 & HR2 & HL & HF).
    split; [|split; [exact HR2|split; [cbn; congruence|constructor; assumption]]]. cbn [epoch_ecalls]. exact (ecalls_app _ _ _ _ _ C1 C2).
  Qed.

  (** ---- the gradients of a module in the calls of an epoch ---- *)
  Lemma batch_on mask off (L : tlog) m d t : NoDup (dkeys L) -> grad_of L m = Some (d, t) -> grads_for m (batch_ecalls mask off L) = samples t /\ filter (fun e => String.eqb (e_m e) m) (batch_ecalls mask off L) <> [].
  Proof.
    intros N G. assert (J : In m (dkeys L)) by exact (grad_of_in L m _ G).
    assert (Ef : filter (fun e => String.eqb (e_m e) m) (batch_ecalls mask off L) = [ECall (BInfo mask (log_nd L)) m off]).
    { unfold batch_ecalls. clear G. generalize (BInfo mask (log_nd L)). intros bi. induction (dkeys L) as [|k ks IH]; [destruct J|]. inversion N as [|? ? N1 N2]; subst. cbn [map filter e_m]. destruct (String.eqb_spec k m) as [->|Ne].
      - f_equal. clear IH J N N2. induction ks as [|k ks IH]; [reflexivity|]. cbn [map filter e_m]. destruct (String.eqb_spec k m) as [->|]; [elim N1; left; reflexivity|]. apply IH. intros Q. apply N1. right. exact Q.
      - destruct J as [->|J]; [congruence|]. exact (IH N2 J). }
    split; [|rewrite Ef; discriminate]. unfold grads_for. rewrite Ef. cbn [map concat]. rewrite app_nil_r. unfold logged_grads. cbn [e_b e_m b_log].
    destruct (look_call _ _ _ _ G) as (d0 & e & -> & -> & ->). reflexivity.
  Qed.
  Lemma batch_off mask off (L : tlog) m : ~ In m (dkeys L) -> filter (fun e => String.eqb (e_m e) m) (batch_ecalls mask off L) = [].
  Proof.
    intros N. unfold batch_ecalls. generalize (BInfo mask (log_nd L)). intros bi. induction (dkeys L) as [|k ks IH]; [reflexivity|]. cbn [map filter e_m]. destruct (String.eqb_spec k m) as [->|]; [elim N; left; reflexivity|]. apply IH. intros Q. apply N. right. exact Q.
  Qed.
  Lemma batch_gwf mask off (L : tlog) : good_grads L -> Forall grad_wf (batch_ecalls mask off L).
  Proof.
    intros HG. apply Forall_forall. intros e J. apply in_map_iff in J as (m & <- & J). intros x Ex. cbn [e_b e_m] in Ex. destruct (HG m J) as (d & t & G & W & _).
    unfold get_data in Ex. cbn [b_log] in Ex. destruct (look_call _ _ _ _ G) as (d0 & e & E1 & E2 & E3). rewrite E1 in Ex. cbn [nd_item] in Ex. rewrite E2 in Ex. cbn [bind nd_item] in Ex. rewrite E3 in Ex. cbn in Ex. injection Ex as <-. exact W.
  Qed.
  Lemma epoch_gwf off : forall bs Ls, Forall good_grads Ls -> Forall grad_wf (epoch_ecalls off bs Ls).
  Proof. induction bs as [|b bs IH]; intros [|L Ls] HG; try constructor. apply Forall_cons_iff in HG as [G1 G2]. cbn [epoch_ecalls]. apply Forall_app. split; [apply batch_gwf; exact G1|apply IH; exact G2]. Qed.
  Lemma parts_keys (M : tlog) : forall ks off L, In L (parts off ks M) -> dkeys L = dkeys M.
  Proof. induction ks as [|k ks IH]; intros off L J; [destruct J|]. destruct J as [<-|J]; [apply part_keys|exact (IH _ _ J)]. Qed.
  Lemma epoch_on boff m (M : tlog) d t n rest : NoDup (dkeys M) -> grad_of M m = Some (d, t) -> shape t = n :: rest -> forall ks bs off, length bs = length ks -> off + fold_right Nat.add 0 ks <= n ->
    grads_for m (epoch_ecalls boff bs (parts off ks M)) = map (slice t) (seq off (fold_right Nat.add 0 ks)) /\ (ks <> [] -> filter (fun e => String.eqb (e_m e) m) (epoch_ecalls boff bs (parts off ks M)) <> []).
  Proof.
    intros N G S. induction ks as [|k ks IH]; intros [|b bs] off HL L; try discriminate HL; [split; [reflexivity|congruence]|]. cbn [fold_right] in L. destruct (IH bs (off + k) ltac:(cbn in HL; lia) ltac:(lia)) as [I1 _]. cbn [parts epoch_ecalls].
    assert (GP : grad_of (part off k M) m = Some (d, rows off k t)) by (rewrite part_grad, G; reflexivity).
    destruct (batch_on (option_map snd (bt_mask b)) boff (part off k M) m d (rows off k t) ltac:(rewrite part_keys; exact N) GP) as (B1 & B2). split.
    - rewrite grads_for_app, B1, I1, (rows_samples off k n) by (try rewrite S; try reflexivity; lia). cbn [fold_right]. rewrite seq_app, map_app. reflexivity.
    - intros _. rewrite filter_app. intros Q. apply app_eq_nil in Q as [Q _]. exact (B2 Q).
  Qed.
  Lemma epoch_off boff m (M : tlog) : ~ In m (dkeys M) -> forall ks bs off, filter (fun e => String.eqb (e_m e) m) (epoch_ecalls boff bs (parts off ks M)) = [].
  Proof.
    intros N. induction ks as [|k ks IH]; intros [|b bs] off; try reflexivity. cbn [parts epoch_ecalls]. rewrite filter_app, (IH bs), app_nil_r. apply batch_off. rewrite part_keys. exact N.
  Qed.
End P.
