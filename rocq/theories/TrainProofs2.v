(** Training steps that save nothing, and merged copies of their logs. *)
From Coq Require Import ZArith Lia.
From Verif Require Import Py PyStr Field Tensor ModelGrad Monad ModelState ModelMmap ModelSaver ModelLoader ModelLogger ModelModules ModelLora ModelScheduler ModelInfluence ModelUtils ModelTrainer SpecGrad SpecState SpecInfluence SpecRows SpecTrainer LogProofs1 InfProofs14 InfProofs19 TrainProofs1.
Local Open Scope string_scope.
Local Open Scope list_scope.
Local Open Scope nat_scope.

Section Proofs.
  Context {F : Type} `{OField F}.
  Notation tensor := (tensor F).
  Notation lx := (@lx F).
  Notation lstate := (@lstate F).
  Notation sval := (@sval F).
  Notation tlog := (@tlog F).
  Context (kind : mid -> mkind) (eigh : tensor -> res (tensor * tensor)) (enc : @dten F -> array) (show : did -> string).
  Context (tok : option (data -> res (list string))) (hash : string -> string).

  (** ---- what is on disk ---- *)
  Definition dirs (x x' : lx) : Prop := x_dir x' = x_dir x /\ x_disk x' = x_disk x /\ x_saver x' = x_saver x /\ x_save x' = x_save x /\ x_save_batch x' = x_save_batch x.
  Lemma dirs_refl x : dirs x x.
  Proof. repeat split. Qed.
  Lemma dirs_trans x y z : dirs x y -> dirs y z -> dirs x z.
  Proof. intros (A1 & A2 & A3 & A4 & A5) (B1 & B2 & B3 & B4 & B5). repeat split; congruence. Qed.
  Lemma evs_dirs es (x x' : lx) r : run_evs kind eigh es x = (x', r) -> dirs x x'.
  Proof. intros E. apply run_evs_grows in E. destruct E as (c & s & l & h & hs & ->). repeat split. Qed.
  Lemma enter_dirs (x x' : lx) r : lx_enter x = (x', r) -> dirs x x'.
  Proof.
    unfold lx_enter, logger_clear, register_all_module_hooks. apply (sbind_rel dirs dirs_trans).
    - intros y o E. unfold sbind, clear_hooks, sret in E. injection E as <- _. repeat split.
    - intros [] y y' o. apply (sbind_rel dirs dirs_trans); [intros z o' [= <- _]; apply dirs_refl|]. intros z w w' o'. apply (seach_rel dirs dirs_refl dirs_trans).
      intros m v v' o2 _. destruct (dget m (x_names v)); intros [= <- _]; repeat split.
  Qed.
  Lemma exit_dirs (x x' : lx) r : x_save x = false -> x_save_batch x = false -> lx_exit eigh enc x = (x', r) -> dirs x x'.
  Proof. intros S1 S2 E. unfold lx_exit, sbind at 1, sget in E. rewrite S1, S2 in E. cbn [orb] in E. apply update_nosave in E. rewrite E. repeat split. Qed.
  Definition finish (body : SM lx unit) : SM lx unit := fun x => match body x with
             | (x', Ok _) => lx_exit eigh enc x'
             | (x', Err e) => match lx_exit eigh enc x' with (x'', Ok _) => (x'', Err e) | (x'', Err e') => (x'', Err e') end
             end.
  Lemma finish_dirs es (x x' : lx) r : x_save x = false -> x_save_batch x = false -> finish (run_evs kind eigh es) x = (x', r) -> dirs x x'.
  Proof.
    unfold finish. intros S1 S2 E. destruct (run_evs kind eigh es x) as [x1 o] eqn:E1. apply evs_dirs in E1. apply (dirs_trans x x1 x' E1). destruct E1 as (_ & _ & _ & Q1 & Q2).
    destruct o; [apply (exit_dirs x1 x' r); congruence|]. destruct (lx_exit eigh enc x1) as [x2 [u|e2]] eqn:E2; injection E as <- _; apply (exit_dirs x1 x2) in E2; congruence.
  Qed.
  Lemma training_dirs a m (x x' : lx) r : x_save x = false -> training_step kind eigh enc tok hash a m x = (x', r) -> x_dir x' = x_dir x /\ x_save x' = false.
  Proof.
    intros S1 E. unfold training_step in E. unfold sbind at 1, lift at 1 in E. destruct (get_data_id _ _ _ _) as [ids|e]; [|injection E as <- _; auto].
    unfold sbind at 1, lift at 1 in E. destruct (get_sum_scale _ _) as [sc|e]; [|injection E as <- _; auto].
    assert (G : forall y, x_dir y = x_dir x -> x_save y = false -> x_save_batch y = false -> (lx_enter ;; finish (run_evs kind eigh (mi_body m sc))) y = (x', r) -> x_dir x' = x_dir x /\ x_save x' = false).
    { intros y Y1 Y2 Y3 EY. unfold sbind in EY. destruct (lx_enter y) as [z o] eqn:EZ. apply enter_dirs in EZ. destruct EZ as (Z1 & _ & _ & Z2 & Z3).
      destruct o as [u|e]; [|injection EY as <- _; split; congruence]. apply finish_dirs in EY; [|congruence|congruence]. destruct EY as (W1 & _ & _ & W2 & _). split; congruence. }
    unfold block in E. destruct ids as [ids|].
    - unfold with_block, lx_call, binfo_clear in E. unfold sbind at 1 in E. unfold sbind at 1 in E. revert E. apply G; try reflexivity. exact S1.
    - unfold sbind at 1 in E. revert E. apply G; try reflexivity. exact S1.
  Qed.

  (** ---- training does not see the statistics ---- *)
  Lemma trained_state a (x : lx) ms ls x1 : log_only x -> trained kind eigh enc show tok hash a x ms ls x1 -> log_only x1 /\ x_state x1 = x_state x /\ forall s, trained kind eigh enc show tok hash a (with_state x s) ms ls (with_state x1 s).
  Proof.
    intros L T1. induction T1 as [x|x m ms x1 ids l ls x2 E G T1 IH]; [split; [exact L|]; split; [reflexivity|]; intros s; constructor|].
    assert (ID : forall s, log_only x -> training_step kind eigh enc tok hash a m (with_state x s) = (with_state x1 s, Ok tt) /\ x_opt x1 = x_opt x /\ x_state x1 = x_state x).
    { intros s L0. pose proof (ind_training kind eigh enc tok hash a m x s L0) as ID. unfold ind in ID. rewrite E in ID. exact ID. }
    destruct (ID (x_state x) L) as (_ & O & Q). assert (L1 : log_only x1) by (unfold log_only; rewrite O; exact L). destruct (IH L1) as (L2 & Q2 & TS).
    split; [exact L2|]. split; [congruence|]. intros s. destruct (ID s L) as (E1 & _ & _). apply trained_step with (x1 := with_state x1 s); [exact E1| |apply TS].
    pose proof (ind_got true x1 s) as (E2 & _ & _). rewrite G in E2. exact E2.
  Qed.
  Lemma trained_app a ms1 : forall ms2 (x : lx) ls x2, trained kind eigh enc show tok hash a x (ms1 ++ ms2) ls x2 ->
    exists ls1 ls2 x1, ls = ls1 ++ ls2 /\ length ls1 = length ms1 /\ trained kind eigh enc show tok hash a x ms1 ls1 x1 /\ trained kind eigh enc show tok hash a x1 ms2 ls2 x2.
  Proof.
    induction ms1 as [|m ms1 IH]; intros ms2 x ls x2 T1; [exists [], ls, x; repeat split; [constructor|exact T1]|].
    cbn [app] in T1. inversion T1 as [|? ? ? x1 ids l ls' ? E G T2]; subst. destruct (IH _ _ _ _ T2) as (l1 & l2 & y & -> & Ln & A1 & A2).
    exists ((map show ids, leaf_map VT l) :: l1), l2, y. split; [reflexivity|]. split; [cbn [length]; rewrite Ln; reflexivity|]. split; [|exact A2]. apply trained_step with (x1 := x1); assumption.
  Qed.
  Lemma trained_length a (x : lx) ms ls x1 : trained kind eigh enc show tok hash a x ms ls x1 -> length ls = length ms.
  Proof. induction 1; cbn [length]; congruence. Qed.
  Lemma trained_dirs a (x : lx) ms ls x1 : x_save x = false -> trained kind eigh enc show tok hash a x ms ls x1 -> x_dir x1 = x_dir x /\ x_save x1 = false.
  Proof.
    intros S1 T1. induction T1 as [x|x m ms x1 ids l ls x2 E G T1 IH]; [auto|]. apply training_dirs in E; [|exact S1]. destruct E as (D & S2). destruct (IH S2) as (D2 & S3). split; congruence.
  Qed.

  (** ---- merging ---- *)
  Lemma madd_nil (e : dict string (@dten F)) : NoDup (dkeys e) -> madd None e = Ok e.
  Proof.
    unfold madd. intros N. assert (G : forall rest pre, NoDup (dkeys (pre ++ rest)) -> foldM (put (padd (F:=F))) rest pre = Ok (pre ++ rest)); [|exact (G e [] N)].
    induction rest as [|[k x] rest IH]; intros pre N1; [rewrite app_nil_r; reflexivity|]. cbn [foldM]. unfold put at 1. cbn [fst snd].
    assert (Nk : ~ In k (dkeys pre)). { unfold dkeys in *. rewrite map_app in N1. cbn [map fst] in N1. apply NoDup_remove_2 in N1. intros J. apply N1. apply in_or_app. left. exact J. }
    rewrite (proj2 (dget_None_keys _ _) Nk). cbn [padd bind]. rewrite (dset_notin _ _ _ Nk). rewrite IH by (rewrite <- app_assoc; exact N1). rewrite <- app_assoc. reflexivity.
  Qed.
  Lemma ladd_nil (P : tlog) : ok_log P -> ladd [] P = Ok P.
  Proof.
    intros (N & V). unfold ladd. assert (G : forall rest pre : tlog, NoDup (dkeys (pre ++ rest)) -> Forall (fun p => NoDup (dkeys (snd p))) rest -> foldM (put madd) rest pre = Ok (pre ++ rest)); [|exact (G P [] N V)].
    induction rest as [|[k x] rest IH]; intros pre N1 V1; [rewrite app_nil_r; reflexivity|]. inversion V1 as [|? ? Nx V2]; subst. cbn [foldM]. unfold put at 1. cbn [fst snd] in *.
    assert (Nk : ~ In k (dkeys pre)). { unfold dkeys in *. rewrite map_app in N1. cbn [map fst] in N1. apply NoDup_remove_2 in N1. intros J. apply N1. apply in_or_app. left. exact J. }
    rewrite (proj2 (dget_None_keys _ _) Nk), (madd_nil x Nx). cbn [bind]. rewrite (dset_notin _ _ _ Nk). rewrite IH; [rewrite <- app_assoc; reflexivity|rewrite <- app_assoc; exact N1|exact V2].
  Qed.
  Lemma part_ok off k (L : tlog) : ok_log L -> ok_log (part off k L).
  Proof.
    intros (N & V). unfold part. split.
    - unfold dkeys. rewrite map_map. cbn [fst]. exact N.
    - rewrite Forall_map. revert V. apply Forall_impl. intros [m e]. cbn [snd]. intros Ne. unfold dkeys in *. rewrite map_map. cbn [fst]. exact Ne.
  Qed.
  Lemma merge_kept_parts (M : tlog) sids : ok_log M -> forall ks off ls, ks <> [] -> map as_nest ls = batches off ks sids M ->
    merge_kept (map kept ls) = Ok (firstn (fold_right Nat.add 0 ks) (skipn off sids), log_nd (part off (fold_right Nat.add 0 ks) M)).
  Proof.
    intros OM.
    assert (G : forall ks off a ls, map as_nest ls = batches (off + a) ks sids M ->
      foldM (fun acc x => match fst x with None => Err TypeError | Some ids => let* d := merge_log_dict (snd acc) (snd x) in Ok (fst acc ++ ids, d) end) (map kept ls) (firstn a (skipn off sids), log_nd (part off a M))
      = Ok (firstn (a + fold_right Nat.add 0 ks) (skipn off sids), log_nd (part off (a + fold_right Nat.add 0 ks) M))).
    { induction ks as [|k ks IH]; intros off a ls E; cbn [batches] in E.
      - apply map_eq_nil in E. subst ls. cbn [map foldM fold_right]. rewrite Nat.add_0_r. reflexivity.
      - destruct ls as [|[ids x] ls]; [discriminate E|]. cbn [map] in E. injection E as E1 E2 E. unfold as_nest in E2. cbn [fst snd] in *. subst ids x.
        cbn [map foldM kept fst snd]. rewrite (merge_part off a k M OM). cbn [bind]. rewrite split_list. cbn [fold_right]. rewrite Nat.add_assoc. apply IH. rewrite Nat.add_assoc. exact E. }
    intros ks off ls N E. destruct ks as [|k ks]; [congruence|]. cbn [batches] in E. destruct ls as [|[ids x] ls]; [discriminate E|]. cbn [map] in E. injection E as E1 E2 E. unfold as_nest in E2. cbn [fst snd] in *. subst ids x.
    unfold merge_kept. cbn [map foldM kept fst snd]. change (Node []) with (log_nd (F:=F) []). rewrite merge_log, (ladd_nil _ (part_ok off k M OM)). cbn [up bind app fold_right]. apply (G ks off k ls E).
  Qed.
End Proofs.
