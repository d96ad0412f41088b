(** The data ids and the loss scale of a training step. *)
From Coq Require Import ZArith Lia.
From Verif Require Import Py PyStr Field Tensor ModelGrad Monad ModelState ModelMmap ModelSaver ModelLoader ModelLogger ModelModules ModelLora ModelScheduler ModelInfluence ModelUtils ModelTrainer SpecGrad SpecState SpecInfluence SpecRows SpecTrainer LogProofs1 TrainProofs1 TrainProofs2 TrainProofs3 TrainProofs4.
Local Open Scope string_scope.
Local Open Scope list_scope.
Local Open Scope nat_scope.

Lemma scale_count ignore (l : list Z) : get_sum_scale ignore (Some l) = Ok (length l - count_occ Z.eq_dec l ignore).
Proof.
  unfold get_sum_scale. f_equal. induction l as [|y l IH]; [reflexivity|]. cbn [filter count_occ length]. pose proof (count_occ_bound Z.eq_dec ignore l) as B.
  destruct (Z.eq_dec y ignore) as [E|E]; [rewrite (proj2 (Z.eqb_eq _ _) E)|rewrite (proj2 (Z.eqb_neq _ _) E)]; cbn [negb length]; rewrite IH; lia.
Qed.

Section Proofs.
  Context {F : Type} `{OField F}.
  Notation tensor := (tensor F).
  Notation lx := (@lx F).
  Notation tr := (@tr F).
  Context (rnd : mid -> list nat -> F) (svd : tensor -> res tensor) (kind : mid -> mkind).
  Context (eigh : tensor -> res (tensor * tensor)) (inverse : tensor -> res tensor) (fsqrt : F -> F).
  Context (enc : @dten F -> array) (dec : array -> @dten F) (show : did -> string).
  Context (tok : option (data -> res (list string))) (hash : string -> string).
  Notation training_step := (training_step kind eigh enc tok hash).
  Notation do_step := (do_step kind eigh inverse fsqrt enc dec show tok hash).

  Theorem step_runs a m x ids l : get_data_id tok hash (ha_logic a) (mi_input m) = Ok ids -> mi_labels m = Some l ->
    training_step a m x = block eigh enc ids (mi_mask m) (run_evs kind eigh (mi_body m (length l - count_occ Z.eq_dec l (ha_ignore a)))) x.
  Proof. intros E1 E2. unfold ModelTrainer.training_step. unfold sbind at 1. unfold lift at 1. rewrite E1. unfold sbind at 1. unfold lift at 1. rewrite E2, scale_count. reflexivity. Qed.
  Theorem step_bad_ids a m x e : get_data_id tok hash (ha_logic a) (mi_input m) = Err e -> training_step a m x = (x, Err e).
  Proof. intros E1. unfold ModelTrainer.training_step. unfold sbind at 1. unfold lift at 1. rewrite E1. reflexivity. Qed.
  Theorem step_no_labels a m x ids : get_data_id tok hash (ha_logic a) (mi_input m) = Ok ids -> mi_labels m = None -> training_step a m x = (x, Err AttributeError).
  Proof. intros E1 E2. unfold ModelTrainer.training_step. unfold sbind at 1. unfold lift at 1. rewrite E1. unfold sbind at 1. unfold lift at 1. rewrite E2. reflexivity. Qed.

  (** ---- no data ids ---- *)
  Definition noids (x x' : lx) : Prop := x_ids x' = x_ids x /\ x_save x' = x_save x.
  Lemma noids_refl x : noids x x.
  Proof. split; reflexivity. Qed.
  Lemma noids_trans x y z : noids x y -> noids y z -> noids x z.
  Proof. intros (A1 & A2) (B1 & B2). split; congruence. Qed.
  Lemma evs_noids es (x x' : lx) r : run_evs kind eigh es x = (x', r) -> noids x x'.
  Proof. intros E. apply run_evs_grows in E. destruct E as (c & s & l & h & hs & ->). repeat split. Qed.
  Lemma enter_noids (x x' : lx) r : lx_enter x = (x', r) -> noids x x'.
  Proof.
    unfold lx_enter, logger_clear, register_all_module_hooks. apply (sbind_rel noids noids_trans).
    - intros y o E. unfold sbind, clear_hooks, sret in E. injection E as <- _. repeat split.
    - intros [] y y' o. apply (sbind_rel noids noids_trans); [intros z o' [= <- _]; apply noids_refl|]. intros z w w' o'. apply (seach_rel noids noids_refl noids_trans).
      intros m v v' o2 _. destruct (dget m (x_names v)); intros [= <- _]; repeat split.
  Qed.
  Lemma exit_noids (x x' : lx) : x_ids x = None -> lx_exit eigh enc x = (x', Ok tt) -> x_ids x' = None /\ x_save x = false.
  Proof.
    intros N E. unfold lx_exit, sbind at 1, sget in E. rewrite update_eq in E. apply sbind_ok in E. destruct E as (y & [] & E1 & E). apply grad_stats_state in E1. unfold only_state in E1. assert (Ny : x_ids y = None) by (rewrite E1; exact N).
    destruct (x_save_batch x), (x_save x); cbn [orb] in E; try (unfold lx_save_log in E; rewrite Ny in E; discriminate E). injection E as <-. auto.
  Qed.
  Theorem step_no_ids a m (x x' : lx) : get_data_id tok hash (ha_logic a) (mi_input m) = Ok None -> training_step a m x = (x', Ok tt) -> x_ids x' = None /\ x_save x = false.
  Proof.
    intros E1 E. unfold ModelTrainer.training_step in E. unfold sbind at 1 in E. unfold lift at 1 in E. rewrite E1 in E. unfold sbind at 1 in E. unfold lift at 1 in E. destruct (get_sum_scale _ _) as [sc|]; [|discriminate E].
    unfold block in E. unfold sbind at 1 in E. apply sbind_ok in E. destruct E as (y & [] & EE & E). apply enter_noids in EE. destruct EE as (I1 & V1). cbn in I1, V1.
    destruct (run_evs kind eigh (mi_body m sc) y) as [z [u|e]] eqn:EV.
    - apply evs_noids in EV. destruct EV as (I2 & V2). apply exit_noids in E; [|congruence]. destruct E as (I3 & V3). split; [exact I3|congruence].
    - destruct (lx_exit eigh enc z) as [w [u|e2]]; discriminate E.
  Qed.
  Lemma keep_none (p p' : tr) : x_ids (lm_x (tr_lm p)) = None -> keep_log show p = (p', Ok tt) -> exists g, tr_acc p' = tr_acc p ++ [(None, g)].
  Proof.
    intros N E. unfold keep_log in E. apply sbind_ok in E. destruct E as (q & g & E1 & E). unfold on_tlm, on_x, lx_get_log in E1. rewrite N in E1. destruct (forallb _ _); [|discriminate E1]. injection E1 as <- <-. injection E as <-. cbn. eexists. reflexivity.
  Qed.
  Lemma fold_err {X Y} (f : Y -> X -> res Y) l1 x l2 y : (forall y e, f y x = Err e \/ exists e', f y x = Err e') -> exists e, foldM f (l1 ++ x :: l2) y = Err e.
  Proof.
    intros E. revert y. induction l1 as [|x1 l1 IH]; intros y; cbn [app foldM].
    - destruct (E y TypeError) as [->|(e' & ->)]; eexists; reflexivity.
    - destruct (f y x1) as [y'|e]; [apply IH|exists e; reflexivity].
  Qed.
  Lemma merge_none l1 g l2 : exists e, merge_kept (F:=F) (l1 ++ (None, g) :: l2) = Err e.
  Proof. unfold merge_kept. apply fold_err. intros y e. right. exists TypeError. reflexivity. Qed.
  Lemma step_end_none a (p p' : tr) r : In (tr_mode p) ["influence"; "self_influence"] -> x_ids (lm_x (tr_lm p)) = None \/ (exists l1 g l2, tr_acc p = l1 ++ (None, g) :: l2) ->
    on_step_end eigh inverse fsqrt dec show a p = (p', r) -> r <> Ok tt.
  Proof.
    intros Mo N E. assert (K : forall p1, keep_log show p = (p1, Ok tt) -> exists e, merge_kept (tr_acc p1) = Err e).
    { intros p1 E1. destruct N as [N|(l1 & g & l2 & N)].
      - destruct (keep_none p p1 N E1) as (g & ->). apply merge_none.
      - unfold keep_log in E1. apply sbind_ok in E1. destruct E1 as (q & g2 & E2 & E1). injection E1 as <-. unfold tr_set_acc. cbn [tr_acc]. unfold on_tlm in E2. destruct (on_x (lx_get_log true) (tr_lm p)) as [s o]. injection E2 as <- _. cbn [tr_set_lm tr_acc]. rewrite N, <- app_assoc. cbn [app]. apply merge_none. }
    unfold on_step_end in E. unfold sbind at 1 in E. unfold sget at 1 in E.
    assert (D : forall k : (list string * nd (@sval F)) -> SM tr unit, (keep_log show ;; let! q := sget in let! acc := lift (merge_kept (tr_acc q)) in k acc) p = (p', r) -> r <> Ok tt).
    { intros k EK. unfold sbind at 1 in EK. destruct (keep_log show p) as [p1 [[]|e]] eqn:E1; [|injection EK as _ <-; discriminate]. destruct (K p1 eq_refl) as (e & E2). unfold sbind, sget, lift in EK. rewrite E2 in EK. injection EK as _ <-. discriminate. }
    destruct Mo as [Mo|[Mo|[]]]; rewrite <- Mo in E.
    - rewrite String.eqb_refl in E. eapply D. exact E.
    - change (String.eqb "self_influence" "influence") with false in E. rewrite String.eqb_refl in E. eapply D. exact E.
  Qed.
  Lemma unknown_logic logic d : ~ In logic ["detokenize"; "hash"] -> get_data_id tok hash logic d = Ok None.
  Proof.
    intros N. unfold get_data_id. destruct (String.eqb logic "detokenize") eqn:E1; [apply String.eqb_eq in E1; exfalso; apply N; left; congruence|].
    destruct (String.eqb logic "hash") eqn:E2; [apply String.eqb_eq in E2; exfalso; apply N; right; left; congruence|reflexivity].
  Qed.
  Theorem run_no_ids (a : @hfargs F) : ~ In (ha_logic a) ["detokenize"; "hash"] -> forall ms (p p' : tr) r, ms <> [] -> In (tr_mode p) ["influence"; "self_influence"] -> do_step a ms p = (p', r) -> r <> Ok tt.
  Proof.
    intros NL. assert (EI : forall m : @micro F, get_data_id tok hash (ha_logic a) (mi_input m) = Ok None) by (intros m; apply unknown_logic, NL). assert (G : forall ms (p p' : tr) r, ms <> [] -> In (tr_mode p) ["influence"; "self_influence"] -> do_step a ms p = (p', r) -> r <> Ok tt); [|exact G].
    induction ms as [|m ms IH]; intros p p' r Nm Mo E; [congruence|]. destruct ms as [|m2 ms].
    - cbn [ModelTrainer.do_step] in E. unfold sbind in E. destruct (on_tlm (on_x (training_step a m)) p) as [p1 [[]|e]] eqn:E1; [|injection E as _ <-; discriminate].
      unfold on_tlm, on_x in E1. destruct (training_step a m (lm_x (tr_lm p))) as [x1 o] eqn:E2. injection E1 as <- ->. apply step_no_ids in E2; [|apply EI]. eapply step_end_none; [| |exact E]; [exact Mo|left; exact (proj1 E2)].
    - change (do_step a (m :: m2 :: ms)) with (on_tlm (on_x (training_step a m)) ;; on_substep_end show ;; do_step a (m2 :: ms)) in E.
      unfold sbind at 1 in E. destruct (on_tlm (on_x (training_step a m)) p) as [p1 [[]|e]] eqn:E1; [|injection E as _ <-; discriminate]. unfold sbind at 1 in E. destruct (on_substep_end show p1) as [p2 [[]|e]] eqn:E2; [|injection E as _ <-; discriminate].
      apply (IH p2 p' r); [discriminate| |exact E]. assert (M1 : tr_mode p1 = tr_mode p). { unfold on_tlm in E1. destruct (on_x _ (tr_lm p)). injection E1 as <- _. reflexivity. }
      assert (M2 : tr_mode p2 = tr_mode p1). { unfold on_substep_end in E2. unfold sbind at 1 in E2. unfold sget at 1 in E2. destruct (mem _ _); [|injection E2 as <-; reflexivity]. apply fr_keep in E2. apply E2. }
      rewrite M2, M1. exact Mo.
  Qed.
End Proofs.
Lemma id_cases (tok : option (data -> res (list string))) (hash : string -> string) logic d :
  (logic = "detokenize" -> get_data_id tok hash logic d = match tok with None => Err AssertionError | Some f => let* l := f d in Ok (Some (map DStr l)) end) /\
  (logic = "hash" -> get_data_id tok hash logic d = let* l := snd (gen_call hash d (new_gen "hash", [])) in Ok (Some (map DStr l))) /\
  (~ In logic ["detokenize"; "hash"] -> get_data_id tok hash logic d = Ok None).
Proof. split; [intros ->; reflexivity|]. split; [intros ->; reflexivity|]. apply unknown_logic. Qed.
