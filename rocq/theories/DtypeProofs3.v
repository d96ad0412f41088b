(** Activations handed over with a data type (C93). *)
From Coq Require Import ZArith Permutation.
From Verif Require Import Py Field Tensor ModelGrad Monad ModelState ModelMmap ModelSaver ModelLogger ModelConfig ModelDtype SpecGrad SpecState SpecLogger SpecAct SpecDtype LogProofs1 LogProofs6 ActProofs1 DtypeProofs DtypeProofs2.
Local Open Scope nat_scope.

Lemma dtype_names : (get_dtype (PStr "none") = None /\ get_dtype (PStr "float64") = Some F64 /\ get_dtype (PStr "float16") = Some F16 /\
    get_dtype (PStr "bfloat16") = Some BF16 /\ get_dtype (PStr "int8") = Some I8) /\
  forall v, ~ In v [PStr "none"; PStr "float64"; PStr "float16"; PStr "bfloat16"; PStr "int8"] -> get_dtype v = Some F32.
Proof.
  split; [repeat split|]. intros v N. destruct v; try reflexivity. cbn [get_dtype].
  repeat match goal with |- context [String.eqb ?a ?b] => destruct (String.eqb_spec a b) as [->|]; [exfalso; apply N; cbn [In]; tauto|] end. reflexivity.
Qed.

Section P.
  Context {F : Type} `{OField F}.
  Notation tensor := (tensor F).
  Notation dten := (@dten F).
  Notation lx := (@lx F).
  Variable kind : mid -> mkind.
  Variable wsize : mid -> nat.
  Variable eigh : tensor -> res (tensor * tensor).
  Variable enc : dten -> array.
  Variable c : @dcast F.
  Notation run_op := (run_op_dt kind wsize eigh enc (Some c)).

  Lemma act_on_tensor mods names t n : on_tensor t (concat (map (fun m => hook_triple (m, name_of names m)) mods) ++ [HActT t n]) = [HActT t n].
  Proof.
    unfold on_tensor. rewrite filter_app. cbn [filter]. rewrite Nat.eqb_refl.
    match goal with |- ?a ++ _ = _ => assert (Ea : a = []) by (induction mods as [|m0 l IH]; [reflexivity|cbn; exact IH]) end. rewrite Ea. reflexivity.
  Qed.
  Lemma dtype_activation ids mask n t g (x x1 x2 x3 : lx) : reachable_dt kind wsize eigh enc (Some c) x -> begins ids mask x x1 ->
    logs_first (o_forward (x_opt x)) -> logs_first (o_backward (x_opt x)) -> dc_has c t = false -> dc_has c g = false ->
    run_op (XWatchAct [(n, t)]) x1 = (x2, Ok tt) -> run_op (XEv (MGrad t g)) x2 = (x3, Ok tt) ->
    u_req (uget (x_heap x) t) = true /\ x_heap x3 = x_heap x /\
    logged x3 n "forward" = Some (snd (dc_cast c (mem_get (x_heap x) t))) /\ logged x3 n "backward" = Some (snd (dc_cast c (mem_get (x_heap x) g))) /\
    forall i u, let y := fst (run_op (XEv (MTensor i u)) x3) in logged y n "forward" = logged x3 n "forward" /\ logged y n "backward" = logged x3 n "backward".
  Proof.
    intros HR HB LF LB Ht Hg E1 E2. destruct (begins_dt_fresh _ _ _ _ _ _ _ _ _ HR HB) as (El & Em & Er & Es & Eo & Eh & Ef).
    cbn [run_op_dt] in E1. unfold register_all_tensor_hooks_dt in E1. cbn [seach] in E1. apply sbind_ok in E1 as (y & [] & E1 & E3). injection E3 as ->.
    cbn [fst snd] in E1. apply sbind_ok in E1 as (y & [] & E1 & E3). unfold tensor_forward_hook_dt in E1.
    rewrite <- Eo in LF. destruct (phase_new eigh (o_forward (x_opt x1)) None n "forward" (to_dtype (Some c) true (x_heap x1) (Ref t)) x1 y LF ltac:(unfold ref_at; rewrite El; reflexivity) E1) as (H1 & H2 & H3 & H4).
    rewrite (sbind_run sget _ _ _ _ eq_refl) in E3. unfold register_tensor_hook in E3. destruct (u_req (uget (x_heap y) t)) eqn:Eq; [|discriminate E3]. injection E3 as <-.
    cbn [run_op_dt run_ev_dt] in E2. rewrite (sbind_run sget _ _ _ _ eq_refl) in E2. cbn [x_reg with_hooks] in E2. rewrite H2, Er in E2. unfold installed in E2. rewrite act_on_tensor in E2.
    cbn [seach] in E2. apply sbind_ok in E2 as (z & [] & E2 & E3). injection E3 as ->. unfold tensor_backward_hook_dt in E2. cbn [x_opt x_heap with_hooks] in E2. rewrite H3, Eo in E2.
    match type of E2 with seach _ _ ?w = _ => set (y' := w) in E2 end.
    assert (Hy : forall a b, ref_at y' a b = ref_at y a b) by reflexivity.
    destruct (phase_new eigh (o_backward (x_opt x)) None n "backward" (to_dtype (Some c) false (x_heap y) (Ref g)) y' x3 LB ltac:(rewrite Hy, H4; cbn; rewrite andb_false_r; unfold ref_at; rewrite El; reflexivity) E2) as (K1 & K2 & K3 & K4).
    assert (EH : x_heap x3 = x_heap x) by (rewrite K1; unfold y'; cbn [x_heap with_hooks]; congruence).
    split; [rewrite <- Eh, <- H1; exact Eq|]. split; [exact EH|].
    assert (RF : ref_at x3 n "forward" = Some (to_dtype (Some c) true (x_heap x1) (Ref t))).
    { rewrite K4. rewrite (String.eqb_refl n). cbn [andb String.eqb Ascii.eqb Bool.eqb]. rewrite Hy, H4, (String.eqb_refl n). reflexivity. }
    assert (RB : ref_at x3 n "backward" = Some (to_dtype (Some c) false (x_heap y) (Ref g))).
    { rewrite K4, (String.eqb_refl n). reflexivity. }
    cbn [to_dtype] in RF, RB. rewrite Ht in RF. rewrite Hg in RB. rewrite Eh in RF. rewrite H1, Eh in RB.
    split; [rewrite logged_ref, RF; reflexivity|]. split; [rewrite logged_ref, RB; reflexivity|].
    intros i u. cbv zeta. cbn [run_op_dt run_ev_dt fst]. rewrite !logged_ref. unfold ref_at in *. cbn [x_log with_heap]. rewrite RF, RB. split; reflexivity.
  Qed.

  (** whether the logged activation can be copied *)
  Lemma dtype_copy ids mask k m i t u gm (x x1 x2 : lx) : reachable_dt kind wsize eigh enc (Some c) x -> begins ids mask x x1 ->
    o_forward (x_opt x) = [PLog] -> times m (x_mods x) = 1 -> dc_has c i = false ->
    run_op (XEv (MCall k m [i] (OutTensor t u) gm)) x1 = (x2, Ok tt) ->
    snd (lx_get_log true x2) = Err RuntimeError <-> (gm && u_req (uget (x_heap x) i) && dc_float c)%bool = true.
  Proof.
    intros HR HB LF HT Hi E. destruct (begins_dt_fresh _ _ _ _ _ _ _ _ _ HR HB) as (El & Em & Er & Es & Eo & Eh & Ef).
    cbn [run_op_dt run_ev_dt] in E. erewrite sbind_run in E by reflexivity. rewrite (sbind_run sget _ _ _ _ eq_refl) in E. cbn [x_reg with_calls] in E.
    assert (Ei : x_reg x1 = concat (map (fun m => hook_triple (m, name_of (x_names x) m)) (x_mods x)) ++ grad_hooks (x_mods x) (x_names x) []).
    { rewrite Er. unfold grad_hooks. cbn [map concat]. rewrite app_nil_r. reflexivity. }
    rewrite Ei, pre_inst, HT in E. cbn [repeat seach] in E. apply sbind_ok in E as (z & [] & E1 & E2). apply sbind_ok in E1 as (w & [] & E1 & E3). injection E3 as ->.
    unfold forward_hook_dt in E1. apply sbind_ok in E1 as (v & act & E1 & E3). unfold lift in E1. injection E1 as <- E1.
    cbn [x_heap x_mask x_opt with_calls] in E1, E3. rewrite Eo, LF in E3.
    remember (to_dtype (Some c) gm (x_heap x1) act) as a eqn:Ea. cbn [seach] in E3. apply sbind_ok in E3 as (w & [] & E3 & E4). injection E4 as ->.
    cbn [ModelLogger.run_plugin] in E3. unfold log_put in E3. cbn [x_log with_calls] in E3. rewrite El in E3. cbn [dget] in E3. injection E3 as <-.
    erewrite sbind_run in E2 by reflexivity. rewrite (sbind_run sget _ _ _ _ eq_refl) in E2. cbn [x_reg with_heap with_log with_batch with_calls] in E2.
    rewrite Ei, fwd_inst, HT in E2. apply (register_dt (x_names x) m i t u 1) in E2 as (R1 & R2 & R3 & R4 & R5 & R6 & R7 & R8). cbn [x_log x_heap with_heap with_log with_batch with_calls] in R7, R4.
    unfold lx_get_log. cbn [snd]. rewrite R7. cbn [dset blog_vals map concat app snd forallb]. rewrite andb_true_r.
    assert (HC : copyable (x_heap x2) (to_dtype (Some c) gm (x_heap x1) act) = negb (gm && u_req (uget (x_heap x) i) && dc_float c)).
    { rewrite <- Eh. clear -E1 Hi. unfold copyable.
      assert (HR : to_dtype (Some c) gm (x_heap x1) (Ref i) = Own (UT (dc_cast c (u_d (uget (x_heap x1) i))) (gm && u_req (uget (x_heap x1) i) && dc_float c) (negb (gm && u_req (uget (x_heap x1) i) && dc_float c)))) by (cbn [to_dtype]; rewrite Hi; reflexivity).
      destruct (x_mask x1) as [mk|].
      - destruct (apply_mask mk (u_d (uget (x_heap x1) i))) as [[r|]|]; cbn [bind] in E1; [| |discriminate E1]; injection E1 as <-.
        + cbn [to_dtype deref u_req u_leaf]. destruct gm, (u_req (uget (x_heap x1) i)), (dc_float c); reflexivity.
        + rewrite HR. cbn [deref u_req u_leaf]. destruct gm, (u_req (uget (x_heap x1) i)), (dc_float c); reflexivity.
      - injection E1 as <-. rewrite HR. cbn [deref u_req u_leaf]. destruct gm, (u_req (uget (x_heap x1) i)), (dc_float c); reflexivity. }
    subst a. rewrite HC. destruct (gm && u_req (uget (x_heap x) i) && dc_float c)%bool; cbn [negb]; split; congruence.
  Qed.
End P.
