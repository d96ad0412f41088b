(** Questions that do not disturb each other. *)
From Verif Require Import Py PyStr Field Tensor ModelGrad Monad ModelState ModelInfluence SpecGrad SpecState SpecInfluence SpecRows StateProofs1 StateProofs3 StateProofs4 StateProofs6 StateProofs10 InfProofs1 InfProofs2 InfProofs18.
Local Open Scope string_scope.
Local Open Scope list_scope.

Section Proofs.
  Context {F : Type} `{OField F}.
  Notation tensor := (tensor F).
  Notation lstate := (@lstate F).
  Variable eigh : tensor -> res (tensor * tensor).
  Variable inverse : tensor -> res tensor.
  Variable fsqrt : F -> F.
  Notation ask := (ask eigh inverse fsqrt).
  Notation asked := (asked eigh inverse fsqrt).

  Lemma stable_ask q : stable (ask q).
  Proof.
    destruct q; cbn [SpecRows.ask]; apply stable_bind; try (intros; apply stable_ret); [apply stable_precondition|apply stable_influence|apply stable_self|apply stable_all].
  Qed.
  Lemma asked_extends : forall qs s, plain_state s -> plain_state (asked qs s) /\ extends s (asked qs s).
  Proof.
    induction qs as [|q qs IH]; intros s P; [split; [exact P|apply extends_refl]|]. unfold SpecRows.asked in *. cbn [fold_left]. destruct (ask q s) as [s1 r] eqn:E. cbn [fst]. destruct (stable_ask q s s1 r P E) as (P1 & X1 & _). destruct (IH s1 P1) as (P2 & X2). split; [exact P2|]. exact (extends_trans _ _ _ X1 X2).
  Qed.
  Theorem ask_again q a qs s s1 : plain_state s -> ask q s = (s1, Ok a) -> ask q (asked qs s1) = (asked qs s1, Ok a).
  Proof.
    intros P E. destruct (stable_ask q s s1 (Ok a) P E) as (P1 & _ & R). apply (R a eq_refl). apply (asked_extends qs s1 P1).
  Qed.
  Theorem ask_keeps qs s a : plain_state s -> ~ In a ["covariance_inverse_state"; "covariance_eigval_state"; "covariance_eigvec_state"] ->
    dget a (attrs (asked qs s)) = dget a (attrs s).
  Proof.
    intros P N. destruct (asked_extends qs s P) as (_ & X). apply (proj2 (X a)). destruct (mem a _) eqn:E; [|reflexivity]. apply mem_In in E. contradiction.
  Qed.
  Theorem plain_kept qs s : plain_state s -> plain_state (asked qs s).
  Proof. intros P. apply (asked_extends qs s P). Qed.

  Lemma plain_of (s : lstate) : rinv s -> (forall a, In a ["covariance_eigval_state"; "covariance_eigvec_state"; "ekfac_eigval_state"] -> dget a (attrs s) = None) -> plain_state s.
  Proof.
    intros (_ & _ & R) N. constructor; unfold hasattr, dmem.
    - rewrite (N "ekfac_eigval_state") by (cbn; auto). reflexivity.
    - rewrite (N "covariance_eigval_state"), (N "covariance_eigvec_state") by (cbn; auto). reflexivity.
    - intros a E. apply mem_In, R, dget_In_keys in E. destruct E as (x & ->). reflexivity.
    - intros ev m t E. rewrite (N "covariance_eigval_state") in E by (cbn; auto). discriminate E.
  Qed.
  Definition norm_step (p : string * string) : SM lstate unit := let! x := attr (fst p) in let! c := attr (snd p) in let (x', o) := normalize_nd x c in set_attr (F:=F) (fst p) x' ;; lift o.
  Lemma frames_step n p : n <> fst p -> frames n (norm_step p).
  Proof.
    intros N. unfold norm_step. apply frames_bind; [intros s; unfold attr; destruct (dget _ _); reflexivity|intros x]. apply frames_bind; [intros s; unfold attr; destruct (dget _ _); reflexivity|intros c]. destruct (normalize_nd x c) as [x' o]. apply frames_bind; [apply frames_set; exact N|intros _ s; reflexivity].
  Qed.
  Lemma frames_normalize n (s : lstate) : n <> "mean_state" -> n <> "covariance_state" -> registries s = registries (@state_init F) -> dget n (attrs (fst (normalize s))) = dget n (attrs s).
  Proof.
    intros N1 N2 R. unfold normalize. unfold sbind at 1, sget at 1. destruct (init_registries s R) as (-> & _). unfold base_pairs. change (dget n (attrs (fst (seach norm_step [("mean_state", "mean_counter"); ("covariance_state", "covariance_counter")] s))) = dget n (attrs s)).
    cbn [seach]. apply (frames_bind n); [apply frames_step; exact N1|intros _]. apply frames_bind; [apply frames_step; exact N2|intros _ s0; reflexivity].
  Qed.
  Lemma finalize_fst dk (s : lstate) : fst (finalize dk s) = fst (normalize s).
  Proof. unfold finalize, sbind. destruct (normalize s) as [s1 [u|e]]; [|reflexivity]. cbn [fst]. apply save_state_same. Qed.
  Theorem plain_reached cs dk : plain_state (fst (run_calls cs (@state_init F))) /\ plain_state (fst (finalize dk (fst (run_calls cs (@state_init F))))).
  Proof.
    assert (R0 : rinv (@state_init F)). { destruct (reach_inv eigh inverse []) as (R & _). exact R. }
    assert (N0 : forall a, In a ["covariance_eigval_state"; "covariance_eigvec_state"; "ekfac_eigval_state"] -> dget a (attrs (@state_init F)) = None) by (intros a I; cbn [In] in I; repeat (destruct I as [<-|I]; [vm_compute; reflexivity|]); contradiction).
    assert (R1 : rinv (fst (run_calls cs (@state_init F)))) by (apply pres_seach; [intros c _; apply pres_call|exact R0]).
    assert (NN : forall n, In n ["covariance_eigval_state"; "covariance_eigvec_state"; "ekfac_eigval_state"] -> forall st, n <> stat_name st /\ n <> counter_name st).
    { intros n I st. cbn [In] in I. destruct st; cbn [stat_name counter_name]; repeat (destruct I as [<-|I]; [split; discriminate|]); contradiction. }
    assert (N1 : forall a, In a ["covariance_eigval_state"; "covariance_eigvec_state"; "ekfac_eigval_state"] -> dget a (attrs (fst (run_calls cs (@state_init F)))) = None) by (intros a I; rewrite (frames_run a cs (NN a I)); apply N0; exact I).
    split; [apply plain_of; assumption|]. rewrite finalize_fst. apply plain_of; [apply pres_normalize; exact R1|]. intros a I. rewrite frames_normalize; [apply N1; exact I| | |apply run_registries]; cbn [In] in I; repeat (destruct I as [<-|I]; [discriminate|]); contradiction.
  Qed.
End Proofs.
