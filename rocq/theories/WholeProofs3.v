(** Whole runs: the training epoch. *)
From Coq Require Import ZArith Permutation Lia.
From Verif Require Import Py PyStr Field Tensor ModelGrad Monad ModelState ModelMmap ModelSaver ModelLoader ModelLogger ModelModules ModelLora ModelScheduler ModelInfluence ModelUtils ModelTrainer SpecGrad SpecState SpecStore SpecLogger SpecInfluence SpecRows SpecTrainer SpecDisk SpecWhole StateProofs1 StateProofs3 StateProofs4 GradProofs1 LogProofs1 LogProofs8 LogProofs9 InfProofs10 DiskProofs1 DiskProofs2 DiskProofs3 WholeProofs1 WholeProofs2.
Local Open Scope string_scope.
Local Open Scope list_scope.
Local Open Scope nat_scope.

Section P.
  Context {F : Type} `{OField F}.
  Add Field wp3field : f_theory.
  Notation tensor := (tensor F).
  Notation dten := (@dten F).
  Notation lx := (@lx F).
  Notation lstate := (@lstate F).
  Notation tlog := (@tlog F).

  (** ---- the finalised state ---- *)
  Definition leaf_val (y : nd (@sval F)) : dten := match y with Leaf (VT t) => t | _ => (Cpu, T [] []) end.
  Definition inner (y : nd (@sval F)) : dict string dten := match y with Node e => map (fun q => (fst q, leaf_val (snd q))) e | Leaf _ => [] end.
  Definition to_log (x : nd (@sval F)) : tlog := match x with Node d => map (fun p => (fst p, inner (snd p))) d | Leaf _ => [] end.
  Lemma flat_log (y : nd (@sval F)) : flat y -> (forall t, match get1 y t with Some (VT _) | None => True | _ => False end) ->
    y = Node (map (fun q => (fst q, Leaf (VT (snd q)))) (inner y)) /\ NoDup (dkeys (inner y)).
  Proof.
    destruct y as [|e]; [intros []|]. intros (N & L) G. cbn [inner]. rewrite map_map. split.
    - f_equal. assert (K : forall t z, In (t, z) e -> exists v, z = Leaf (VT v)).
      { intros t z J. apply In_dget in J; [|exact N]. specialize (G t). cbn [get1] in G. rewrite J in G. apply (Forall_dget is_leaf t e z L) in J. destruct z as [v|]; [|destruct J]. destruct v; try destruct G. eexists. reflexivity. }
      clear -K. induction e as [|[t z] e IH]; [reflexivity|]. cbn [map fst snd]. destruct (K t z (or_introl eq_refl)) as (v & ->). f_equal. apply IH. intros t' z' J. apply (K t' z'). right. exact J.
    - unfold dkeys. rewrite map_map. exact N.
  Qed.
  Lemma two_log (x : nd (@sval F)) : two x -> (forall m t, match get2 x m t with Some (VT _) | None => True | _ => False end) -> x = log_nd (to_log x) /\ ok_log (to_log x).
  Proof.
    destruct x as [|d]; [intros []|]. intros (N & L) G. unfold log_nd, ok_log. cbn [to_log]. rewrite map_map. cbn [fst snd].
    assert (K : forall m y, In (m, y) d -> flat y /\ (forall t, match get1 y t with Some (VT _) | None => True | _ => False end)).
    { intros m y J. apply In_dget in J; [|exact N]. split; [exact (Forall_dget flat m d y L J)|]. intros t. specialize (G m t). unfold get2, sub in G. rewrite J in G. exact G. }
    split; [f_equal; clear -K; induction d as [|[m y] d IH]; [reflexivity|]; cbn [map fst snd]; destruct (K m y (or_introl eq_refl)) as (K1 & K2); destruct (flat_log y K1 K2) as (Q & _); f_equal; [f_equal; exact Q|apply IH; intros m' y' J; apply (K m' y'); right; exact J]|].
    split; [unfold dkeys; rewrite map_map; exact N|]. apply Forall_forall. intros p J. apply in_map_iff in J as ([m y] & <- & J). cbn [fst snd]. destruct (K m y J) as (K1 & K2). exact (proj2 (flat_log y K1 K2)).
  Qed.
  Lemma dget_vmap {A B} (f : A -> B) (d : dict string A) k : dget k (map (fun p => (fst p, f (snd p))) d) = option_map f (dget k d).
  Proof. induction d as [|[k' v] d IH]; [reflexivity|]. cbn [map dget fst snd]. destruct (eqb_spec k k') as [->|N]; [reflexivity|exact IH]. Qed.
  Lemma look_stored (s : lstate) (C : tlog) st m t : dget (stat_name st) (attrs s) = Some (log_nd C) -> stored s st m t = option_map snd (look C m t).
  Proof.
    intros E. unfold stored, lookup2, look. rewrite E. unfold log_nd. rewrite (dget_vmap (fun e : dict string dten => Node (map (fun q => (fst q, Leaf (VT (snd q)))) e))).
    destruct (dget m C) as [e|]; [|reflexivity]. cbn [option_map]. rewrite (dget_vmap (fun x : dten => Leaf (VT x))). destruct (dget t e); reflexivity.
  Qed.
  (** structure of the state after finalize *)
  Lemma finalize_struct (dk dk' : @sdisk F) cs (s0 s s' : lstate) : pristine s0 -> run_calls cs s0 = (s, Ok tt) -> Forall call_ok cs -> finalize dk s = (s', Ok dk') ->
    registries s' = registries (@state_init F) /\ dkeys (attrs s') = dkeys (attrs (@state_init F)) /\ exists C, holds s' "covariance_state" C.
  Proof.
    intros HP E O Ef. pose proof (run_inv _ cs _ [] s (pristine_hist _ HP) O E) as HI. cbn [app] in HI.
    destruct HP as (HR & HK & HE).
    pose proof (run_registries cs s0) as R. rewrite E in R. cbn [fst] in R. rewrite HR in R.
    pose proof (run_keeps_keys cs s0) as KK. rewrite E in KK. cbn [fst] in KK. rewrite HK in KK.
    rewrite init_attrs in KK. specialize (KK ltac:(intros st; destruct st; cbn; intuition)).
    destruct (init_registries s R) as (En & Es & _).
    destruct (normalize_good s En (hist_pairs _ _ _ HI)) as (s1 & E1 & R1 & K1 & P1 & _).
    unfold finalize in Ef. rewrite (sbind_run _ _ _ _ _ E1) in Ef. destruct (save_ok dk s1) as (dk2 & E2 & _).
    { intros a I. replace (st_save s1) with (st_save s) in I by (unfold registries in R1; congruence). rewrite Es in I.
      intros Q. apply dget_None_keys in Q. apply Q. rewrite K1, KK. cbn in I |- *. intuition (subst; auto). }
    rewrite E2 in Ef. apply (f_equal fst) in Ef. cbn [fst] in Ef. subst s'. split; [congruence|]. split; [rewrite K1, KK, init_attrs; reflexivity|].
    destruct (P1 SCov) as (x & c & Ex & Ec & T1 & T2 & G). exists (to_log x). destruct (two_log x T1) as (Q1 & Q2).
    { intros m t. specialize (G m t). destruct (get2 x m t) as [v|]; [|exact Logic.I]. destruct (get2 c m t) as [w|]; destruct v; try exact Logic.I; try destruct G. }
    split; [rewrite <- Q1; exact Ex|exact Q2].
  Qed.
  Lemma init_plain (s : lstate) : registries s = registries (@state_init F) -> dkeys (attrs s) = dkeys (attrs (@state_init F)) ->
    plain_state s /\ dget "covariance_inverse_state" (attrs s) = None /\ ~ In "covariance_inverse_state" (st_states s).
  Proof.
    intros R K. rewrite init_attrs in K. assert (St : st_states s = st_states (@state_init F)) by (unfold registries in R; congruence).
    assert (HA : forall a, hasattr a s = mem a ["mean_state"; "mean_counter"; "covariance_state"; "covariance_counter"; "model_module"]).
    { intros a. unfold hasattr. apply Bool.eq_iff_eq_true. rewrite dmem_In, K, mem_In. reflexivity. }
    assert (NG : forall a, mem a ["mean_state"; "mean_counter"; "covariance_state"; "covariance_counter"; "model_module"] = false -> dget a (attrs s) = None).
    { intros a Q. rewrite <- HA in Q. unfold hasattr, dmem in Q. destruct (dget a (attrs s)); [discriminate Q|reflexivity]. }
    split; [|split; [apply NG; reflexivity|rewrite St; vm_compute; intuition discriminate]]. constructor.
    - rewrite HA. reflexivity.
    - rewrite !HA. reflexivity.
    - intros a. rewrite St, HA. intros Q. apply mem_In in Q. apply mem_In. vm_compute in Q. cbn [In]. intuition.
    - intros ev m t Q. rewrite NG in Q by reflexivity. discriminate Q.
  Qed.
  Lemma init_caches (s : lstate) : registries s = registries (@state_init F) -> dkeys (attrs s) = dkeys (attrs (@state_init F)) ->
    dget "ekfac_eigval_state" (attrs s) = None /\ dget "covariance_eigval_state" (attrs s) = None /\ dget "covariance_eigvec_state" (attrs s) = None /\
    ~ In "covariance_eigval_state" (st_states s) /\ ~ In "covariance_eigvec_state" (st_states s).
  Proof.
    intros R K. rewrite init_attrs in K. assert (St : st_states s = st_states (@state_init F)) by (unfold registries in R; congruence). rewrite St.
    repeat split; try (apply dget_None_keys; rewrite K; cbn; intuition discriminate); vm_compute; intuition discriminate.
  Qed.
End P.
