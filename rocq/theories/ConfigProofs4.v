From Coq Require Import ZArith Lia.
From Verif Require Import Py PyStr Monad ModelConfig SpecConfig ConfigProofs ConfigProofs2 ConfigProofs3.
Local Open Scope string_scope.
Local Open Scope list_scope.
Local Open Scope nat_scope.

Lemma load_file_ok path d c f : dget path (f_files f) = Some (PDict d) -> NoDup (dkeys d) -> (forall k v, In (k, v) d -> fits c k v) ->
  exists c1, updated c d c1 /\ load_config path (c, f) = configure_log_dir (c1, f).
Proof.
  intros E N P. destruct (load_ok d c f N P) as (c1 & U & L). exists c1. split; [exact U|]. specialize (L []). rewrite app_nil_r in L.
  unfold load_config, sbind, sget. cbn [snd]. rewrite E, L. reflexivity.
Qed.
Lemma load_file path d c f r p : dget path (f_files f) = Some (PDict d) -> NoDup (dkeys d) -> (forall k v, In (k, v) d -> fits c k v) ->
  exists c1, updated c d c1 /\
    forall fl a, dget "root_dir" c1 = Some (V (PStr r)) -> dget "project" c1 = Some (V (PStr p)) -> dget "logging" c1 = Some (Sec fl a) -> (join r p <> "" \/ In "" (f_dirs f)) ->
    exists c' f', load_config path (c, f) = ((c', f'), Ok tt) /\ located c1 r p c' /\ with_dir (join r p) f f'.
Proof.
  intros E N P. destruct (load_file_ok path d c f E N P) as (c1 & U & L). exists c1. split; [exact U|]. intros fl a R Pr Lg J. rewrite L. apply (locate c1 r p fl a f); assumption.
Qed.
Lemma load_file_homeless path d c f : dget path (f_files f) = Some (PDict d) -> NoDup (dkeys d) -> (forall k v, In (k, v) d -> fits c k v) ->
  (exists v w, dget "root_dir" c = Some v /\ dget "project" c = Some w) ->
  exists c1, updated c d c1 /\
    (forall v, (dget "root_dir" c1 = Some v \/ dget "project" c1 = Some v) -> (forall s, v <> V (PStr s)) -> load_config path (c, f) = ((c1, f), Err TypeError)) /\
    (forall v r p, dget "root_dir" c1 = Some (V (PStr r)) -> dget "project" c1 = Some (V (PStr p)) -> dget "logging" c1 = Some (V v) ->
       exists c', load_config path (c, f) = ((c', f), Err AttributeError) /\ forall k, dget k c' = if String.eqb k "log_dir" then Some (V (PStr (join r p))) else dget k c1).
Proof.
  intros E N P (v0 & w0 & Hv & Hw). destruct (load_file_ok path d c f E N P) as (c1 & U & L). exists c1. split; [exact U|]. rewrite L.
  assert (X : forall k v, dget k c = Some v -> exists v', dget k c1 = Some v').
  { intros k v H. specialize (U k). destruct (dget k d) as [[| | | | | |x]|]; try (eexists; exact U); [destruct U as (? & ? & ? & _ & U & _); eexists; exact U|rewrite U; eauto]. }
  destruct (X _ _ Hv) as [v1 Hv1]. destruct (X _ _ Hw) as [w1 Hw1]. unfold configure_log_dir, sbind, sget, lift, getattr. cbn [fst snd]. rewrite Hv1, Hw1. split.
  - intros v Hc Nv. enough (Ej : join_v (Some v1) (Some w1) = Err TypeError) by (rewrite Ej; reflexivity). unfold join_v. destruct Hc as [Hc|Hc]; injection Hc as ->.
    + destruct v as [[| | | |s| |]|]; try reflexivity. exfalso. eapply Nv. reflexivity.
    + destruct v1 as [[| | | |s1| |]|]; try reflexivity. destruct v as [[| | | |s| |]|]; try reflexivity. exfalso. eapply Nv. reflexivity.
  - intros v r p [= ->] [= ->] Lg. rewrite Lg. cbn [join_v]. unfold set_cfg, sfail. cbn [fst snd]. eexists. split; [reflexivity|]. intros k. rewrite dget_dset. reflexivity.
Qed.
Lemma load_sec_bad x1 j y x2 : forall a, NoDup (dkeys x1) -> (forall i w, In (i, w) x1 -> is_dict w = false) -> ~ In j (dkeys x1) ->
  exists a', load_sec (x1 ++ (j, PDict y) :: x2) a = (a', Err (match dget j a with Some _ => AssertionError | None => AttributeError end)) /\ forall i, dget i a' = match dget i x1 with Some v => Some v | None => dget i a end.
Proof.
  induction x1 as [|[k v] r IH]; intros a N P Nj.
  - cbn. eexists. split; [destruct (dget j a); reflexivity|reflexivity].
  - cbn [dkeys map fst In] in N, Nj. apply NoDup_cons_iff in N as [N1 N2]. cbn [app load_sec]. rewrite (P k v (or_introl eq_refl)).
    destruct (IH (dset k v a) N2) as (a' & E & G); [intros i w Hi; apply (P i w); right; exact Hi|intros X; apply Nj; right; exact X|]. exists a'. rewrite E. split.
    + rewrite dget_dset_neq by (intros ->; apply Nj; left; reflexivity). reflexivity.
    + intros i. rewrite G. cbn [dget]. rewrite dget_dset. destruct (eqb_spec i k) as [Ei|Ne]; [|reflexivity]. rewrite Ei. rewrite (proj2 (dget_None_keys k r) N1). reflexivity.
Qed.
Lemma load_file_bad path d1 k v d2 c f e x1 : dget path (f_files f) = Some (PDict (d1 ++ (k, v) :: d2)) -> NoDup (dkeys d1) -> ~ In k (dkeys d1) -> (forall k v, In (k, v) d1 -> fits c k v) -> misfit c k v e x1 ->
  exists c1 c', load_config path (c, f) = ((c', f), Err e) /\ updated c d1 c1 /\ (forall x, x <> k -> dget x c' = dget x c1) /\
    match dget k c with
    | Some (Sec fl a) => exists a', dget k c' = Some (Sec fl a') /\ forall j, dget j a' = match dget j x1 with Some v => Some v | None => dget j a end
    | o => dget k c' = o
    end.
Proof.
  intros E N Nk P M. destruct (load_ok d1 c f N P) as (c1 & U & L). exists c1. pose proof (U k) as Uk. rewrite (proj2 (dget_None_keys k d1) Nk) in Uk.
  unfold load_config, sbind at 1, sget. cbn [snd]. rewrite E. unfold sbind. rewrite L. cbn [load_dict]. unfold sbind. destruct M as [x Hc|x w Hc|z j y x2 fl a Hc N1 P1 Nj].
  - exists c1. cbn [fst]. unfold getattr. rewrite Uk, Hc. auto.
  - exists c1. cbn [fst]. unfold getattr. rewrite Uk, Hc. auto.
  - cbn [fst]. unfold getattr. rewrite Uk, Hc. destruct (load_sec_bad z j y x2 a N1 P1 Nj) as (a' & Ea & Ga). rewrite Ea. eexists. split; [reflexivity|]. split; [exact U|]. split; [intros x Nx; apply dget_dset_neq, Nx|]. exists a'. split; [apply dget_dset_eq|exact Ga].
Qed.
Lemma load_no_file path c f : dget path (f_files f) = None -> load_config path (c, f) = ((c, f), Err AssertionError).
Proof. intros E. unfold load_config, sbind, sget. cbn [snd]. rewrite E. reflexivity. Qed.
Lemma load_no_dict path c f v : dget path (f_files f) = Some v -> is_dict v = false -> load_config path (c, f) = ((c, f), Err AttributeError).
Proof. intros E D. unfold load_config, sbind, sget. cbn [snd]. rewrite E. destruct v; try discriminate D; reflexivity. Qed.

(** runs *)
Lemma run_finalize R r p lg lo f : valid (r_cfg R) r p lg lo -> In (r_dir R) (f_dirs f) -> r_dir R <> "" ->
  exists f' v, finalize_config (R, f) = ((R, f'), Ok tt) /\ saved (r_cfg R) v /\ f_dirs f' = f_dirs f /\
    forall path, dget path (f_files f') = if String.eqb path (join (r_dir R) "config.yaml") then Some v else dget path (f_files f).
Proof.
  intros Vc D N. destruct (save_config_ok (r_cfg R) r p lg lo (r_dir R) f Vc D N) as (f' & v & E & Sv & Fd & G). exists f', v. split; [|auto].
  unfold finalize_config, sbind, sget, on_cfg. cbn [fst snd]. rewrite E. cbn [fst snd]. destruct R; reflexivity.
Qed.
Lemma run_initialize c r p lg lo v R r2 p2 lg2 lo2 f : valid c r p lg lo -> saved c v -> valid (r_cfg R) r2 p2 lg2 lo2 -> In (r_dir R) (f_dirs f) -> dget (join (r_dir R) "config.yaml") (f_files f) = Some v -> (join r p <> "" \/ In "" (f_dirs f)) ->
  exists R' f' lg' lo', config_from_log (R, f) = ((R', f'), Ok tt) /\ r_dir R' = r_dir R /\ valid (r_cfg R') r p lg' lo' /\ (forall k, In k logging_fields -> dget k lg' = dget k lg) /\ (forall k, In k lora_fields -> dget k lo' = dget k lo) /\
    (forall k, ~ In k config_fields -> dget k (r_cfg R') = dget k (r_cfg R)) /\ (forall k, ~ In k logging_fields -> dget k lg' = dget k lg2) /\ (forall k, ~ In k lora_fields -> dget k lo' = dget k lo2) /\ with_dir (join r p) f f'.
Proof.
  intros Vc Sv V2 D Hf J. destruct (load_saved c r p lg lo v (r_cfg R) r2 p2 lg2 lo2 _ f Vc Sv V2 Hf J) as (c' & f' & lg' & lo' & E & Rest). exists (Run c' (r_dir R)), f', lg', lo'. split; [|split; [reflexivity|exact Rest]].
  unfold config_from_log, sbind, sget. cbn [fst snd]. apply mem_In in D. rewrite D. unfold on_cfg. cbn [fst snd]. rewrite E. reflexivity.
Qed.
Lemma run_initialize_bad R f : (~ In (r_dir R) (f_dirs f) \/ dget (join (r_dir R) "config.yaml") (f_files f) = None) -> config_from_log (R, f) = ((R, f), Err AssertionError).
Proof.
  intros H. unfold config_from_log, sbind, sget. cbn [fst snd]. destruct (mem (r_dir R) (f_dirs f)) eqn:M; [|reflexivity]. destruct H as [H|H]; [apply mem_In in M; contradiction|].
  unfold on_cfg. cbn [fst snd]. rewrite (load_no_file _ _ _ H). cbn [fst snd]. destruct R; reflexivity.
Qed.
Lemma run_set_lora R r p lg lo a f : valid (r_cfg R) r p lg lo -> plain_sec lora_fields a -> exists R', set_lora_config a (R, f) = ((R', f), Ok tt) /\ valid (r_cfg R') r p lg a /\ r_dir R' = r_dir R.
Proof.
  intros [V1 V2 V3 V4 V5 V6 V7 V8] P. eexists. split; [reflexivity|]. cbn [r_cfg r_dir]. split; [|reflexivity]. cbn [fst snd]. constructor; try (rewrite dget_dset_neq by discriminate); auto. apply dget_dset_eq.
Qed.
