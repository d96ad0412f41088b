From Coq Require Import ZArith Lia.
From Verif Require Import Py PyStr Monad ModelConfig SpecConfig ConfigProofs.
Local Open Scope string_scope.
Local Open Scope list_scope.
Local Open Scope nat_scope.

(** what is written *)
Lemma sec_yaml f a : NoDup f -> plain_sec f a -> exists x, as_yaml (Sec f a) = Ok (PDict x) /\ NoDup (dkeys x) /\ (forall k v, In (k, v) x -> is_dict v = false) /\ forall k, dget k x = if mem k f then dget k a else None.
Proof.
  intros N P. cbn [as_yaml]. destruct (fields_ok (fun v : pv => Ok v) f a) as [l E]; [intros k Hk; destruct (P k Hk) as (v & Hv & _); eauto|]. rewrite E. cbn [bind]. exists (ksort l). split; [reflexivity|].
  pose proof (fields_keys _ _ _ _ E) as K. assert (NL : NoDup (dkeys l)) by (rewrite K; exact N).
  assert (G : forall k, dget k (ksort l) = if mem k f then dget k a else None).
  { intros k. rewrite dget_ksort by exact NL. destruct (mem k f) eqn:M.
    - apply mem_In in M. destruct (fields_get _ _ _ _ k E M) as (v & w & H1 & [= ->] & H2). congruence.
    - apply mem_false in M. apply dget_None_keys. rewrite K. exact M. }
  split; [apply nodup_ksort, NL|]. split; [|exact G]. intros k v Hk. apply In_dget in Hk; [|apply nodup_ksort, NL]. rewrite G in Hk. destruct (mem k f) eqn:M; [|discriminate Hk]. apply mem_In in M. destruct (P k M) as (v' & Hv & Pv). congruence.
Qed.
Lemma yaml_ok c r p lg lo : valid c r p lg lo -> exists l xl xo, fields_of as_yaml config_fields c = Ok l /\ dkeys l = config_fields /\
  dget "project" l = Some (PStr p) /\ dget "root_dir" l = Some (PStr r) /\ dget "log_dir" l = Some (PStr (join r p)) /\
  dget "logging" l = Some (PDict xl) /\ dget "lora" l = Some (PDict xo) /\
  (NoDup (dkeys xl) /\ (forall k v, In (k, v) xl -> is_dict v = false) /\ forall k, dget k xl = if mem k logging_fields then dget k lg else None) /\
  (NoDup (dkeys xo) /\ (forall k v, In (k, v) xo -> is_dict v = false) /\ forall k, dget k xo = if mem k lora_fields then dget k lo else None).
Proof.
  intros Vc. destruct (sec_yaml logging_fields lg) as (xl & E1 & P1); [repeat constructor; cbn; intuition discriminate|apply Vc|]. destruct (sec_yaml lora_fields lo) as (xo & E2 & P2); [repeat constructor; cbn; intuition discriminate|apply Vc|].
  destruct (fields_ok as_yaml config_fields c) as [l E].
  { intros k Hk. destruct Hk as [<-|[<-|[<-|[<-|[<-|[]]]]]].
    - rewrite (v_project _ _ _ _ _ Vc). eexists _, _. split; reflexivity.
    - rewrite (v_dir _ _ _ _ _ Vc). eexists _, _. split; reflexivity.
    - rewrite (v_root _ _ _ _ _ Vc). eexists _, _. split; reflexivity.
    - rewrite (v_logging _ _ _ _ _ Vc). eexists _, _. split; [reflexivity|exact E1].
    - rewrite (v_lora _ _ _ _ _ Vc). eexists _, _. split; [reflexivity|exact E2]. }
  exists l, xl, xo. split; [exact E|]. split; [exact (fields_keys _ _ _ _ E)|].
  assert (G : forall k v w, In k config_fields -> dget k c = Some v -> as_yaml v = Ok w -> dget k l = Some w).
  { intros k v w Hk H1 H2. destruct (fields_get _ _ _ _ k E Hk) as (v' & w' & H3 & H4 & H5). congruence. }
  split; [eapply G; [cbn; auto 8|apply Vc|reflexivity]|]. split; [eapply G; [cbn; auto 8|apply Vc|reflexivity]|]. split; [eapply G; [cbn; auto 8|apply Vc|reflexivity]|].
  split; [eapply G; [cbn; auto 8|apply Vc|exact E1]|]. split; [eapply G; [cbn; auto 8|apply Vc|exact E2]|]. auto.
Qed.
Lemma save_ok c r p lg lo d f : valid c r p lg lo -> In d (f_dirs f) -> d <> "" -> exists l, fields_of as_yaml config_fields c = Ok l /\
  save_config (Some d) (c, f) = ((c, FS (dset (join d "config.yaml") (PDict (ksort l)) (f_files f)) (f_dirs f)), Ok tt).
Proof.
  intros Vc D N. destruct (yaml_ok _ _ _ _ _ Vc) as (l & _ & _ & E & _). exists l. split; [exact E|]. unfold save_config. cbn [fst snd]. apply String.eqb_neq in N. rewrite N. unfold join_v. rewrite E. apply mem_In in D. rewrite D. reflexivity.
Qed.
(** saving, as observed *)
Lemma save_config_ok c r p lg lo d f : valid c r p lg lo -> In d (f_dirs f) -> d <> "" ->
  exists f' v, save_config (Some d) (c, f) = ((c, f'), Ok tt) /\ saved c v /\ f_dirs f' = f_dirs f /\ forall path, dget path (f_files f') = if String.eqb path (join d "config.yaml") then Some v else dget path (f_files f).
Proof.
  intros Vc D N. destruct (save_ok c r p lg lo d f Vc D N) as (l & _ & E). eexists _, (PDict (ksort l)). split; [exact E|]. split; [|split; [reflexivity|intros path; cbn [f_files]; rewrite dget_dset; reflexivity]].
  exists f. eexists _, d. split; [exact D|]. split; [exact E|]. split; [exact N|]. cbn [f_files]. apply dget_dset_eq.
Qed.
Lemma save_config_default c r p lg lo f : valid c r p lg lo -> save_config None (c, f) = save_config (Some (join r p)) (c, f) /\ save_config (Some "") (c, f) = save_config (Some (join r p)) (c, f).
Proof.
  intros Vc. unfold save_config. cbn [fst]. unfold getattr. rewrite (v_dir _ _ _ _ _ Vc). cbn [String.eqb]. destruct (String.eqb (join r p) "") eqn:E; auto.
Qed.
Lemma save_config_missing c r p lg lo d f : valid c r p lg lo -> ~ In d (f_dirs f) -> d <> "" -> save_config (Some d) (c, f) = ((c, f), Err FileNotFoundError).
Proof.
  intros Vc D N. destruct (yaml_ok _ _ _ _ _ Vc) as (l & _ & _ & E & _). unfold save_config. cbn [fst snd]. apply String.eqb_neq in N. rewrite N. unfold join_v. rewrite E. apply mem_false in D. rewrite D. reflexivity.
Qed.
Lemma saved_inv c r p lg lo v : valid c r p lg lo -> saved c v -> exists l, v = PDict (ksort l) /\ fields_of as_yaml config_fields c = Ok l.
Proof.
  intros Vc (f & f' & d & D & E & N & G). destruct (save_ok c r p lg lo d f Vc D N) as (l & El & E'). rewrite E in E'. injection E' as ->. cbn [f_files] in G. rewrite dget_dset_eq in G. injection G as <-. exists l. auto.
Qed.
(** loading what was saved *)
Lemma load_saved c r p lg lo v c2 r2 p2 lg2 lo2 path f : valid c r p lg lo -> saved c v -> valid c2 r2 p2 lg2 lo2 -> dget path (f_files f) = Some v -> (join r p <> "" \/ In "" (f_dirs f)) ->
  exists c' f' lg' lo', load_config path (c2, f) = ((c', f'), Ok tt) /\ valid c' r p lg' lo' /\ (forall k, In k logging_fields -> dget k lg' = dget k lg) /\ (forall k, In k lora_fields -> dget k lo' = dget k lo) /\
    (forall k, ~ In k config_fields -> dget k c' = dget k c2) /\ (forall k, ~ In k logging_fields -> dget k lg' = dget k lg2) /\ (forall k, ~ In k lora_fields -> dget k lo' = dget k lo2) /\ with_dir (join r p) f f'.
Proof.
  intros Vc Sv V2 Hf Hd. destruct (saved_inv _ _ _ _ _ _ Vc Sv) as (l & -> & El). destruct (yaml_ok _ _ _ _ _ Vc) as (l' & xl & xo & E & K & G1 & G2 & G3 & G4 & G5 & (L1 & L2 & L3) & (O1 & O2 & O3)). rewrite El in E. injection E as <-.
  assert (NL : NoDup (dkeys l)) by (rewrite K; repeat constructor; cbn; intuition discriminate).
  unfold load_config, sbind at 1, sget. cbn [snd]. rewrite Hf.
  assert (NS : NoDup (dkeys (ksort l))) by (apply nodup_ksort, NL).
  assert (KS : forall k w, In (k, w) (ksort l) -> dget k l = Some w) by (intros k w Hk; apply In_dget in Hk; [|exact NS]; rewrite dget_ksort in Hk by exact NL; exact Hk).
  destruct (load_ok (ksort l) c2 f NS) as (c1 & U & EL).
  { intros k w Hk. pose proof (KS k w Hk) as Hw. assert (Ik : In k config_fields) by (rewrite <- K; apply dget_In_keys; eauto).
    destruct Ik as [<-|[<-|[<-|[<-|[<-|[]]]]]].
    - rewrite G1 in Hw. injection Hw as <-. exact Logic.I.
    - rewrite G3 in Hw. injection Hw as <-. exact Logic.I.
    - rewrite G2 in Hw. injection Hw as <-. exact Logic.I.
    - rewrite G4 in Hw. injection Hw as <-. cbn. split; [exact L1|]. split; [|exact L2]. eexists _, _. apply V2.
    - rewrite G5 in Hw. injection Hw as <-. cbn. split; [exact O1|]. split; [|exact O2]. eexists _, _. apply V2. }
  specialize (EL []). rewrite app_nil_r in EL.
  assert (U' : forall k, match dget k l with None => dget k c1 = dget k c2 | Some (PDict x) => exists f a a', dget k c2 = Some (Sec f a) /\ dget k c1 = Some (Sec f a') /\ forall j, dget j a' = match dget j x with Some v => Some v | None => dget j a end | Some v => dget k c1 = Some (V v) end).
  { intros k. specialize (U k). rewrite dget_ksort in U by exact NL. exact U. }
  clear U. pose proof (U' "project") as Up. rewrite G1 in Up. pose proof (U' "root_dir") as Ur. rewrite G2 in Ur. pose proof (U' "log_dir") as Ud. rewrite G3 in Ud.
  pose proof (U' "logging") as Ul. rewrite G4 in Ul. destruct Ul as (fl & al & al' & Ul1 & Ul2 & Ul3). rewrite (v_logging _ _ _ _ _ V2) in Ul1. injection Ul1 as <- <-.
  pose proof (U' "lora") as Uo. rewrite G5 in Uo. destruct Uo as (fo & ao & ao' & Uo1 & Uo2 & Uo3). rewrite (v_lora _ _ _ _ _ V2) in Uo1. injection Uo1 as <- <-.
  destruct (locate c1 r p logging_fields al' f Ur Up Ul2 Hd) as (c' & f' & Ec & (_ & _ & Lc & (f0 & a0 & a1 & A1 & A2 & A3) & Oc) & Wd).
  rewrite Ul2 in A1. injection A1 as <- <-. exists c', f', a1, ao'.
  assert (Dir : dget "log_dir" lg = Some (PStr (join r p))) by apply Vc.
  assert (LG : forall k, In k logging_fields -> dget k a1 = dget k lg).
  { intros k Hk. rewrite A3. destruct (String.eqb_spec k "log_dir") as [Ek|Nk]; [rewrite Ek, Dir; reflexivity|]. rewrite Ul3, L3. apply mem_In in Hk. rewrite Hk. apply mem_In in Hk. destruct (v_logging_plain _ _ _ _ _ Vc k Hk) as (w & Hw & _). rewrite Hw. reflexivity. }
  assert (LO : forall k, In k lora_fields -> dget k ao' = dget k lo).
  { intros k Hk. rewrite Uo3, O3. apply mem_In in Hk. rewrite Hk. apply mem_In in Hk. destruct (v_lora_plain _ _ _ _ _ Vc k Hk) as (w & Hw & _). rewrite Hw. reflexivity. }
  split; [|split; [|split; [exact LG|split; [exact LO|split; [|split; [|split; [|exact Wd]]]]]]].
  - unfold sbind. rewrite EL. cbn [load_dict sret]. exact Ec.
  - constructor.
    + rewrite Oc by discriminate. exact Up.
    + rewrite Oc by discriminate. exact Ur.
    + exact Lc.
    + exact A2.
    + intros k Hk. destruct (v_logging_plain _ _ _ _ _ Vc k Hk) as (w & Hw & Pw). exists w. rewrite LG by exact Hk. auto.
    + rewrite LG by (left; reflexivity). exact Dir.
    + rewrite Oc by discriminate. exact Uo2.
    + intros k Hk. destruct (v_lora_plain _ _ _ _ _ Vc k Hk) as (w & Hw & Pw). exists w. rewrite LO by exact Hk. auto.
  - intros k Hk. rewrite Oc by (intros ->; apply Hk; cbn; auto 8). specialize (U' k). destruct (dget k l) as [w|] eqn:Ek; [|exact U']. exfalso. apply Hk. rewrite <- K. apply dget_In_keys. eauto.
  - intros k Hk. rewrite A3. destruct (String.eqb_spec k "log_dir") as [Ek|Nk]; [exfalso; apply Hk; rewrite Ek; left; reflexivity|]. rewrite Ul3, L3. apply mem_false in Hk. rewrite Hk. reflexivity.
  - intros k Hk. rewrite Uo3, O3. apply mem_false in Hk. rewrite Hk. reflexivity.
Qed.
Lemma new_saved c r p lg lo v path q f : valid c r p lg lo -> saved c v -> dget path (f_files f) = Some v -> init_config (Some q) (Some path) f = (f, Err TypeError).
Proof.
  intros Vc Sv Hf. destruct (saved_inv _ _ _ _ _ _ Vc Sv) as (l & -> & El). unfold init_config. rewrite Hf. unfold new_config. rewrite dget_dset_eq.
  destruct (yaml_ok _ _ _ _ _ Vc) as (l' & xl & xo & E & K & G1 & G2 & G3 & _). rewrite El in E. injection E as <-.
  assert (NL : NoDup (dkeys l)) by (rewrite K; repeat constructor; cbn; intuition discriminate).
  destruct (forallb _ _) eqn:A; [|reflexivity]. exfalso. rewrite forallb_forall in A. specialize (A ("log_dir", PStr (join r p))). cbn in A. enough (false = true) by discriminate. apply A. apply dget_In. rewrite dget_dset_neq by discriminate. rewrite dget_ksort by exact NL. exact G3.
Qed.
