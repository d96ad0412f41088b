From Coq Require Import ZArith Lia.
From Verif Require Import Py PyStr Monad ModelConfig SpecConfig ConfigProofs ConfigProofs2.
Local Open Scope string_scope.
Local Open Scope list_scope.
Local Open Scope nat_scope.

Lemma fold_dset (kw : dict string pv) : forall a, NoDup (dkeys kw) -> forall j, dget j (fold_left (fun a e => dset (fst e) (snd e) a) kw a) = match dget j kw with Some v => Some v | None => dget j a end.
Proof.
  induction kw as [|[k v] r IH]; intros a N j; [reflexivity|]. cbn [dkeys map fst] in N. apply NoDup_cons_iff in N as [N1 N2]. cbn [fold_left fst snd]. rewrite IH by exact N2. cbn [dget]. rewrite dget_dset.
  destruct (eqb_spec j k) as [E|E]; [|reflexivity]. rewrite E. rewrite (proj2 (dget_None_keys k r) N1). reflexivity.
Qed.
Lemma section_ok fields defaults (v : option pv) : good_sec (dkeys defaults) v ->
  exists a, section fields defaults v = Ok (Sec fields a) /\ (forall j, dget j a = match (match v with Some (PDict x) => dget j x | _ => None end) with Some w => Some w | None => dget j defaults end) /\
    (forall j w, (match v with Some (PDict x) => dget j x | _ => None end) = Some w -> is_dict w = false).
Proof.
  intros G. unfold section. assert (X : forall x, NoDup (dkeys x) -> (forall k v, In (k, v) x -> In k (dkeys defaults) /\ is_dict v = false) -> exists a, new_sec fields defaults x = Ok (Sec fields a) /\ (forall j, dget j a = match dget j x with Some w => Some w | None => dget j defaults end) /\ (forall j w, dget j x = Some w -> is_dict w = false)).
  { intros x N P. unfold new_sec. rewrite (proj2 (forallb_forall _ x)).
    - eexists. split; [reflexivity|]. split; [intros j; apply fold_dset, N|]. intros j w Hw. apply dget_In in Hw. apply (P j w Hw).
    - intros [k w] Hk. apply dmem_In. apply (P k w Hk). }
  destruct v as [[| | | | | |x]|]; try (exfalso; exact G); [apply X; apply G|]. destruct (X []) as (a & E & A & B); [constructor|intros k v []|]. exists a. split; [exact E|]. split; [exact A|discriminate].
Qed.
Lemma default_logging j : In j logging_keys -> dget j logging_defaults = default j.
Proof. intros [<-|[<-|[<-|[<-|[]]]]]; reflexivity. Qed.
Lemma default_lora j : In j lora_fields -> dget j lora_defaults = default j.
Proof. intros [<-|[<-|[<-|[<-|[]]]]]; reflexivity. Qed.
Lemma keys_dset_forall (P : string -> bool) k (v : pv) d : P k = true -> (forall x, In x (dkeys d) -> P x = true) -> forallb (fun e => P (fst e)) (dset k v d) = true.
Proof.
  intros H1 H2. apply forallb_forall. intros [x w] Hx. cbn [fst]. assert (In x (dkeys (dset k v d))) as Y by (change x with (fst (x, w)); apply in_map, Hx). apply In_dkeys_dset in Y as [->|Y]; auto.
Qed.
Lemma new_run_ok p path d f : settings path f d -> (forall k, In k (dkeys d) -> In k config_keys) ->
  good_sec logging_keys (dget "logging" d) -> good_sec lora_fields (dget "lora" d) ->
  forall r, match dget "root_dir" d with Some v => v = PStr r | None => r = "./logix" end -> (join r p <> "" \/ In "" (f_dirs f)) ->
  exists R f' lg lo, new_run (Some p) path None f = (f', Ok R) /\ valid (r_cfg R) r p lg lo /\ r_dir R = join r p /\ with_dir (join r p) f f' /\
    (forall k, In k logging_keys -> dget k lg = given d "logging" k) /\ (forall k, In k lora_fields -> dget k lo = given d "lora" k).
Proof.
  intros Hs Hk Gl Go r Hr Hd. unfold new_run, init_config, sbind.
  assert (E0 : (match path with None => Ok (PDict []) | Some p => match dget p (f_files f) with Some v => Ok v | None => Err AssertionError end end) = Ok (PDict d)).
  { destruct path as [pa|]; cbn in Hs; [rewrite Hs|rewrite Hs]; reflexivity. }
  rewrite E0. unfold new_config. rewrite dget_dset_eq. rewrite (keys_dset_forall (fun k => mem k ["project"; "root_dir"; "logging"; "lora"])); [|reflexivity|intros x Hx; apply mem_In, Hk, Hx].
  rewrite !dget_dset_neq by discriminate.
  destruct (section_ok logging_fields logging_defaults _ Gl) as (lg & -> & L1 & L2). destruct (section_ok lora_fields lora_defaults _ Go) as (lo & -> & O1 & O2). cbn [bind].
  assert (Er : match dget "root_dir" d with Some r => r | None => PStr "./logix" end = PStr r) by (destruct (dget "root_dir" d); rewrite Hr; reflexivity). rewrite Er. cbv beta iota zeta.
  set (c := [("project", V (PStr p)); ("root_dir", V (PStr r)); ("logging", Sec logging_fields lg); ("lora", Sec lora_fields lo); ("log_dir", V PNone)] : cfg).
  destruct (locate c r p logging_fields lg f eq_refl eq_refl eq_refl Hd) as (c' & f' & Ec & (_ & _ & Lc & (f0 & a0 & a1 & A1 & A2 & A3) & Oc) & Wd). match goal with |- context [configure_log_dir ?x] => replace (configure_log_dir x) with ((c', f'), @Ok unit tt) by (symmetry; exact Ec) end. cbn [fst snd]. injection A1 as <- <-.
  unfold lift, getattr. rewrite Lc. eexists _, f', a1, lo. split; [reflexivity|]. cbn [r_cfg r_dir].
  assert (LG : forall k, In k logging_keys -> dget k a1 = given d "logging" k).
  { intros k Ik. rewrite A3. destruct (String.eqb_spec k "log_dir") as [->|_]; [exfalso; cbn in Ik; intuition discriminate|]. rewrite L1. unfold given, setting. rewrite (default_logging k Ik). reflexivity. }
  assert (LO : forall k, In k lora_fields -> dget k lo = given d "lora" k).
  { intros k Ik. rewrite O1. unfold given, setting. rewrite (default_lora k Ik). reflexivity. }
  split; [constructor|split; [reflexivity|split; [exact Wd|split; [exact LG|exact LO]]]].
  - rewrite Oc by discriminate. reflexivity.
  - rewrite Oc by discriminate. reflexivity.
  - exact Lc.
  - exact A2.
  - intros k Ik. destruct Ik as [<-|Ik]; [exists (PStr (join r p)); split; [rewrite A3; reflexivity|reflexivity]|]. assert (Jk : In k logging_keys) by exact Ik. rewrite (LG k Jk). unfold given. destruct (setting d "logging" k) as [w|] eqn:Es; [exists w; split; [reflexivity|exact (L2 k w Es)]|].
    destruct Jk as [<-|[<-|[<-|[<-|[]]]]]; eexists; split; reflexivity.
  - rewrite A3. reflexivity.
  - rewrite Oc by discriminate. reflexivity.
  - intros k Ik. rewrite (LO k Ik). unfold given. destruct (setting d "lora" k) as [w|] eqn:Es; [exists w; split; [reflexivity|exact (O2 k w Es)]|].
    destruct Ik as [<-|[<-|[<-|[<-|[]]]]]; eexists; split; reflexivity.
Qed.
(** a LoggingConfig object given to LogIX replaces the section of the file *)
Lemma new_run_logging p path a f f' R r lg lo : new_run (Some p) path None f = (f', Ok R) -> valid (r_cfg R) r p lg lo -> r_dir R = join r p -> plain_sec logging_keys a ->
  exists R' lg', new_run (Some p) path (Some a) f = (f', Ok R') /\ valid (r_cfg R') r p lg' lo /\ r_dir R' = join r p /\ forall k, k <> "log_dir" -> dget k lg' = dget k a.
Proof.
  unfold new_run, sbind, lift. destruct (init_config (Some p) path f) as [f1 [c|e]]; [|discriminate]. intros E Vc Dr P. unfold getattr in *.
  destruct (dget "log_dir" c) as [[[| | | |d| |]|]|] eqn:G; try discriminate E. injection E as <- <-. cbn [r_cfg r_dir] in *. subst d.
  eexists _, (dset "log_dir" (PStr (join r p)) a). split; [reflexivity|]. cbn [r_cfg r_dir]. split; [|split; [reflexivity|intros k Nk; apply dget_dset_neq, Nk]]. destruct Vc as [V1 V2 V3 V4 V5 V6 V7 V8]. constructor.
  - rewrite dget_dset_neq by discriminate. exact V1.
  - rewrite dget_dset_neq by discriminate. exact V2.
  - rewrite dget_dset_neq by discriminate. exact V3.
  - apply dget_dset_eq.
  - intros k Ik. destruct Ik as [<-|Ik]; [exists (PStr (join r p)); split; [apply dget_dset_eq|reflexivity]|]. destruct (P k Ik) as (w & Hw & Pw). exists w. split; [|exact Pw]. rewrite dget_dset_neq; [exact Hw|]. intros ->. cbn in Ik. intuition discriminate.
  - apply dget_dset_eq.
  - rewrite dget_dset_neq by discriminate. exact V7.
  - exact V8.
Qed.
(** errors *)
Lemma rejects_init project path f e : init_config project path f = (f, Err e) -> rejects project path f e.
Proof. intros E a. unfold new_run, sbind. rewrite E. reflexivity. Qed.
Lemma new_run_no_file project pa f : dget pa (f_files f) = None -> rejects project (Some pa) f AssertionError.
Proof. intros E. apply rejects_init. unfold init_config. rewrite E. reflexivity. Qed.
Lemma new_run_no_project path f : rejects None path f AssertionError.
Proof. apply rejects_init. unfold init_config. destruct path as [pa|]; [destruct (dget pa (f_files f))|]; reflexivity. Qed.
Lemma new_run_no_dict p pa f v : dget pa (f_files f) = Some v -> is_dict v = false -> rejects (Some p) (Some pa) f TypeError.
Proof. intros E D. apply rejects_init. unfold init_config. rewrite E. destruct v; try discriminate D; reflexivity. Qed.
Lemma new_run_unknown p pa f d k : dget pa (f_files f) = Some (PDict d) -> In k (dkeys d) -> ~ In k config_keys -> rejects (Some p) (Some pa) f TypeError.
Proof.
  intros E Ik Nk. apply rejects_init. unfold init_config. rewrite E. unfold new_config. rewrite dget_dset_eq. destruct (forallb _ _) eqn:A; [|reflexivity]. exfalso. rewrite forallb_forall in A.
  assert (Y : In k (dkeys (dset "project" (PStr p) d))) by (apply In_dkeys_dset; right; exact Ik). apply in_map_iff in Y as ((k' & w) & <- & Hw). specialize (A _ Hw). cbn [fst] in A, Nk. apply mem_In in A. exact (Nk A).
Qed.
Lemma new_sec_bad fields defaults x k : In k (dkeys x) -> ~ In k (dkeys defaults) -> new_sec fields defaults x = Err TypeError.
Proof.
  intros Ik Nk. unfold new_sec. destruct (forallb _ _) eqn:A; [|reflexivity]. exfalso. rewrite forallb_forall in A. apply in_map_iff in Ik as ((k' & w) & <- & Hw). specialize (A _ Hw). apply dmem_In in A. exact (Nk A).
Qed.
Lemma new_run_unknown_sec p pa f d sec x k : dget pa (f_files f) = Some (PDict d) -> dget sec d = Some (PDict x) -> In k (dkeys x) ->
  (sec = "logging" /\ ~ In k logging_keys) \/ (sec = "lora" /\ ~ In k lora_fields) -> rejects (Some p) (Some pa) f TypeError.
Proof.
  intros E Ex Ik Nk. apply rejects_init. unfold init_config. rewrite E. unfold new_config. rewrite dget_dset_eq. destruct (forallb _ _); [|reflexivity]. rewrite !dget_dset_neq by discriminate.
  destruct Nk as [[-> Nk]|[-> Nk]]; rewrite Ex; cbn [section].
  - rewrite (new_sec_bad _ logging_defaults _ _ Ik Nk). reflexivity.
  - destruct (section logging_fields logging_defaults (dget "logging" d)) as [lg|e] eqn:L; cbn [bind]; [rewrite (new_sec_bad _ lora_defaults _ _ Ik Nk); reflexivity|].
    enough (e = TypeError) by (subst; reflexivity). revert L. unfold section. destruct (dget "logging" d) as [[| | | | | |y]|]; try discriminate; unfold new_sec; destruct (forallb _ _); congruence.
Qed.
Lemma new_run_root p pa f d v : dget pa (f_files f) = Some (PDict d) -> dget "root_dir" d = Some v -> (forall s, v <> PStr s) -> rejects (Some p) (Some pa) f TypeError.
Proof.
  intros E Ex Nv. apply rejects_init. unfold init_config. rewrite E. unfold new_config. rewrite dget_dset_eq. destruct (forallb _ _); [|reflexivity]. rewrite !dget_dset_neq by discriminate. rewrite Ex.
  assert (X : forall defaults fields w e, section fields defaults w = Err e -> e = TypeError).
  { intros defaults fields w e. unfold section. destruct w as [[| | | | | |y]|]; try discriminate; unfold new_sec; destruct (forallb _ _); congruence. }
  destruct (section logging_fields _ _) as [lg|e] eqn:L; cbn [bind]; [|rewrite (X _ _ _ _ L); reflexivity]. destruct (section lora_fields _ _) as [lo|e] eqn:O; cbn [bind]; [|rewrite (X _ _ _ _ O); reflexivity].
  unfold configure_log_dir, sbind, sget, lift, getattr. cbn [fst snd dget eqb Eqb_string String.eqb Ascii.eqb Bool.eqb]. destruct v; try (exfalso; eapply Nv; reflexivity); reflexivity.
Qed.
Lemma new_run_logging_null p pa f d v r : dget pa (f_files f) = Some (PDict d) -> (forall k, In k (dkeys d) -> In k config_keys) -> good_sec lora_fields (dget "lora" d) ->
  match dget "root_dir" d with Some w => w = PStr r | None => r = "./logix" end -> dget "logging" d = Some v -> is_dict v = false -> rejects (Some p) (Some pa) f AttributeError.
Proof.
  intros E Hk Go Hr Ex Nv. apply rejects_init. unfold init_config. rewrite E. unfold new_config. rewrite dget_dset_eq. rewrite (keys_dset_forall (fun k => mem k ["project"; "root_dir"; "logging"; "lora"])); [|reflexivity|intros x Hx; apply mem_In, Hk, Hx].
  rewrite !dget_dset_neq by discriminate. rewrite Ex. destruct (section_ok lora_fields lora_defaults _ Go) as (lo & -> & _).
  assert (Er : match dget "root_dir" d with Some r => r | None => PStr "./logix" end = PStr r) by (destruct (dget "root_dir" d); rewrite Hr; reflexivity). rewrite Er. cbv beta iota zeta.
  destruct v; try discriminate Nv; reflexivity.
Qed.
Lemma new_run_nowhere p path d f : settings path f d -> (forall k, In k (dkeys d) -> In k config_keys) ->
  good_sec logging_keys (dget "logging" d) -> good_sec lora_fields (dget "lora" d) ->
  forall r, match dget "root_dir" d with Some v => v = PStr r | None => r = "./logix" end -> join r p = "" -> ~ In "" (f_dirs f) -> rejects (Some p) path f FileNotFoundError.
Proof.
  intros Hs Hk Gl Go r Hr J Nd. apply rejects_init. unfold init_config.
  assert (E0 : (match path with None => Ok (PDict []) | Some p => match dget p (f_files f) with Some v => Ok v | None => Err AssertionError end end) = Ok (PDict d)).
  { destruct path as [pa|]; cbn in Hs; rewrite Hs; reflexivity. }
  rewrite E0. unfold new_config. rewrite dget_dset_eq. rewrite (keys_dset_forall (fun k => mem k ["project"; "root_dir"; "logging"; "lora"])); [|reflexivity|intros x Hx; apply mem_In, Hk, Hx].
  rewrite !dget_dset_neq by discriminate.
  destruct (section_ok logging_fields logging_defaults _ Gl) as (lg & -> & L1 & L2). destruct (section_ok lora_fields lora_defaults _ Go) as (lo & -> & O1 & O2). cbn [bind].
  assert (Er : match dget "root_dir" d with Some r => r | None => PStr "./logix" end = PStr r) by (destruct (dget "root_dir" d); rewrite Hr; reflexivity). rewrite Er. cbv beta iota zeta.
  unfold configure_log_dir, sbind, sget, lift, getattr, set_cfg. cbn [fst snd dget eqb Eqb_string String.eqb Ascii.eqb Bool.eqb join_v]. rewrite J. apply mem_false in Nd. rewrite Nd. reflexivity.
Qed.
