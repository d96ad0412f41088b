(** Plugin lists, masks, contexts, exits, copies, saving. *)
From Coq Require Import ZArith Permutation Sorting.Sorted.
From Verif Require Import Py Field Tensor ModelGrad Monad ModelState ModelMmap ModelSaver ModelLogger SpecGrad SpecState SpecLogger LogProofs1.
Local Open Scope nat_scope.

(** ---- options (option.py) ---- *)
Lemma plugin_eqb_spec a b : reflect (a = b) (plugin_eqb a b).
Proof. destruct a, b; cbn; constructor; congruence. Qed.
Lemma plugin_in_In p l : plugin_in p l = true <-> In p l.
Proof.
  unfold plugin_in. rewrite existsb_exists. split.
  - intros (q & Hq & E). destruct (plugin_eqb_spec p q); [subst; exact Hq|discriminate].
  - intros HI. exists p. split; [exact HI|]. destruct (plugin_eqb_spec p p); congruence.
Qed.
Lemma plugin_list_all p : In p plugin_list.
Proof. destruct p; cbn; tauto. Qed.
Lemma known_name_mapping s : known_name s = dget s plugin_mapping.
Proof. reflexivity. Qed.
Lemma to_plugin_known a p : known a = Some p -> to_plugin a = (AClass p, Ok p).
Proof.
  destruct a as [s|q|]; cbn [known]; [|intros [= ->]|discriminate].
  - unfold to_plugin. intros E. rewrite known_name_mapping in E. rewrite E.
    rewrite (proj2 (plugin_in_In p plugin_list) (plugin_list_all p)). reflexivity.
  - unfold to_plugin. rewrite (proj2 (plugin_in_In p plugin_list) (plugin_list_all p)). reflexivity.
Qed.
Lemma to_plugin_unknown a : known a = None -> to_plugin a = (a, Err AssertionError).
Proof.
  destruct a as [s|q|]; cbn [known]; [|discriminate|reflexivity].
  unfold to_plugin. intros E. rewrite known_name_mapping in E. rewrite E. reflexivity.
Qed.
Lemma to_plugins_loop_ok l ps : map known l = map Some ps -> to_plugins_loop l = (map AClass ps, Ok ps).
Proof.
  revert ps. induction l as [|a l IH]; intros [|p ps] E; cbn [map] in E; try discriminate; [reflexivity|].
  injection E as E1 E2. cbn [to_plugins_loop]. rewrite (to_plugin_known a p E1), (IH ps E2). reflexivity.
Qed.
Lemma to_plugins_loop_bad l1 a l2 ps : map known l1 = map Some ps -> known a = None ->
  to_plugins_loop (l1 ++ a :: l2) = (map AClass ps ++ a :: l2, Err AssertionError).
Proof.
  revert ps. induction l1 as [|b l IH]; intros [|p ps] E EA; cbn [map] in E; try discriminate.
  - cbn [app to_plugins_loop map]. rewrite (to_plugin_unknown a EA). reflexivity.
  - injection E as E1 E2. cbn [app to_plugins_loop map]. rewrite (to_plugin_known b p E1), (IH ps E2 EA). reflexivity.
Qed.
(** every list either consists of known plugins or has a first unknown one *)
Lemma known_split l : (exists ps, map known l = map Some ps) \/
  (exists l1 a l2 ps, l = l1 ++ a :: l2 /\ map known l1 = map Some ps /\ known a = None).
Proof.
  induction l as [|a l IH]; [left; exists []; reflexivity|]. destruct (known a) as [p|] eqn:E.
  - destruct IH as [(ps & Hps)|(l1 & b & l2 & ps & -> & Hps & Hb)].
    + left. exists (p :: ps). cbn [map]. rewrite E, Hps. reflexivity.
    + right. exists (a :: l1), b, l2, (p :: ps). cbn [map app]. rewrite E, Hps. auto.
  - right. exists [], a, l, []. auto.
Qed.
Lemma reorder_in p l : In p (reorder_plugins l) <-> In p l.
Proof. unfold reorder_plugins. rewrite filter_In, plugin_in_In. split; [tauto|]. intros HI. split; [apply plugin_list_all|exact HI]. Qed.
Lemma reorder_sorted l : in_order (reorder_plugins l).
Proof.
  unfold reorder_plugins, plugin_list. cbn [filter].
  destruct (plugin_in PLog l), (plugin_in PMean l), (plugin_in PVariance l), (plugin_in PCovariance l), (plugin_in PCorrectedEigval l);
    cbn; repeat constructor.
Qed.
(** strictly increasing ranks determine the list *)
Lemma in_order_unique l l' : in_order l -> in_order l' -> (forall p, In p l <-> In p l') -> l = l'.
Proof.
  revert l'. induction l as [|p l IH]; intros [|q l'] S1 S2 HE.
  - reflexivity.
  - exfalso. apply (proj2 (HE q)). left. reflexivity.
  - exfalso. apply (proj1 (HE p)). left. reflexivity.
  - apply Sorted.StronglySorted_inv in S1 as [S1 F1]. apply Sorted.StronglySorted_inv in S2 as [S2 F2].
    rewrite Forall_forall in F1, F2.
    assert (p = q).
    { destruct (proj1 (HE p) (or_introl eq_refl)) as [E|Hp]; [congruence|].
      destruct (proj2 (HE q) (or_introl eq_refl)) as [E|Hq]; [congruence|].
      specialize (F2 _ Hp). specialize (F1 _ Hq). unfold Nat.lt in *. lia. }
    subst q. f_equal. apply IH; auto. intros r. split; intros Hr.
    + destruct (proj1 (HE r) (or_intror Hr)) as [E|Hr']; [|exact Hr']. subst r. specialize (F1 _ Hr). lia.
    + destruct (proj2 (HE r) (or_intror Hr)) as [E|Hr']; [|exact Hr']. subst r. specialize (F2 _ Hr). lia.
Qed.

Lemma to_plugins_ok l : all_known l -> exists ps, requested l ps /\ map known l = map Some (map_known l) /\ to_plugins l false = (map AClass (map_known l), Ok ps).
Proof.
  intros HA. destruct (known_split l) as [(ps & Hps)|(l1 & a & l2 & ps & -> & _ & Ha)].
  - assert (Em : map_known l = ps).
    { unfold map_known. clear HA. revert ps Hps. induction l as [|a l IH]; intros [|p ps] E; cbn [map] in E; try discriminate; [reflexivity|].
      injection E as E1 E2. cbn [map concat]. rewrite E1. cbn [app]. rewrite (IH ps E2). reflexivity. }
    exists (reorder_plugins ps). repeat split.
    + apply reorder_sorted.
    + rewrite reorder_in. intros HI. assert (HS : In (Some p) (map Some ps)) by (apply in_map; exact HI).
      rewrite <- Hps in HS. apply in_map_iff in HS as (a & E & Ha). exists a. auto.
    + rewrite reorder_in. intros (a & Ha & E). apply (in_map known) in Ha. rewrite Hps, E in Ha.
      apply in_map_iff in Ha as (q & [= ->] & Hq). exact Hq.
    + rewrite Em. exact Hps.
    + unfold to_plugins. rewrite (to_plugins_loop_ok l ps Hps), Em. reflexivity.
  - exfalso. apply (HA a); [apply in_elt|exact Ha].
Qed.
Lemma to_plugins_bad l : ~ all_known l -> exists l', to_plugins l false = (l', Err AssertionError).
Proof.
  intros HN. destruct (known_split l) as [(ps & Hps)|(l1 & a & l2 & ps & -> & Hps & Ha)].
  - exfalso. apply HN. intros a Ha E. apply (in_map known) in Ha. rewrite Hps, E in Ha. apply in_map_iff in Ha as (q & Eq & _). discriminate.
  - unfold to_plugins. rewrite (to_plugins_loop_bad l1 a l2 ps Hps Ha). eauto.
Qed.
Lemma all_known_dec l : all_known l \/ ~ all_known l.
Proof.
  induction l as [|a l [HA|HN]].
  - left. intros a [].
  - destruct (known a) eqn:E.
    + left. intros b [<-|Hb]; [congruence|auto].
    + right. intros HA'. apply (HA' a); [left; reflexivity|exact E].
  - right. intros HA. apply HN. intros b Hb. apply HA. right. exact Hb.
Qed.
Lemma kw_get_put k k' l kw : (kw_get k' kw = [] -> l = []) -> kw_get k (kw_put k' l kw) = if String.eqb k k' then l else kw_get k kw.
Proof.
  unfold kw_get, kw_put, dmem. destruct (dget k' kw) as [l0|] eqn:E; intros HL.
  - rewrite dget_dset. cbn [eqb Eqb_string]. destruct (String.eqb k k'); reflexivity.
  - destruct (String.eqb_spec k k') as [->|N]; [|reflexivity]. rewrite E. symmetry. apply HL. reflexivity.
Qed.
Lemma map_known_nil l : l = [] -> map AClass (map_known l) = [].
Proof. intros ->. reflexivity. Qed.
Lemma known_AClass ps : map_known (map AClass ps) = ps.
Proof. unfold map_known. induction ps as [|p ps IH]; [reflexivity|]. cbn. rewrite IH. reflexivity. Qed.
Lemma all_known_AClass ps : all_known (map AClass ps).
Proof. intros a Ha. apply in_map_iff in Ha as (p & <- & _). discriminate. Qed.
Lemma map_known_in l p : In p (map_known l) <-> exists a, In a l /\ known a = Some p.
Proof.
  unfold map_known. rewrite in_concat. split.
  - intros (x & Hx & Hp). apply in_map_iff in Hx as (a & <- & Ha). exists a. split; [exact Ha|].
    destruct (known a); [destruct Hp as [->|[]]; reflexivity|destruct Hp].
  - intros (a & Ha & E). exists [p]. split; [|left; reflexivity]. apply in_map_iff. exists a. rewrite E. auto.
Qed.
Lemma requested_unique l l' ps ps' : requested l ps -> requested l' ps' ->
  (forall p, (exists a, In a l /\ known a = Some p) <-> (exists a, In a l' /\ known a = Some p)) -> ps = ps'.
Proof.
  intros [S1 E1] [S2 E2] HE. apply in_order_unique; auto. intros p. rewrite E1, E2. apply HE.
Qed.
Definition phases_of (kw : okwargs) : list (list parg) := [kw_get "forward" kw; kw_get "backward" kw; kw_get "grad" kw].
Lemma opt_setup_ok kw :
  (forall l, In l (phases_of kw) -> all_known l) ->
  exists o kw', opt_setup kw = (o, kw', Ok tt) /\
    requested (kw_get "forward" kw) (o_forward o) /\ requested (kw_get "backward" kw) (o_backward o) /\ requested (kw_get "grad" kw) (o_grad o) /\
    (forall k, kw_get k kw' = if mem k ["forward"; "backward"; "grad"]%string then map AClass (map_known (kw_get k kw)) else kw_get k kw).
Proof.
  intros HA. unfold phases_of in HA. unfold opt_setup.
  destruct (to_plugins_ok (kw_get "forward" kw) (HA _ (or_introl eq_refl))) as (f & Rf & _ & Ef). rewrite Ef.
  set (kw1 := kw_put "forward" _ kw).
  assert (G1 : forall k, kw_get k kw1 = if String.eqb k "forward" then map AClass (map_known (kw_get "forward" kw)) else kw_get k kw).
  { intros k. apply kw_get_put. apply map_known_nil. }
  assert (Gb : kw_get "backward" kw1 = kw_get "backward" kw) by (rewrite G1; reflexivity).
  destruct (to_plugins_ok (kw_get "backward" kw) (HA _ (or_intror (or_introl eq_refl)))) as (b & Rb & _ & Eb). rewrite Gb, Eb.
  set (kw2 := kw_put "backward" _ kw1).
  assert (G2 : forall k, kw_get k kw2 = if String.eqb k "backward" then map AClass (map_known (kw_get "backward" kw)) else kw_get k kw1).
  { intros k. apply kw_get_put. rewrite Gb. apply map_known_nil. }
  assert (Gg : kw_get "grad" kw2 = kw_get "grad" kw) by (rewrite G2, G1; reflexivity).
  destruct (to_plugins_ok (kw_get "grad" kw) (HA _ (or_intror (or_intror (or_introl eq_refl))))) as (g & Rg & _ & Eg). rewrite Gg, Eg.
  eexists _, _. split; [reflexivity|]. split; [exact Rf|]. split; [exact Rb|]. split; [exact Rg|].
  intros k. rewrite kw_get_put; [|rewrite Gg; apply map_known_nil]. rewrite G2, G1. cbn [mem eqb Eqb_string].
  destruct (String.eqb_spec k "grad") as [->|N1]; [reflexivity|].
  destruct (String.eqb_spec k "backward") as [->|N2]; [reflexivity|].
  destruct (String.eqb_spec k "forward") as [->|N3]; reflexivity.
Qed.
Lemma setup_known kw o kw' : opt_setup kw = (o, kw', Ok tt) -> forall l, In l (phases_of kw) -> all_known l.
Proof.
  intros E.  unfold opt_setup in E.
    destruct (all_known_dec (kw_get "forward" kw)) as [A1|N1].
    2: { destruct (to_plugins_bad _ N1) as (l' & El). rewrite El in E. discriminate E. }
    destruct (to_plugins_ok _ A1) as (f & _ & _ & Ef). rewrite Ef in E.
    assert (Gb : kw_get "backward" (kw_put "forward" (map AClass (map_known (kw_get "forward" kw))) kw) = kw_get "backward" kw).
    { rewrite kw_get_put by apply map_known_nil. reflexivity. }
    rewrite Gb in E.
    destruct (all_known_dec (kw_get "backward" kw)) as [A2|N2].
    2: { destruct (to_plugins_bad _ N2) as (l' & El). rewrite El in E. discriminate E. }
    destruct (to_plugins_ok _ A2) as (b & _ & _ & Eb). rewrite Eb in E.
    rewrite kw_get_put in E by (rewrite Gb; apply map_known_nil). cbn [String.eqb Ascii.eqb Bool.eqb] in E.
    rewrite kw_get_put in E by apply map_known_nil. cbn [String.eqb Ascii.eqb Bool.eqb] in E.
    destruct (all_known_dec (kw_get "grad" kw)) as [A3|N3].
    2: { destruct (to_plugins_bad _ N3) as (l' & El). rewrite El in E. discriminate E. }
    intros l [<-|[<-|[<-|[]]]]; assumption. 
Qed.
Lemma setup_requested kw o kw' : opt_setup kw = (o, kw', Ok tt) -> requested (kw_get "grad" kw) (o_grad o).
Proof.
  intros E. destruct (opt_setup_ok kw (setup_known _ _ _ E)) as (o1 & kw1 & E1 & _ & _ & Rg & _). rewrite E in E1. injection E1 as <- <-. exact Rg.
Qed.
(** repeating the call with the rewritten lists gives the same options *)
Lemma opt_setup_again kw o kw' : opt_setup kw = (o, kw', Ok tt) -> exists kw'', opt_setup kw' = (o, kw'', Ok tt).
Proof.
  intros E.
  assert (HA := setup_known _ _ _ E).
  destruct (opt_setup_ok kw HA) as (o1 & kw1 & E1 & Rf & Rb & Rg & G). rewrite E in E1. injection E1 as <- <-.
  assert (G' : forall k, mem k ["forward"; "backward"; "grad"]%string = true -> kw_get k kw' = map AClass (map_known (kw_get k kw))).
  { intros k Hk. rewrite G, Hk. reflexivity. }
  destruct (opt_setup_ok kw') as (o2 & kw2 & E2 & Rf2 & Rb2 & Rg2 & _).
  { unfold phases_of. rewrite (G' "forward"%string), (G' "backward"%string), (G' "grad"%string) by reflexivity.
    intros l [<-|[<-|[<-|[]]]]; apply all_known_AClass. }
  exists kw2. rewrite E2. rewrite (G' "forward"%string eq_refl) in Rf2. rewrite (G' "backward"%string eq_refl) in Rb2. rewrite (G' "grad"%string eq_refl) in Rg2.
  assert (U : forall l ps ps', requested l ps -> requested (map AClass (map_known l)) ps' -> ps' = ps).
  { intros l ps ps' R1 R2. symmetry. apply (requested_unique _ _ _ _ R1 R2). intros p.
    rewrite <- !map_known_in, known_AClass. tauto. }
  f_equal. f_equal. destruct o as [f b g], o2 as [f2 b2 g2]. cbn in *.
  rewrite (U _ _ _ Rf Rf2), (U _ _ _ Rb Rb2), (U _ _ _ Rg Rg2). reflexivity.
Qed.
(** the first phase with an unknown plugin raises; earlier phases are set, later ones empty *)
Lemma opt_setup_bad_forward kw : ~ all_known (kw_get "forward" kw) ->
  exists kw', opt_setup kw = (Opts [] [] [], kw', Err AssertionError).
Proof. intros HN. unfold opt_setup. destruct (to_plugins_bad _ HN) as (l' & ->). eauto. Qed.
Lemma opt_setup_bad_backward kw : all_known (kw_get "forward" kw) -> ~ all_known (kw_get "backward" kw) ->
  exists f kw', requested (kw_get "forward" kw) f /\ opt_setup kw = (Opts f [] [], kw', Err AssertionError).
Proof.
  intros HA HN. unfold opt_setup. destruct (to_plugins_ok _ HA) as (f & Rf & _ & ->).
  rewrite kw_get_put by apply map_known_nil. cbn [String.eqb Ascii.eqb Bool.eqb].
  destruct (to_plugins_bad _ HN) as (l' & ->). eauto.
Qed.
Lemma opt_setup_bad_grad kw : all_known (kw_get "forward" kw) -> all_known (kw_get "backward" kw) -> ~ all_known (kw_get "grad" kw) ->
  exists f b kw', requested (kw_get "forward" kw) f /\ requested (kw_get "backward" kw) b /\ opt_setup kw = (Opts f b [], kw', Err AssertionError).
Proof.
  intros HA HB HN. unfold opt_setup. destruct (to_plugins_ok _ HA) as (f & Rf & _ & ->).
  assert (Gb : kw_get "backward" (kw_put "forward" (map AClass (map_known (kw_get "forward" kw))) kw) = kw_get "backward" kw).
  { rewrite kw_get_put by apply map_known_nil. reflexivity. }
  rewrite Gb. destruct (to_plugins_ok _ HB) as (b & Rb & _ & ->).
  rewrite kw_get_put by (rewrite Gb; apply map_known_nil). cbn [String.eqb Ascii.eqb Bool.eqb].
  rewrite kw_get_put by apply map_known_nil. cbn [String.eqb Ascii.eqb Bool.eqb].
  destruct (to_plugins_bad _ HN) as (l' & ->). eauto 6.
Qed.
