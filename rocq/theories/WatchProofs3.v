(** LogIX.watch on module trees; LoRA calls without a model. *)
From Verif Require Import Py PyStr Field Tensor ModelGrad Monad ModelState ModelMmap ModelSaver ModelLogger ModelModules ModelLora SpecLora SpecWatch LogProofs1 LoraProofs1 LoraProofs2 LoraProofs3 LoraProofs4 LoraProofs5 LoraProofs6 LoraProofs7 StateProofs11 WatchProofs1.
Local Open Scope nat_scope.

Lemma in_watch_list tf nf root i : In i (watch_list tf nf root) <-> to_track tf nf root i.
Proof.
  unfold watch_list. rewrite filter_In, module_check_spec. unfold to_track, selected, has_bottleneck. rewrite is_lora_spec. tauto.
Qed.
Lemma check_false tf nf root i : In i (named_modules root) -> (module_check i tf nf (is_lora root) = false <-> ~ to_track tf nf root i).
Proof.
  intros Hi. rewrite <- in_watch_list. unfold watch_list. rewrite filter_In. destruct (module_check i tf nf (is_lora root)); intuition congruence.
Qed.
Lemma fold_names_get (l : list item) : forall (d : dict mid string) m, NoDup (map iid l) ->
  (forall i, In i l -> iid i = m -> dget m (fold_left (fun d p => dset (snd p) (fst p) d) (map (fun i => (i_name i, t_id (i_mod i))) l) d) = Some (i_name i)) /\
  ((forall i, In i l -> iid i <> m) -> dget m (fold_left (fun d p => dset (snd p) (fst p) d) (map (fun i => (i_name i, t_id (i_mod i))) l) d) = dget m d).
Proof.
  induction l as [|j l IH]; intros d m ND; cbn [map fold_left fst snd]; [split; [intros i []|reflexivity]|].
  cbn [map] in ND. apply NoDup_cons_iff in ND as [N ND]. destruct (IH (dset (t_id (i_mod j)) (i_name j) d) m ND) as [I1 I2]. split.
  - intros i [->|Hi] Ei; [|apply I1; assumption]. rewrite I2.
    + rewrite <- Ei. apply dget_dset_eq.
    + intros k Hk Ek. apply N. apply in_map_iff. exists k. split; [congruence|exact Hk].
  - intros A. rewrite I2 by (intros i Hi; apply A; right; exact Hi). apply dget_dset_neq. intros X. apply (A j); [left; reflexivity|symmetry; exact X].
Qed.

Section P.
  Context {F : Type} `{OField F}.
  Notation tensor := (tensor F).
  Notation lm := (@lm F).
  Context (rnd : mid -> list nat -> F) (svd : tensor -> res tensor).

  Lemma watch_tree root tf nf n (s s' : lm) o : tree_ok root n -> lm_watch root tf nf s = (s', o) ->
    let tf' := chosen tf (lm_tf s) in let nf' := chosen nf (lm_nf s) in
    lm_root s' = Some root /\ lm_tf s' = tf' /\ lm_nf s' = nf' /\ lm_w s' = lm_w s /\
    (exists l, x_mods (lm_x s') = x_mods (lm_x s) ++ map (fun i => t_id (i_mod i)) l /\ NoDup (map (fun i => t_id (i_mod i)) l) /\ forall i, In i l <-> to_track tf' nf' root i) /\
    (forall m name, dget m (x_names (lm_x s')) = Some name <->
       (exists i, to_track tf' nf' root i /\ t_id (i_mod i) = m /\ i_name i = name) \/
       ((forall i, to_track tf' nf' root i -> t_id (i_mod i) <> m) /\ dget m (x_names (lm_x s)) = Some name)) /\
    (forall p, In p (lm_frozen s') <-> In p (lm_frozen s) \/
       exists i, In i (named_modules root) /\ t_kids (i_mod i) = [] /\ In p (t_params (i_mod i)) /\ ~ to_track tf' nf' root i).
  Proof.
    intros OK E tf' nf'. apply lm_watch_run in E as (R1 & R2 & R3 & R4 & R5 & R6 & R7 & R8 & R9 & R10 & R11). fold tf' nf' in R4, R5, R9, R10, R11.
    destruct (named_modules_spec _ _ OK) as (ND & Vis & Sp).
    assert (NDw : NoDup (map iid (watch_list tf' nf' root))) by (apply nodup_filter, ND).
    do 4 (split; [assumption|]). split; [exists (watch_list tf' nf' root); split; [exact R10|]; split; [exact NDw|intros i; apply in_watch_list]|]. split.
    - intros m name. rewrite R11. destruct (fold_names_get (watch_list tf' nf' root) (x_names (lm_x s)) m NDw) as [G1 G2].
      destruct (in_dec Nat.eq_dec m (map iid (watch_list tf' nf' root))) as [I|I].
      + apply in_map_iff in I as (i & Ei & Hi). rewrite (G1 i Hi Ei). apply in_watch_list in Hi as Ti. split.
        * intros [= <-]. left. exists i. auto.
        * intros [(j & Tj & Ej & <-)|(A & _)]; [|exfalso; exact (A i Ti Ei)]. f_equal. apply in_watch_list in Tj.
          specialize (G1 j Tj Ej). destruct (fold_names_get (watch_list tf' nf' root) (x_names (lm_x s)) m NDw) as [G1' _]. rewrite (G1' i Hi Ei) in G1. injection G1 as ->. reflexivity.
      + assert (A : forall i, In i (watch_list tf' nf' root) -> iid i <> m) by (intros i Hi X; apply I; apply in_map_iff; eauto).
        rewrite (G2 A). split.
        * intros X. right. split; [|exact X]. intros i Ti. apply A. apply in_watch_list, Ti.
        * intros [(i & Ti & Ei & _)|(_ & X)]; [exfalso; apply (A i); [apply in_watch_list, Ti|exact Ei]|exact X].
    - intros p. rewrite R9, watch_item_in. split; (intros [X|(i & X)]; [left; exact X|right; exists i]).
      + destruct X as (Hi & Hc & Hk & Hp). rewrite (check_false tf' nf' root i Hi) in Hc. auto.
      + destruct X as (Hi & Hk & Hp & Hc). rewrite <- (check_false tf' nf' root i Hi) in Hc. auto.
  Qed.
  Lemma watch_outcome root tf nf (s : lm) d : mem "model_module"%string (st_states (x_state (lm_x s))) = true -> dget "model_module" (attrs (x_state (lm_x s))) = Some (Node d) ->
    snd (lm_watch root tf nf s) = (if is_nil (watch_list (chosen tf (lm_tf s)) (chosen nf (lm_nf s)) root) && is_nil (x_names (lm_x s)) then Err TypeError else Ok tt) /\
    (watch_list (chosen tf (lm_tf s)) (chosen nf (lm_nf s)) root = [] -> x_names (lm_x s) = [] -> lm_x (fst (lm_watch root tf nf s)) = lm_x s).
  Proof.
    intros Em Ed. unfold lm_watch, on_x. rewrite !or_chosen. cbn [lm_tf lm_nf lm_set_frozen lm_set_filters lm_set_model lm_x lm_frozen].
    fold (watch_list (chosen tf (lm_tf s)) (chosen nf (lm_nf s)) root). set (L := watch_list (chosen tf (lm_tf s)) (chosen nf (lm_nf s)) root).
    match goal with |- context [watch ?w ?ms ?x] => generalize w as ws end. intros ws. set (ms := map (fun i => (i_name i, t_id (i_mod i))) L).
    unfold watch. rewrite (sbind_run _ _ _ _ _ (add_modules_run ms (lm_x s))). set (y := with_mods (lm_x s) _ _). rewrite (sbind_run _ _ y y y) by reflexivity. cbv zeta.
    assert (En : x_names y = fold_left (fun d p => dset (snd p) (fst p) d) ms (x_names (lm_x s))) by reflexivity.
    assert (Z : is_nil L && is_nil (x_names (lm_x s)) = is_nil (x_names y)).
    { rewrite En. unfold ms. clear. destruct L as [|i l]; cbn [map fold_left is_nil andb]; [reflexivity|]. symmetry.
      assert (G : forall (l : list (string * mid)) (d : dict mid string), d <> [] -> is_nil (fold_left (fun d p => dset (snd p) (fst p) d) l d) = false).
      { clear. induction l as [|p l IH]; intros d Nd; cbn [fold_left]; [destruct d; [contradiction|reflexivity]|]. apply IH. destruct d as [|[a b] d]; cbn [dset]; [discriminate|]. destruct (eqb _ _); discriminate. }
      apply G. destruct (x_names (lm_x s)) as [|[a b] d]; cbn [dset]; [discriminate|]. destruct (eqb _ _); discriminate. }
    rewrite Z. split.
    - destruct (x_names y) as [|[m0 n0] nms] eqn:Ey; cbn [map is_nil].
      + reflexivity.
      + unfold sbind at 1.
        match goal with |- context [set_state "model_module" "path" (VPath ?p)] => set (paths := p) end.
        match goal with |- context [set_state "model_module" "path_dim" (VDims ?p)] => set (dims := p) end.
        assert (ES : exists s', (set_state "model_module" "path" (VPath paths) ;; set_state "model_module" "path_dim" (VDims dims)) (x_state y) = (s', Ok tt)).
        { change (x_state y) with (x_state (lm_x s)). pose proof (set_state_ok (x_state (lm_x s)) "model_module" "path" (VPath paths)) as E1. rewrite Em, Ed in E1.
          eexists. rewrite (sbind_run _ _ _ _ _ E1). rewrite set_state_ok. cbn [st_states with_attrs attrs]. rewrite Em, dget_dset_eq. reflexivity. }
        destruct ES as (s' & ->). reflexivity.
    - intros EL EN. rewrite EL, EN in Z. cbn [is_nil andb] in Z. destruct (x_names y) as [|p l] eqn:Ey; [|discriminate Z]. cbn [map].
      unfold sfail. cbn [fst lm_x lm_set_x]. unfold y, ms. rewrite EL, EN. cbn [map fold_left]. rewrite app_nil_r. rewrite <- EN. destruct (lm_x s); reflexivity.
  Qed.
  Lemma watch_ok root tf nf (s : lm) d : mem "model_module"%string (st_states (x_state (lm_x s))) = true -> dget "model_module" (attrs (x_state (lm_x s))) = Some (Node d) ->
    (exists i, to_track (chosen tf (lm_tf s)) (chosen nf (lm_nf s)) root i) \/ x_names (lm_x s) <> [] ->
    exists s', lm_watch root tf nf s = (s', Ok tt).
  Proof.
    intros Em Ed HX. destruct (watch_outcome root tf nf s d Em Ed) as [E _]. destruct (lm_watch root tf nf s) as [s' o]. exists s'. f_equal. cbn in E. rewrite E.
    destruct HX as [(i & Ti)|N].
    - apply in_watch_list in Ti. destruct (watch_list _ _ root); [destruct Ti|reflexivity].
    - destruct (x_names (lm_x s)); [contradiction|]. cbn. rewrite Bool.andb_false_r. reflexivity.
  Qed.
  Lemma watch_nothing root tf nf (s : lm) d : mem "model_module"%string (st_states (x_state (lm_x s))) = true -> dget "model_module" (attrs (x_state (lm_x s))) = Some (Node d) ->
    (forall i, ~ to_track (chosen tf (lm_tf s)) (chosen nf (lm_nf s)) root i) -> x_names (lm_x s) = [] ->
    exists s', lm_watch root tf nf s = (s', Err TypeError) /\ lm_x s' = lm_x s.
  Proof.
    intros Em Ed NT EN. destruct (watch_outcome root tf nf s d Em Ed) as [E Ex].
    assert (EL : watch_list (chosen tf (lm_tf s)) (chosen nf (lm_nf s)) root = []).
    { destruct (watch_list (chosen tf (lm_tf s)) (chosen nf (lm_nf s)) root) as [|i l] eqn:EL; [reflexivity|]. exfalso. apply (NT i). apply in_watch_list. rewrite EL. left. reflexivity. }
    specialize (Ex EL EN). rewrite EL, EN in E. cbn in E. destruct (lm_watch root tf nf s) as [s' o]. exists s'. cbn in *. split; [congruence|exact Ex].
  Qed.
  (** a second watch *)
  Lemma watch_again root tf nf tf2 nf2 n (s s1 s2 : lm) o1 o2 i p : tree_ok root n ->
    lm_watch root tf nf s = (s1, o1) -> lm_watch root tf2 nf2 s1 = (s2, o2) ->
    let tf1 := chosen tf (lm_tf s) in let nf1 := chosen nf (lm_nf s) in
    to_track (chosen tf2 tf1) (chosen nf2 nf1) root i -> ~ to_track tf1 nf1 root i -> In p (t_params (i_mod i)) ->
    dget (t_id (i_mod i)) (x_names (lm_x s2)) = Some (i_name i) /\ In p (lm_frozen s2).
  Proof.
    intros OK E1 E2 tf1 nf1 T2 T1 Hp. pose proof (watch_tree _ _ _ _ _ _ _ OK E1) as (_ & Ft & Fn & _ & _ & _ & Z1). fold tf1 in Ft. fold nf1 in Fn.
    pose proof (watch_tree _ _ _ _ _ _ _ OK E2) as (_ & _ & _ & _ & _ & N2 & Z2). rewrite Ft, Fn in N2, Z2. split.
    - apply N2. left. exists i. auto.
    - apply Z2. left. apply Z1. right. exists i. destruct T2 as [[Hi [[Hk _] _]] _]. auto.
  Qed.
  (** ---- LoRA without a model ---- *)
  Lemma add_lora_no_model watch clear tf nf path cfg (s : lm) : lm_root s = None ->
    exists s', lm_add_lora rnd svd watch clear tf nf path cfg s = (s', Err AttributeError) /\ lm_root s' = None /\ lm_x s' = lm_x s /\ lm_w s' = lm_w s /\ lm_file s' = lm_file s.
  Proof.
    intros Er. unfold lm_add_lora. rewrite (sbind_run _ _ s (start cfg s) tt) by (rewrite start_eq; reflexivity).
    rewrite (sbind_run _ _ (start cfg s) (start cfg s) (start cfg s)) by reflexivity.
    assert (X : exists s', handler_add_lora rnd svd (or_filter tf (lm_tf (start cfg s))) (or_filter nf (lm_nf (start cfg s))) (start cfg s) = (s', Err AttributeError) /\ lm_root s' = None /\ lm_x s' = lm_x s /\ lm_w s' = lm_w s /\ lm_file s' = lm_file s).
    { unfold handler_add_lora. change (lm_handler (start cfg s)) with (Some (in_use (lm_handler s) cfg (lm_cfg s))). cbv beta iota. change (lm_x (start cfg s)) with (lm_x s).
      destruct (dget "covariance_state" _) as [cs|].
      - cbv zeta. match goal with |- context [lm_root ?q] => change (lm_root q) with (lm_root s) end. rewrite Er. eexists. split; [reflexivity|]. repeat split. exact Er.
      - eexists. split; [reflexivity|]. repeat split. exact Er. }
    destruct X as (s' & E & R). exists s'. split; [|exact R]. unfold sbind at 1. rewrite E. reflexivity.
  Qed.
  Lemma save_lora_no_model (s : lm) : lm_root s = None -> save_lora s = (s, Err AttributeError).
  Proof. intros Er. unfold save_lora. rewrite Er. reflexivity. Qed.
  Lemma all_ids_below u t : below u t -> In (t_id u) (all_ids t).
  Proof.
    induction 1 as [|t key c Hc B IH]; [destruct u; left; reflexivity|]. destruct t as [id k cls ps kids]. cbn [all_ids t_kids] in *. right. apply in_concat. exists (all_ids c). split; [|exact IH]. apply in_map_iff. exists (key, c). auto.
  Qed.
  Lemma save_lora_cycle (s : lm) root u : lm_root s = Some root -> inside u root -> t_id u = t_id root -> save_lora s = (s, Err RuntimeError).
  Proof.
    intros Er (key & c & Hc & B) Eu. unfold save_lora. rewrite Er. replace (mem (t_id root) (tl (all_ids root))) with true; [reflexivity|]. symmetry. apply mem_In.
    destruct root as [id k cls ps kids]. cbn [all_ids t_id tl t_kids] in *. rewrite <- Eu. apply in_concat. exists (all_ids c). split; [apply in_map_iff; exists (key, c); auto|apply all_ids_below, B].
  Qed.
End P.
