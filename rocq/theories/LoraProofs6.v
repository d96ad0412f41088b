(** Adding LoRA keeps the function of the model and the shape of the module tree. *)
From Verif Require Import Py PyStr Field Tensor ModelGrad Monad ModelState ModelMmap ModelSaver ModelLogger ModelModules ModelLora SpecLora LoraProofs1 LoraProofs2 LoraProofs3 LoraProofs4 LoraProofs5.
Local Open Scope nat_scope.

Lemma find_group_in name groups g : find_group name groups = Ok g ->
  match groups with None => True | Some gs => In g gs /\ substring g name end.
Proof.
  unfold find_group. destruct groups as [gs|]; [|auto]. destruct (filter (fun g => contains g name) gs) as [|x [|y l]] eqn:E; try discriminate.
  intros [= ->]. assert (X : In g (filter (fun g => contains g name) gs)) by (rewrite E; left; reflexivity).
  apply filter_In in X as [X1 X2]. split; [exact X1|]. apply contains_spec, X2.
Qed.
Lemma find_group_same groups n1 n2 g : find_group n1 groups = Ok g -> find_group n2 groups = Ok g -> same_group groups n1 n2.
Proof.
  intros E1 E2. apply find_group_in in E1. apply find_group_in in E2. unfold same_group. destruct groups as [gs|]; [|exact Logic.I].
  exists g. tauto.
Qed.

(** the nodes of a changed tree *)
Lemma replace_leaf f t : t_kids t = [] -> replace_kids f t = t.
Proof. destruct t as [id k cls ps kids]. cbn. intros ->. reflexivity. Qed.
Lemma below_replace f t : forall v, below v (replace_kids f t) ->
  (exists u, below u t /\ v = replace_kids f u) \/ exists u key c l, below u t /\ In (key, c) (t_kids u) /\ f (t_id u) key = Some l /\ below v l.
Proof.
  induction t as [id k cls ps kids IH] using mtree_ind'. intros v B. set (t := MT id k cls ps kids).
  apply below_inv in B as [->|(key & c' & Hk & B)]; [left; exists t; split; [constructor|reflexivity]|].
  cbn [replace_kids t_kids] in Hk. apply in_map_iff in Hk as ((key0 & c) & E & Hk). cbn [fst snd] in E. destruct (f id key0) as [l|] eqn:Ef; injection E as -> <-.
  - right. exists t, key, c, l. split; [constructor|]. auto.
  - rewrite Forall_forall in IH. destruct (IH (key, c) Hk v B) as [(u & Bu & ->)|(u & key1 & c1 & l & Bu & X)].
    + left. exists u. split; [|reflexivity]. eapply below_trans; [exact Bu|]. apply (below_child t key c Hk).
    + right. exists u, key1, c1, l. split; [|exact X]. eapply below_trans; [exact Bu|]. apply (below_child t key c Hk).
Qed.
Lemma replace_below f t u : below u t -> below (replace_kids f u) (replace_kids f t) \/ exists v key c l, below v t /\ below u c /\ In (key, c) (t_kids v) /\ f (t_id v) key = Some l /\ below l (replace_kids f t).
Proof.
  induction t as [id k cls ps kids IH] using mtree_ind'. intros B. set (t := MT id k cls ps kids) in *.
  apply below_inv in B as [->|(key & c & Hk & B)]; [left; constructor|]. rewrite Forall_forall in IH.
  assert (Hin : In (key, match f id key with Some l => l | None => replace_kids f c end) (t_kids (replace_kids f t))).
  { cbn [replace_kids t t_kids]. apply in_map_iff. exists (key, c). auto. }
  destruct (f id key) as [l|] eqn:Ef.
  - right. exists t, key, c, l. split; [constructor|]. split; [exact B|]. split; [exact Hk|]. split; [exact Ef|]. eapply below_child. exact Hin.
  - destruct (IH (key, c) Hk B) as [X|(v & key1 & c1 & l & Bv & Bu & X1 & X2 & X3)].
    + left. eapply below_trans; [exact X|]. eapply below_child. exact Hin.
    + right. exists v, key1, c1, l. split; [eapply below_trans; [exact Bv|]; apply (below_child t key c Hk)|]. split; [exact Bu|]. split; [exact X1|]. split; [exact X2|].
      eapply below_trans; [exact X3|]. eapply below_child. exact Hin.
Qed.

Section Tree.
  Context {F : Type} `{OField F}.
  Notation tensor := (tensor F).
  Notation lm := (@lm F).
  Notation weights := (dict mid (tensor * option tensor)).
  Context (rnd : mid -> list nat -> F) (svd : tensor -> res tensor).

  (** one LoRA module *)
  Lemma slot_item root n (OK : tree_ok root n) h tf nf (s s' : lm) fs sh' T : lora_done rnd svd h tf nf root s s' fs sh' T -> t_kids root <> [] ->
    forall u key c l, below u root -> In (key, c) (t_kids u) -> slots fs (t_id u) key = Some l ->
    exists i, In (i, l) fs /\ i_mod i = c /\ i_parent i = t_id u /\ i_key i = key /\ In i (named_modules root) /\ passes tf nf (i_name i) c.
  Proof.
    intros LD KR u key c l Bu Hk El. apply (slots_iff fs _ _ _ (ld_slots _ _ _ _ _ _ _ _ _ _ _ LD)) in El as (i & Hi & Ep & Ek).
    assert (X : In i (filter (fun i => module_check i tf nf false) (named_modules root))).
    { rewrite <- (ld_items _ _ _ _ _ _ _ _ _ _ _ LD). apply (in_map fst) in Hi. exact Hi. }
    apply filter_In in X as [Hn Hc]. apply module_check_spec in Hc as [Hp _].
    assert (Em : i_mod i = c).
    { destruct (named_modules_spec root _ OK) as (_ & _ & Sp). destruct (Sp i Hn) as (ks & P & _ & [(-> & _)|(ks' & v & -> & Pv & Iv & Hv)]).
      - exfalso. inversion P; subst. apply KR. destruct Hp as ((X & _) & _). congruence.
      - assert (v = u) by (apply (ok_same _ _ OK); [eapply path_below; exact Pv|exact Bu|congruence]). subst v.
        pose proof (proj1 (ok_keys _ _ OK u Bu)) as NK. apply (In_dget key) in Hk; [|exact NK]. rewrite Ek in Hv. apply (In_dget key) in Hv; [|exact NK]. congruence. }
    exists i. rewrite <- Em at 2. auto 10.
  Qed.
  (** the new tree *)
  Lemma new_nodes h tf nf root (s s' : lm) fs sh' T : tree_ok root (lm_next s) -> t_kids root <> [] ->
    lora_done rnd svd h tf nf root s s' fs sh' T ->
    forall v, below v (replace_kids (slots fs) root) ->
    (exists u, below u root /\ v = replace_kids (slots fs) u) \/
    (In v T /\ exists i l b n a cc, In (i, l) fs /\ added rnd svd h s s' sh' i l b n a cc /\
       (v = l \/ v = enc_of (lc_rank h) (i_mod i) a \/ v = b \/ v = dec_of (lc_rank h) (i_mod i) cc) /\ t_kids b = [] /\ (t_params b = [t_id b])).
  Proof.
    intros OK KR LD v B. apply below_replace in B as [B|(u & key & c & l & Bu & Hk & El & Bv)]; [left; exact B|].
    destruct (slot_item root _ OK h tf nf s s' fs sh' T LD KR u key c l Bu Hk El) as (i & Hi & Em & _ & _ & Hn & Hp).
    destruct (ld_added _ _ _ _ _ _ _ _ _ _ _ LD i l Hi) as (b & n & a & cc & Ad & Pt).
    pose proof (ad_layer _ _ _ _ _ _ _ _ _ _ _ _ Ad) as WL. pose proof (ad_eq _ _ _ _ _ _ _ _ _ _ _ _ Ad) as El2.
    assert (Kb : t_kids b = [] /\ t_params b = [t_id b]).
    { destruct (ad_group _ _ _ _ _ _ _ _ _ _ _ _ Ad) as (g & _ & G). destruct (lc_share h).
      - destruct (ld_made _ _ _ _ _ _ _ _ _ _ _ LD g b G) as (j & _ & _ & _ & _ & ->). unfold bottleneck. destruct (t_kind (i_mod j)); split; reflexivity.
      - destruct G as [_ ->]. unfold bottleneck. destruct (t_kind (i_mod i)); split; reflexivity. }
    assert (Ep : parts l = [l; enc_of (lc_rank h) (i_mod i) a; b; dec_of (lc_rank h) (i_mod i) cc]) by (rewrite El2; apply parts_around, WL).
    rewrite Ep in Pt.
    assert (R : forall v, In v [l; enc_of (lc_rank h) (i_mod i) a; b; dec_of (lc_rank h) (i_mod i) cc] -> In v T /\ exists i l b n a cc, In (i, l) fs /\ added rnd svd h s s' sh' i l b n a cc /\
       (v = l \/ v = enc_of (lc_rank h) (i_mod i) a \/ v = b \/ v = dec_of (lc_rank h) (i_mod i) cc) /\ t_kids b = [] /\ t_params b = [t_id b]).
    { intros v0 Hv0. split; [apply Pt, Hv0|]. exists i, l, b, n, a, cc. split; [exact Hi|]. split; [exact Ad|]. split; [|exact Kb]. cbn [In] in Hv0. intuition congruence. }
    assert (El3 := El2). rewrite lora_around_eq in El3 by exact WL.
    apply below_inv in Bv as [->|(key2 & c2 & Hk2 & Bv)]; [right; apply R; left; reflexivity|].
    rewrite El3 in Hk2. cbn [t_kids In] in Hk2. destruct Hk2 as [[= <- <-]|[[= <- <-]|[[= <- <-]|[[= <- <-]|[]]]]].
    - right. apply R. right. left. apply below_inv in Bv as [->|(? & ? & Hk3 & _)]; [reflexivity|]. exfalso. revert Hk3. unfold enc_of, wlayer in *. destruct (t_kind (i_mod i)); try contradiction; intros [].
    - right. apply R. right. right. left. apply below_inv in Bv as [->|(? & ? & Hk3 & _)]; [reflexivity|]. rewrite (proj1 Kb) in Hk3. destruct Hk3.
    - right. apply R. right. right. right. left. apply below_inv in Bv as [->|(? & ? & Hk3 & _)]; [reflexivity|]. exfalso. revert Hk3. unfold dec_of, wlayer in *. destruct (t_kind (i_mod i)); try contradiction; intros [].
    - left. assert (Kt : t_kids (i_mod i) = []) by (rewrite Em; apply Hp). apply below_inv in Bv as [->|(? & ? & Hk3 & _)]; [|rewrite Kt in Hk3; destruct Hk3].
      exists (i_mod i). split; [|symmetry; apply replace_leaf, Kt]. rewrite Em. eapply below_trans; [eapply below_child; exact Hk|exact Bu].
  Qed.
  Lemma new_tree_ok h tf nf root (s s' : lm) fs sh' T : tree_ok root (lm_next s) -> t_kids root <> [] ->
    lora_done rnd svd h tf nf root s s' fs sh' T -> tree_ok (replace_kids (slots fs) root) (lm_next s').
  Proof.
    intros OK KR LD. pose proof (new_nodes h tf nf root s s' fs sh' T OK KR LD) as NN. pose proof (ld_table _ _ _ _ _ _ _ _ _ _ _ LD) as TB. pose proof (ld_next _ _ _ _ _ _ _ _ _ _ _ LD) as L.
    constructor.
    - intros v Bv. destruct (NN v Bv) as [(u & Bu & ->)|(_ & i & l & b & n & a & cc & Hi & Ad & Hv & Kb & _)].
      + rewrite replace_kids_keys. apply (ok_keys _ _ OK u Bu).
      + pose proof (ad_layer _ _ _ _ _ _ _ _ _ _ _ _ Ad) as WL. pose proof (ad_eq _ _ _ _ _ _ _ _ _ _ _ _ Ad) as El.
        destruct Hv as [->|[->|[->| ->]]].
        * rewrite El, lora_around_eq by exact WL. cbn [t_kids map fst]. unfold base_key. split.
          -- destruct (t_kind (i_mod i)); repeat constructor; cbn; intuition discriminate.
          -- cbn. destruct (t_kind (i_mod i)); intuition discriminate.
        * replace (t_kids _) with (@nil (string * mtree)); [split; [constructor|intros []]|]. unfold enc_of, wlayer in *. destruct (t_kind (i_mod i)); try contradiction; reflexivity.
        * rewrite Kb. split; [constructor|intros []].
        * replace (t_kids _) with (@nil (string * mtree)); [split; [constructor|intros []]|]. unfold dec_of, wlayer in *. destruct (t_kind (i_mod i)); try contradiction; reflexivity.
    - intros v1 v2 B1 B2 E. destruct (NN v1 B1) as [(u1 & Bu1 & ->)|(I1 & _)]; destruct (NN v2 B2) as [(u2 & Bu2 & ->)|(I2 & _)].
      + rewrite !replace_id in E. f_equal. apply (ok_same _ _ OK); assumption.
      + rewrite replace_id in E. apply (tb_lt _ _ _ _ TB) in I2. pose proof (proj1 (ok_ids _ _ OK u1 Bu1)). lia.
      + rewrite replace_id in E. apply (tb_lt _ _ _ _ TB) in I1. pose proof (proj1 (ok_ids _ _ OK u2 Bu2)). lia.
      + apply (tb_same _ _ _ _ TB); assumption.
    - intros v Bv. destruct (NN v Bv) as [(u & Bu & ->)|(Iv & i & l & b & n & a & cc & Hi & Ad & Hv & _ & Pb)].
      + rewrite replace_id. destruct (replace_parts (slots fs) u) as (_ & _ & ->). destruct (ok_ids _ _ OK u Bu) as [X1 X2]. split; [lia|]. intros p Hp. apply X2 in Hp. lia.
      + split; [apply (tb_lt _ _ _ _ TB), Iv|]. pose proof (ad_layer _ _ _ _ _ _ _ _ _ _ _ _ Ad) as WL. pose proof (ad_eq _ _ _ _ _ _ _ _ _ _ _ _ Ad) as El.
        apply (tb_lt _ _ _ _ TB) in Iv. destruct Hv as [->|[->|[->| ->]]]; intros p.
        * rewrite El, lora_around_eq by exact WL. intros [].
        * pose proof (ad_a _ _ _ _ _ _ _ _ _ _ _ _ Ad) as [_ X]. unfold enc_of, wlayer in *. destruct (t_kind (i_mod i)); try contradiction; intros [<-|[]]; exact X.
        * rewrite Pb. intros [<-|[]]. lia.
        * pose proof (ad_c _ _ _ _ _ _ _ _ _ _ _ _ Ad) as [_ X]. unfold dec_of, wlayer in *. destruct (t_kind (i_mod i)); try contradiction; intros [<-|[]]; exact X.
  Qed.
  Lemma new_weights h tf nf root (s s' : lm) fs sh' T : tree_ok root (lm_next s) -> t_kids root <> [] ->
    lora_done rnd svd h tf nf root s s' fs sh' T -> layer_weights (lm_w s) root -> layer_weights (lm_w s') (replace_kids (slots fs) root).
  Proof.
    intros OK KR LD LW v Bv Kv. destruct (new_nodes h tf nf root s s' fs sh' T OK KR LD v Bv) as [(u & Bu & ->)|(_ & i & l & b & n & a & cc & Hi & Ad & Hv & Kb & _)].
    - assert (Ku : t_kids u = []) by (pose proof (replace_kids_keys (slots fs) u) as X; rewrite Kv in X; destruct (t_kids u); [reflexivity|discriminate X]).
      rewrite replace_leaf by exact Ku. pose proof (LW u Bu Ku) as X. rewrite (ld_w _ _ _ _ _ _ _ _ _ _ _ LD) by exact (proj1 (ok_ids _ _ OK u Bu)). exact X.
    - pose proof (ad_layer _ _ _ _ _ _ _ _ _ _ _ _ Ad) as WL. pose proof (ad_eq _ _ _ _ _ _ _ _ _ _ _ _ Ad) as El.
      destruct Hv as [->|[->|[->| ->]]].
      + rewrite El, lora_around_eq in Kv by exact WL. discriminate Kv.
      + destruct (ad_wa _ _ _ _ _ _ _ _ _ _ _ _ Ad) as (wa & Ewa & Swa). rewrite enc_id by exact WL.
        destruct (t_kind (enc_of (lc_rank h) (i_mod i) a)); try exact Logic.I; exists wa, None; split; assumption.
      + destruct (t_kind b); try exact Logic.I; exists (tzeros (weight_shape b)), None; (split; [exact (ad_wb _ _ _ _ _ _ _ _ _ _ _ _ Ad)|reflexivity]).
      + destruct (ad_wc _ _ _ _ _ _ _ _ _ _ _ _ Ad) as (wc & Ewc & Swc). rewrite dec_id by exact WL.
        destruct (t_kind (dec_of (lc_rank h) (i_mod i) cc)); try exact Logic.I; exists wc, None; split; assumption.
  Qed.
End Tree.

Section P.
  Context {F : Type} `{OField F}.
  Notation tensor := (tensor F).
  Notation lm := (@lm F).
  Notation weights := (dict mid (tensor * option tensor)).
  Context (rnd : mid -> list nat -> F) (svd : tensor -> res tensor).
  Context (usr : mid -> list (string * (tensor -> res tensor)) -> tensor -> res tensor).

  Lemma call_eq w id k cls ps kids :
    call usr w (MT id k cls ps kids) =
    match k, kids with
    | KOther, [(ka, a); (kb, b); (kc, c); (_, base)] =>
        if String.eqb ka "logix_lora_A" && String.eqb kb "logix_lora_B" && String.eqb kc "logix_lora_C" then
          fun x => let* r := call usr w base x in let* xa := call usr w a x in let* xb := call usr w b xa in let* xc := call usr w c xb in
                   let* d := expand_to xc (shape r) in tadd r d
        else usr id (map (fun nc => (fst nc, call usr w (snd nc))) kids)
    | KLinear _ _, [] => fun x => match dget id w with Some (m, b) => f_linear m b x | None => Err AttributeError end
    | KConv2d g, [] => fun x => match dget id w with Some (m, b) => f_conv2d g m b x | None => Err AttributeError end
    | _, _ => usr id (map (fun nc => (fst nc, call usr w (snd nc))) kids)
    end.
  Proof. reflexivity. Qed.
  Lemma call_weights w w' t x : t_kids t = [] -> dget (t_id t) w' = dget (t_id t) w -> call usr w' t x = call usr w t x.
  Proof.
    destruct t as [id k cls ps kids]. cbn [t_kids t_id]. intros -> E. rewrite !call_eq. destruct k; try reflexivity; rewrite E; reflexivity.
  Qed.
  Lemma call_replace (w w' : weights) f : calls_only usr -> forall t,
    (forall u, below u t -> t_kids u = [] -> dget (t_id u) w' = dget (t_id u) w) ->
    (forall u key c l, below u t -> In (key, c) (t_kids u) -> f (t_id u) key = Some l -> forall x, call usr w' l x = call usr w c x) ->
    forall x, call usr w' (replace_kids f t) x = call usr w t x.
  Proof.
    intros U. induction t as [id k cls ps kids IH] using mtree_ind'. intros W S x.
    set (g := fun nc : string * mtree => (fst nc, match f id (fst nc) with Some l => l | None => replace_kids f (snd nc) end)).
    assert (C : forall nc, In nc kids -> forall y, call usr w' (snd (g nc)) y = call usr w (snd nc) y).
    { intros [key c] Hk y. unfold g. cbn [fst snd]. destruct (f id key) as [l|] eqn:Ef; [apply (S (MT id k cls ps kids) key c l); [constructor|exact Hk|exact Ef]|].
      rewrite Forall_forall in IH. apply (IH (key, c) Hk).
      - intros u Bu. apply W. eapply below_trans; [exact Bu|]. apply (below_child (MT id k cls ps kids) key c Hk).
      - intros u k2 c2 l2 Bu. apply S. eapply below_trans; [exact Bu|]. apply (below_child (MT id k cls ps kids) key c Hk). }
    assert (O : usr id (map (fun nc => (fst nc, call usr w' (snd nc))) (map g kids)) x = usr id (map (fun nc => (fst nc, call usr w (snd nc))) kids) x).
    { apply U. rewrite map_map. clear - C. induction kids as [|nc kids IH]; cbn [map]; constructor.
      - split; [reflexivity|]. intros y. apply (C nc (or_introl eq_refl)).
      - apply IH. intros nc' Hn. apply C. right. exact Hn. }
    cbn [replace_kids]. fold g. rewrite !call_eq. clear IH S.
    destruct k as [i o| |c| |]; destruct kids as [|[k1 c1] [|[k2 c2] [|[k3 c3] [|[k4 c4] [|kc5 kids]]]]]; cbn [map g fst snd] in O |- *; try exact O;
      try (rewrite (W (MT id _ cls ps []) (below_refl _) eq_refl : dget id w' = dget id w); reflexivity).
    destruct (String.eqb k1 "logix_lora_A" && String.eqb k2 "logix_lora_B" && String.eqb k3 "logix_lora_C"); [|exact O].
    pose proof (C (k1, c1) (or_introl eq_refl)) as C1. pose proof (C (k2, c2) (or_intror (or_introl eq_refl))) as C2.
    pose proof (C (k3, c3) (or_intror (or_intror (or_introl eq_refl)))) as C3. pose proof (C (k4, c4) (or_intror (or_intror (or_intror (or_introl eq_refl))))) as C4.
    unfold g in C1, C2, C3, C4. cbn [fst snd] in C1, C2, C3, C4. rewrite C4. destruct (call usr w c4 x); [|reflexivity]. cbn [bind].
    rewrite C1. destruct (call usr w c1 x); [|reflexivity]. cbn [bind]. rewrite C2. destruct (call usr w c2 _); [|reflexivity]. cbn [bind]. rewrite C3. reflexivity.
  Qed.

  Lemma min_width r w : r <= w -> min r w = r.
  Proof. lia. Qed.
  Lemma lora_same h tf nf root (s s' : lm) fs sh' T i l b n a cc w0 : tree_ok root (lm_next s) ->
    lora_done rnd svd h tf nf root s s' fs sh' T -> In i (named_modules root) -> passes tf nf (i_name i) (i_mod i) ->
    added rnd svd h s s' sh' i l b n a cc ->
    w0 = lm_w s -> layer_weights w0 root -> undilated (i_mod i) ->
    (lc_share h = true -> forall j, In j (named_modules root) -> passes tf nf (i_name j) (i_mod j) -> lc_rank h <= width (i_mod j) /\
       (same_group (lc_groups h) (i_name i) (i_name j) -> same_class (i_mod i) (i_mod j))) ->
    forall x, call usr (lm_w s') l x = call usr w0 (i_mod i) x.
  Proof.
    intros OK LD Hn Hp Ad -> LW UD SH x. pose proof (ad_layer _ _ _ _ _ _ _ _ _ _ _ _ Ad) as WL.
    assert (Kt : t_kids (i_mod i) = []) by apply Hp.
    destruct (named_modules_spec root _ OK) as (_ & _ & Sp). destruct (Sp i Hn) as (ks & P & _).
    assert (Bt : below (i_mod i) root) by (eapply path_below; exact P).
    assert (Et : dget (t_id (i_mod i)) (lm_w s') = dget (t_id (i_mod i)) (lm_w s)) by exact (ld_w _ _ _ _ _ _ _ _ _ _ _ LD _ (proj1 (ok_ids _ _ OK _ Bt))).
    transitivity (call usr (lm_w s') (i_mod i) x); [|apply call_weights; assumption].
    assert (EB : exists bid, t_id b = bid /\ b = bottleneck (i_mod i) (min (lc_rank h) (width (i_mod i))) bid).
    { exists (t_id b). split; [reflexivity|]. destruct (ad_group _ _ _ _ _ _ _ _ _ _ _ _ Ad) as (g & Eg & G). destruct (lc_share h) eqn:Es; [|tauto].
      destruct (ld_made _ _ _ _ _ _ _ _ _ _ _ LD g b G) as (j & Hj & Hc & Egj & WLj & Eb). apply module_check_spec in Hc as [Hpj _].
      destruct (SH eq_refl i Hn Hp) as [Lw _]. destruct (SH eq_refl j Hj Hpj) as [_ Sc].
      specialize (Sc (find_group_same _ _ _ _ Eg Egj)). rewrite min_width by exact Lw. rewrite Eb at 1.
      unfold same_class in Sc. unfold bottleneck. destruct (t_kind (i_mod i)); try contradiction; destruct (t_kind (i_mod j)); try contradiction; reflexivity. }
    destruct EB as (bid & Ebid & Eb). pose proof (ad_wb _ _ _ _ _ _ _ _ _ _ _ _ Ad) as Wb. rewrite Ebid in Wb.
    destruct (ad_wa _ _ _ _ _ _ _ _ _ _ _ _ Ad) as (wa & Ewa & Swa). destruct (ad_wc _ _ _ _ _ _ _ _ _ _ _ _ Ad) as (wc & Ewc & Swc).
    rewrite (ad_eq _ _ _ _ _ _ _ _ _ _ _ _ Ad). pose proof (LW _ Bt Kt) as LWt. clear - Eb Wb Ewa Swa Ewc Swc Kt UD LWt Et WL.
    unfold wlayer in WL. unfold lora_around, enc_of, dec_of, bottleneck, undilated, weight_shape, width in *. destruct (t_kind (i_mod i)) as [ti to| |g| |] eqn:Ek; try contradiction.
    - subst b. cbn [t_kind] in *. destruct LWt as (v0 & b0 & Ev & Sv).
      apply (lora_linear_same usr (lm_w s') n [] [] "_linear" a bid cc (i_mod i) [] [a] [] [bid] [] [cc] ti to (min (lc_rank h) (min ti to)) wa wc x); try assumption.
      intros v bb Ev'. rewrite Et, Ev in Ev'. injection Ev' as <- <-. exact Sv.
    - subst b. destruct UD as [D1 D2].
      apply (lora_conv_same usr (lm_w s') n [] [] "_conv" a bid cc (i_mod i) [] [a] [] [bid] [] [cc] g (min (lc_rank h) (min (c_in g) (c_out g))) wa wc _ x Ewa Wb Ewc Ek Kt D1 D2).
  Qed.

  (** the function of every module is unchanged *)
  Lemma added_same h tf nf root (s s' : lm) fs sh' T : calls_only usr -> tree_ok root (lm_next s) -> t_kids root <> [] ->
    lora_done rnd svd h tf nf root s s' fs sh' T -> layer_weights (lm_w s) root ->
    (forall i, In i (named_modules root) -> passes tf nf (i_name i) (i_mod i) -> undilated (i_mod i)) ->
    (lc_share h = true -> forall i j, In i (named_modules root) -> passes tf nf (i_name i) (i_mod i) -> In j (named_modules root) -> passes tf nf (i_name j) (i_mod j) ->
       lc_rank h <= width (i_mod j) /\ (same_group (lc_groups h) (i_name i) (i_name j) -> same_class (i_mod i) (i_mod j))) ->
    forall u, below u root -> forall x, call usr (lm_w s') (replace_kids (slots fs) u) x = call usr (lm_w s) u x.
  Proof.
    intros U OK KR LD LW UD SH u Bu. apply call_replace; [exact U| |].
    - intros v Bv _. apply (ld_w _ _ _ _ _ _ _ _ _ _ _ LD). refine (proj1 (ok_ids _ _ OK v _)). eapply below_trans; eassumption.
    - intros v key c l Bv Hk El. destruct (slot_item rnd svd root _ OK h tf nf s s' fs sh' T LD KR v key c l) as (i & Hi & Em & _ & _ & Hn & Hp); [eapply below_trans; eassumption|exact Hk|exact El|].
      destruct (ld_added _ _ _ _ _ _ _ _ _ _ _ LD i l Hi) as (b & n & a & cc & Ad & _). intros x. subst c.
      eapply lora_same; try eassumption; [reflexivity|apply UD; assumption|]. intros Es j Hj Hpj. apply (SH Es i j); assumption.
  Qed.

End P.
