(** LoRAHandler.add_lora as a whole: the new tree and its functions. *)
From Verif Require Import Py PyStr Field Tensor ModelGrad Monad ModelState ModelMmap ModelSaver ModelLogger ModelModules ModelLora SpecLora LoraProofs1 LoraProofs2 LoraProofs3 LoraProofs4.
Local Open Scope nat_scope.

(** ---- module_check ---- *)
Lemma is_nil_true {A} (l : list A) : is_nil l = true <-> l = [].
Proof. destruct l; cbn; split; congruence. Qed.
Lemma isinst_spec t c : isinst t c = true <-> instance t c.
Proof.
  unfold isinst, instance. destruct c as [| | | |n]; destruct (t_kind t) eqn:E; try (split; [discriminate|]);
    try (split; [intros _; eauto; reflexivity|reflexivity]); try (intros (? & ? & X); discriminate); try (intros (? & X); discriminate); try (intros X; discriminate X).
  all: rewrite existsb_exists; split; [intros (x & Hx & Ex); apply Nat.eqb_eq in Ex; subst; exact Hx|intros X; exists n; rewrite Nat.eqb_refl; auto].
Qed.
Lemma module_check_spec i tf nf lora : module_check i tf nf lora = true <->
  passes tf nf (i_name i) (i_mod i) /\ (lora = true -> substring "logix_lora_B" (i_name i)).
Proof.
  unfold module_check, passes, layer. destruct (is_nil (t_kids (i_mod i))) eqn:Ek.
  2:{ cbn [negb]. split; [discriminate|]. intros (((X & _) & _) & _). rewrite X in Ek. discriminate. }
  apply is_nil_true in Ek. cbn [negb].
  assert (ES : existsb (isinst (i_mod i)) supported = true <-> match t_kind (i_mod i) with KLinear _ _ | KConv1d | KConv2d _ => True | _ => False end).
  { unfold supported. cbn [existsb isinst]. destruct (t_kind (i_mod i)); cbn; split; try tauto; discriminate. }
  destruct (existsb (isinst (i_mod i)) supported); cbn [negb].
  2:{ split; [discriminate|]. intros (((_ & X) & _) & _). apply ES in X. discriminate. }
  assert (ET : (negb (is_nil (flt tf)) && negb (existsb (isinst (i_mod i)) (flt tf))) = false <->
               match tf with Some (c :: l) => exists c', In c' (c :: l) /\ instance (i_mod i) c' | _ => True end).
  { destruct tf as [[|c l]|]; cbn [flt is_nil negb andb]; try tauto. rewrite Bool.negb_false_iff, existsb_exists. split; intros (c' & Hc & X); exists c'; (split; [exact Hc|apply isinst_spec, X]). }
  destruct (negb (is_nil (flt tf)) && negb (existsb (isinst (i_mod i)) (flt tf))).
  { split; [discriminate|]. intros ((_ & X & _) & _). apply ET in X. discriminate. }
  assert (EN : (negb (is_nil (flt nf)) && negb (existsb (fun k => contains k (i_name i)) (flt nf))) = false <->
               match nf with Some (k :: l) => exists k', In k' (k :: l) /\ substring k' (i_name i) | _ => True end).
  { destruct nf as [[|k l]|]; cbn [flt is_nil negb andb]; try tauto. rewrite Bool.negb_false_iff, existsb_exists. split; intros (k' & Hk & X); exists k'; (split; [exact Hk|apply contains_spec, X]). }
  destruct (negb (is_nil (flt nf)) && negb (existsb (fun k => contains k (i_name i)) (flt nf))).
  { split; [discriminate|]. intros ((_ & _ & X) & _). apply EN in X. discriminate. }
  destruct lora; cbn [andb].
  - destruct (contains "logix_lora_B" (i_name i)) eqn:Ec; cbn [negb]; (split; [|]).
    + intros _. split; [|intros _; apply contains_spec, Ec]. split; [|split; [apply ET; reflexivity|apply EN; reflexivity]]. split; [exact Ek|apply ES; reflexivity].
    + reflexivity.
    + discriminate.
    + intros (_ & X). specialize (X eq_refl). apply contains_spec in X. congruence.
  - split; [|reflexivity]. intros _. split; [|discriminate]. split; [|split; [apply ET; reflexivity|apply EN; reflexivity]]. split; [exact Ek|apply ES; reflexivity].
Qed.

(** ---- slots ---- *)
Definition slots (fs : list (item * mtree)) : slot := fold_left (fun f il => upd f (i_parent (fst il)) (i_key (fst il)) (snd il)) fs no_slot.
Definition islot (i : item) : mid * string := (i_parent i, i_key i).
Lemma upd_get f p k l p' k' : upd f p k l p' k' = if (p' =? p) && String.eqb k' k then Some l else f p' k'.
Proof. reflexivity. Qed.
Lemma slots_from fs : forall f p k l, fold_left (fun f il => upd f (i_parent (fst il)) (i_key (fst il)) (snd il)) fs f p k = Some l ->
  f p k = Some l \/ exists i, In (i, l) fs /\ i_parent i = p /\ i_key i = k.
Proof.
  induction fs as [|[i l0] fs IH]; intros f p k l; cbn [fold_left fst snd]; [auto|]. intros E. apply IH in E as [E|(j & Hj & E)]; [|right; exists j; split; [right; exact Hj|exact E]].
  rewrite upd_get in E. destruct ((p =? i_parent i) && String.eqb k (i_key i)) eqn:X; [|auto].
  apply andb_prop in X as [X1 X2]. apply Nat.eqb_eq in X1. apply String.eqb_eq in X2. injection E as <-. right. exists i. split; [left; reflexivity|auto].
Qed.
Lemma slots_keep fs : forall f p k, (forall i l, In (i, l) fs -> islot i <> (p, k)) ->
  fold_left (fun f il => upd f (i_parent (fst il)) (i_key (fst il)) (snd il)) fs f p k = f p k.
Proof.
  induction fs as [|[i l0] fs IH]; intros f p k N; cbn [fold_left fst snd]; [reflexivity|]. rewrite IH.
  - rewrite upd_get. destruct ((p =? i_parent i) && String.eqb k (i_key i)) eqn:X; [|reflexivity].
    apply andb_prop in X as [X1 X2]. apply Nat.eqb_eq in X1. apply String.eqb_eq in X2. exfalso. apply (N i l0); [left; reflexivity|]. unfold islot. congruence.
  - intros j l Hj. apply (N j l). right. exact Hj.
Qed.
Lemma slots_in fs i l : NoDup (map (fun il => islot (fst il)) fs) -> In (i, l) fs -> slots fs (i_parent i) (i_key i) = Some l.
Proof.
  unfold slots. generalize no_slot as f. induction fs as [|[j l0] fs IH]; intros f ND; [intros []|]. cbn [map fst] in ND. inversion ND as [|? ? Nj NDr]; subst.
  intros [[= -> ->]|Hin]; cbn [fold_left fst snd]; [|apply IH; assumption].
  rewrite slots_keep.
  - rewrite upd_get, Nat.eqb_refl, String.eqb_refl. reflexivity.
  - intros j l' Hj E. apply Nj. change (i_parent i, i_key i) with (islot i) in E. rewrite <- E. apply in_map_iff. exists (j, l'). auto.
Qed.
Lemma slots_iff fs p k l : NoDup (map (fun il => islot (fst il)) fs) ->
  slots fs p k = Some l <-> exists i, In (i, l) fs /\ i_parent i = p /\ i_key i = k.
Proof.
  intros ND. split.
  - intros E. apply slots_from in E as [E|E]; [discriminate|exact E].
  - intros (i & Hi & <- & <-). apply slots_in; assumption.
Qed.
Lemma put_all_replace root n lo : tree_ok root n -> forall fs f,
  (forall i l, In (i, l) fs -> exists u, below u root /\ t_id u = i_parent i /\ In (i_key i) (map fst (t_kids u))) ->
  (forall i l p, In (i, l) fs -> (exists u, below u root /\ t_id u = p /\ t_kids u <> []) -> ~ In p (all_ids l)) ->
  (forall p k l p', f p k = Some l -> (exists u, below u root /\ t_id u = p' /\ t_kids u <> []) -> ~ In p' (all_ids l)) -> lo <= n ->
  put_all fs (replace_kids f root) = replace_kids (fold_left (fun f il => upd f (i_parent (fst il)) (i_key (fst il)) (snd il)) fs f) root.
Proof.
  intros OK. induction fs as [|[i l] fs IH]; intros f P N Nf L; [reflexivity|].
  cbn [put_all fold_left fst snd]. destruct (P i l (or_introl eq_refl)) as (u & Bu & Iu & Ku).
  assert (Un : t_kids u <> []) by (intros X; rewrite X in Ku; destruct Ku).
  rewrite set_kid_replace.
  - apply IH; [intros j l' Hj; apply (P j l'); right; exact Hj|intros j l' p Hj; apply (N j l'); right; exact Hj| |exact L].
    intros p k l' p' E. rewrite upd_get in E. destruct (_ && _); [|apply (Nf p k l' p' E)]. injection E as <-. apply (N i l p'). left. reflexivity.
  - intros v Bv. apply (ok_keys _ _ OK v Bv).
  - intros v Bv Iv. assert (v = u) by (apply (ok_same _ _ OK); [exact Bv|exact Bu|congruence]). subst v. exact Ku.
  - intros v k c l' Bv Hk E. apply (Nf (t_id v) k l' (i_parent i) E). exists u. auto.
Qed.

Lemma filter_in_map {A} (g : A -> bool) (l : list A) x : In x (filter g l) -> In x l /\ g x = true.
Proof. apply filter_In. Qed.
Lemma nodup_islot root n (OK : tree_ok root n) (g : item -> bool) : (forall i, g i = true -> t_kids (i_mod i) = []) -> t_kids root <> [] ->
  NoDup (map islot (filter g (named_modules root))).
Proof.
  intros G KR. destruct (named_modules_spec root n OK) as (ND & _ & Sp).
  assert (X : forall l, (forall i, In i l -> In i (named_modules root)) -> NoDup (map iid l) -> NoDup (map islot (filter g l))).
  { induction l as [|i l IH]; intros Sub NDl; cbn [filter]; [constructor|]. cbn [map] in NDl. inversion NDl as [|? ? Ni NDr]; subst.
    assert (IHl : NoDup (map islot (filter g l))) by (apply IH; [intros j Hj; apply Sub; right; exact Hj|exact NDr]).
    destruct (g i) eqn:Gi; [|exact IHl]. cbn [map]. constructor; [|exact IHl]. intros Y. apply in_map_iff in Y as (j & Es & Hj). apply filter_In in Hj as [Hj Gj].
    apply Ni. apply in_map_iff. exists j. split; [|exact Hj].
    destruct (Sp i (Sub i (or_introl eq_refl))) as (ks & P & _ & [(-> & _)|(ks' & u & -> & Pu & Iu & Hu)]).
    { exfalso. inversion P; subst. apply KR. apply G in Gi. congruence. }
    destruct (Sp j (Sub j (or_intror Hj))) as (ks2 & P2 & _ & [(-> & _)|(ks2' & u2 & -> & Pu2 & Iu2 & Hu2)]).
    { exfalso. inversion P2; subst. apply KR. apply G in Gj. congruence. }
    unfold islot in Es. injection Es as E1 E2.
    assert (u2 = u) by (apply (ok_same _ _ OK); [eapply path_below; exact Pu2|eapply path_below; exact Pu|congruence]). subst u2.
    rewrite E2 in Hu2. unfold iid. f_equal. pose proof (proj1 (ok_keys _ _ OK u (path_below _ _ _ Pu))) as NK.
    apply (In_dget (i_key i)) in Hu; [|exact NK]. apply (In_dget (i_key i)) in Hu2; [|exact NK]. congruence. }
  apply X; [auto|exact ND].
Qed.

Section P.
  Context {F : Type} `{OField F}.
  Notation tensor := (tensor F).
  Notation lm := (@lm F).
  Notation weights := (dict mid (tensor * option tensor)).
  Context (rnd : mid -> list nat -> F) (svd : tensor -> res tensor).

  (** the configuration the handler works with *)
  Definition in_force (h : lora_cfg) (cs : nd (@sval F)) : lora_cfg :=
    if String.eqb (lc_init h) "pca" && match cs with Node [] => true | _ => false end then LoraCfg "random" (lc_rank h) (lc_share h) (lc_groups h) else h.

  Record lora_done (h : lora_cfg) (tf : option (list fclass)) (nf : option (list string)) (root : mtree) (s s' : lm)
    (fs : list (item * mtree)) (sh' : dict string mtree) (T : list mtree) : Prop := {
    ld_items : map fst fs = filter (fun i => module_check i tf nf false) (named_modules root);
    ld_slots : NoDup (map (fun il => islot (fst il)) fs);
    ld_root : lm_root s' = Some (replace_kids (slots fs) root);
    ld_next : lm_next s <= lm_next s';
    ld_w : forall x : mid, x < lm_next s -> dget x (lm_w s') = dget x (lm_w s);
    ld_made : forall g b, dget g sh' = Some b -> made h tf nf (named_modules root) g b;
    ld_apart : ForallOrdPairs (apart h) fs;
    ld_table : table (lm_next s) s' sh' T;
    ld_added : forall i l, In (i, l) fs -> exists b n a cc, added rnd svd h s s' sh' i l b n a cc /\ forall u, In u (parts l) -> In u T
  }.
  Lemma handler_done h cs tf nf root (s s' : lm) : lm_handler s = Some h -> dget "covariance_state" (attrs (x_state (lm_x s))) = Some cs ->
    lm_root s = Some root -> t_kids root <> [] -> tree_ok root (lm_next s) ->
    handler_add_lora rnd svd tf nf s = (s', Ok tt) ->
    keeps (lm_set_lora s (lm_cfg s) (Some (in_force h cs))) s' /\ exists fs sh' T, lora_done (in_force h cs) tf nf root s s' fs sh' T.
  Proof.
    intros Eh Ec Er Kr OK. unfold handler_add_lora. rewrite Eh, Ec. fold (in_force h cs). set (h' := in_force h cs). set (s0 := lm_set_lora s (lm_cfg s) (Some h')).
    change (lm_root s0) with (lm_root s). rewrite Er. destruct (is_nil (all_params root)); [discriminate|].
    intros E. assert (E' : (lora_loop rnd svd h' tf nf true (named_modules root) [] ;; sret tt) s0 = (s', Ok tt)).
    { destruct root as [rid rk rc rp [|kd kids]]; [exfalso; apply Kr; reflexivity|exact E]. }
    clear E. apply sbind_ok in E' as (s1 & sh' & E & E1). injection E1 as ->.
    apply (lora_loop_done rnd svd (lm_next s)) with (T := []) in E as (fs & T & M & K & L & R & W & SH' & _ & MK & _ & TB & _ & AP & A).
    2:{ intros g b X. discriminate X. }
    2:{ reflexivity. }
    2:{ constructor; [reflexivity|intros ? []|intros ? ? []|intros ? ? X; discriminate X|intros ? ? ? ? X; discriminate X]. }
    split; [exact K|]. exists fs, sh', T.
    assert (IN : forall i l, In (i, l) fs -> In i (named_modules root) /\ module_check i tf nf false = true).
    { intros i l Hi. apply (in_map fst) in Hi. rewrite M in Hi. apply filter_In in Hi. exact Hi. }
    assert (ND : NoDup (map (fun il => islot (fst il)) fs)).
    { rewrite <- (map_map fst islot), M. eapply nodup_islot; [exact OK| |exact Kr]. intros i Hi. apply module_check_spec in Hi as (((X & _) & _) & _). exact X. }
    assert (SL : forall i l, In (i, l) fs -> exists u, below u root /\ t_id u = i_parent i /\ In (i_key i, i_mod i) (t_kids u)).
    { intros i l Hi. destruct (IN i l Hi) as [Hn Hc]. destruct (named_modules_spec root _ OK) as (_ & _ & Sp).
      destruct (Sp i Hn) as (ks & P & _ & [(-> & _)|(ks' & u & -> & Pu & Iu & Hu)]).
      - exfalso. inversion P; subst. apply Kr. apply module_check_spec in Hc as (((X & _) & _) & _). congruence.
      - exists u. split; [eapply path_below; exact Pu|]. auto. }
    constructor; try assumption.
    - rewrite R. change (lm_root s0) with (lm_root s). rewrite Er. cbn [option_map]. f_equal. rewrite <- (replace_none root) at 1. unfold slots.
      apply (put_all_replace root (lm_next s) (lm_next s) OK).
      + intros i l Hi. destruct (SL i l Hi) as (u & Bu & Iu & Hu). exists u. split; [exact Bu|]. split; [exact Iu|]. apply (in_map fst) in Hu. exact Hu.
      + intros i l p Hi (u & Bu & Iu & Ku) Hp. destruct (A i l Hi) as (b & n & a & cc & Ad & Pt).
        assert (Lp : p < lm_next s) by (rewrite <- Iu; exact (proj1 (ok_ids _ _ OK u Bu))).
        rewrite (ad_eq _ _ _ _ _ _ _ _ _ _ _ _ Ad), (lora_around_eq _ _ _ _ _ _ (ad_layer _ _ _ _ _ _ _ _ _ _ _ _ Ad)) in Hp.
        apply in_all_ids in Hp as (v & Bv & Iv). apply below_inv in Bv as [->|(key & c & Hk & Bv)].
        { cbn [t_id] in Iv. pose proof (ad_n _ _ _ _ _ _ _ _ _ _ _ _ Ad) as [X _]. change (lm_next s0) with (lm_next s) in X. lia. }
        cbn [t_kids In] in Hk. pose proof (ad_layer _ _ _ _ _ _ _ _ _ _ _ _ Ad) as WL.
        destruct Hk as [[= <- <-]|[[= <- <-]|[[= <- <-]|[[= <- <-]|[]]]]].
        * assert (Kx : t_kids (enc_of (lc_rank h') (i_mod i) a) = []) by (unfold enc_of, wlayer in *; destruct (t_kind (i_mod i)); try contradiction; reflexivity).
          apply below_inv in Bv as [->|(? & ? & Hk & _)]; [|rewrite Kx in Hk; destruct Hk].
          rewrite enc_id in Iv by exact WL. pose proof (ad_a _ _ _ _ _ _ _ _ _ _ _ _ Ad) as [X _]. change (lm_next s0) with (lm_next s) in X. lia.
        * assert (Kx : t_kids b = []).
          { destruct (ad_group _ _ _ _ _ _ _ _ _ _ _ _ Ad) as (g & _ & G). destruct (lc_share h').
            - destruct (MK g b G) as [X|(j & _ & _ & _ & _ & ->)]; [discriminate X|]. unfold bottleneck. destruct (t_kind (i_mod j)); reflexivity.
            - destruct G as [_ ->]. unfold bottleneck. destruct (t_kind (i_mod i)); reflexivity. }
          apply below_inv in Bv as [->|(? & ? & Hk & _)]; [|rewrite Kx in Hk; destruct Hk].
          assert (X : In b T) by (apply Pt; rewrite (ad_eq _ _ _ _ _ _ _ _ _ _ _ _ Ad), parts_around by exact WL; cbn; auto).
          apply (tb_lt _ _ _ _ TB) in X. lia.
        * assert (Kx : t_kids (dec_of (lc_rank h') (i_mod i) cc) = []) by (unfold dec_of, wlayer in *; destruct (t_kind (i_mod i)); try contradiction; reflexivity).
          apply below_inv in Bv as [->|(? & ? & Hk & _)]; [|rewrite Kx in Hk; destruct Hk].
          rewrite dec_id in Iv by exact WL. pose proof (ad_c _ _ _ _ _ _ _ _ _ _ _ _ Ad) as [X _]. change (lm_next s0) with (lm_next s) in X. lia.
        * destruct (IN i l Hi) as [Hn Hc]. apply module_check_spec in Hc as (((Kx & _) & _) & _).
          apply below_inv in Bv as [->|(? & ? & Hk & _)]; [|rewrite Kx in Hk; destruct Hk].
          destruct (SL i l Hi) as (u' & Bu' & Iu' & Hu'). apply Ku.
          assert (Eu : u = i_mod i); [|rewrite Eu; exact Kx].
          apply (ok_same _ _ OK); [exact Bu|eapply below_trans; [eapply below_child; exact Hu'|exact Bu']|congruence].
      + intros p k l p' X. discriminate X.
      + lia.
    - intros g b Eb. destruct (MK g b Eb) as [X|X]; [discriminate X|exact X].
    - intros i l Hi. destruct (A i l Hi) as (b & n & a & cc & Ad & Pt). exists b, n, a, cc. split; [|exact Pt]. eapply added_from; [exact Ad|reflexivity|reflexivity].
  Qed.
End P.
