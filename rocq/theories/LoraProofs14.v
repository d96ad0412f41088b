(** LoRA: adding it a second time (C56), and to a model that is itself a layer (C57). *)
From Verif Require Import Py PyStr Field Tensor ModelGrad Monad ModelState ModelMmap ModelSaver ModelLogger ModelModules ModelLora SpecLora LoraProofs1 LoraProofs2 LoraProofs3 LoraProofs4 LoraProofs5 LoraProofs6 LoraProofs7 LoraProofs8 LoraProofs9 LoraProofs10 LoraProofs11.
Local Open Scope nat_scope.

Section P.
  Context {F : Type} `{OField F}.
  Notation tensor := (tensor F).
  Notation lm := (@lm F).
  Context (rnd : mid -> list nat -> F) (svd : tensor -> res tensor).

  Lemma add_lora_again watch clear tf nf cfg (s s' : lm) root i : lm_root s = Some root -> t_kids root <> [] -> tree_ok root (lm_next s) ->
    lm_add_lora rnd svd watch clear tf nf None cfg s = (s', Ok tt) ->
    selected (chosen tf (lm_tf s)) (chosen nf (lm_nf s)) root i ->
    exists root' l a b c k, lm_root s' = Some root' /\ below l root' /\ t_kids l = [("logix_lora_A", a); ("logix_lora_B", b); ("logix_lora_C", c); (k, i_mod i)]%string /\
      forall u, In u [a; b; c; i_mod i] -> exists j, selected None None root' j /\ i_mod j = u.
  Proof.
    intros Er Kr OK E Hs. destruct (add_lora_tree rnd svd _ _ _ _ _ _ _ _ Er Kr OK E) as (f & Er' & Wp & OK' & _).
    destruct (add_lora_layer rnd svd _ _ _ _ _ _ _ _ i Er Kr OK E Hs) as (_ & _ & _ & _ & _ & _ & _ & _ & _ & WL & Kt & _).
    destruct (wp_layer _ _ _ _ _ _ _ _ Wp i Hs) as (b & n & a & c & Ef & _ & _ & _ & B1 & B2).
    set (h := in_use (lm_handler s) cfg (lm_cfg s)) in *. set (l := lora_around (lc_rank h) (i_mod i) b n a c) in *.
    exists (replace_kids f root), l, (enc_of (lc_rank h) (i_mod i) a), b, (dec_of (lc_rank h) (i_mod i) c), (base_key (i_mod i)). split; [exact Er'|].
    assert (El : l = MT n KOther [] [] [("logix_lora_A", enc_of (lc_rank h) (i_mod i) a); ("logix_lora_B", b); ("logix_lora_C", dec_of (lc_rank h) (i_mod i) c); (base_key (i_mod i), i_mod i)]%string) by (apply lora_around_eq; exact WL).
    destruct (named_modules_spec root _ OK) as (_ & _ & Sp0).
    assert (Bl : below l (replace_kids f root)).
    { destruct (Sp0 i (proj1 Hs)) as (ks & P & _ & [(-> & _)|(ks' & u & -> & Pu & Iu & Hu)]).
      { inversion P; subst. exfalso. apply Kr. rewrite <- Kt. congruence. }
      destruct (replace_below f root u (path_below _ _ _ Pu)) as [Bu|(v & key & c' & l' & Bv & Bu & Hk & El' & _)].
      - eapply below_trans; [|exact Bu]. eapply (below_child _ (i_key i)). destruct u as [uid uk ucls ups ukids]. cbn [replace_kids t_kids t_id] in *. apply in_map_iff. exists (i_key i, i_mod i). cbn [fst snd]. rewrite Iu, Ef. auto.
      - exfalso. destruct (wp_only _ _ _ _ _ _ _ _ Wp _ _ _ El') as (i2 & Hs2 & Ip2 & Ik2).
        assert (Kc : t_kids c' = []).
        { destruct (Sp0 i2 (proj1 Hs2)) as (k2 & P2 & _ & [(-> & Ip & Ik)|(k2' & u2 & -> & Pu2 & Iu2 & Hu2)]).
          - inversion P2; subst. exfalso. apply Kr. destruct Hs2 as (_ & (X & _) & _). rewrite <- X. congruence.
          - assert (u2 = v) by (apply (ok_same _ _ OK); [eapply path_below; exact Pu2|exact Bv|congruence]). subst u2. rewrite Ik2 in Hu2.
            assert (i_mod i2 = c').
            { pose proof (proj1 (ok_keys _ _ OK v Bv)) as ND. clear - ND Hk Hu2. revert ND Hk Hu2. induction (t_kids v) as [|[k0 c0] r IH]; intros ND Hk Hu2; [destruct Hk|].
              cbn [map fst] in ND. apply NoDup_cons_iff in ND as [N1 N2]. destruct Hk as [Hk|Hk], Hu2 as [Hu|Hu].
              - congruence.
              - injection Hk as -> ->. exfalso. apply N1. apply (in_map fst) in Hu. exact Hu.
              - injection Hu as -> ->. exfalso. apply N1. apply (in_map fst) in Hk. exact Hk.
              - exact (IH N2 Hk Hu). }
            subst c'. apply (proj2 Hs2). }
        apply below_inv in Bu as [->|(? & ? & Hk3 & _)]; [|rewrite Kc in Hk3; destruct Hk3]. rewrite Kc in Hu. destruct Hu. }
    split; [exact Bl|]. split; [rewrite El; reflexivity|]. intros u Hu.
    assert (Ly : layer u).
    { assert (Li : layer (i_mod i)) by apply (proj2 Hs). unfold wlayer in WL. destruct Hu as [<-|[<-|[<-|[<-|[]]]]].
      - unfold enc_of, layer. destruct (t_kind (i_mod i)); try contradiction; cbn; auto.
      - destruct (lc_share h) eqn:Sh.
        + destruct (B2 eq_refl) as (j & _ & _ & ->). unfold bottleneck, layer. destruct (t_kind (i_mod j)); cbn; auto.
        + rewrite (B1 eq_refl). unfold bottleneck, layer. destruct (t_kind (i_mod i)); try contradiction; cbn; auto.
      - unfold dec_of, layer. destruct (t_kind (i_mod i)); try contradiction; cbn; auto.
      - exact Li. }
    assert (Bu : below u (replace_kids f root)).
    { eapply below_trans; [|exact Bl]. rewrite El. destruct Hu as [<-|[<-|[<-|[<-|[]]]]]; (eapply below_child; cbn [t_kids In]; eauto 6). }
    destruct (named_modules_spec _ _ OK') as (_ & V & _). destruct (V u Bu) as (j & Hj & Em). exists j. split; [|exact Em]. split; [exact Hj|]. rewrite Em. repeat split; exact Ly || exact (proj1 Ly) || exact (proj2 Ly).
  Qed.

  (** a model that is itself a layer *)
  Lemma lora_item_lost c i sh (s s' : lm) r : lora_item rnd svd c true i sh s = (s', Ok r) -> exists s'', lora_item rnd svd c false i sh s = (s'', Err AttributeError).
  Proof.
    unfold lora_item. intros E. apply sbind_ok in E as (s1 & [] & E1 & E). apply sbind_ok in E as (s2 & g & E2 & E). apply sbind_ok in E as (s3 & sh' & E3 & E).
    apply sbind_ok in E as (s4 & l & E4 & E). apply sbind_ok in E as (s5 & [] & E5 & E).
    eexists. rewrite (sbind_run _ _ _ _ _ E1), (sbind_run _ _ _ _ _ E2), (sbind_run _ _ _ _ _ E3), (sbind_run _ _ _ _ _ E4), (sbind_run _ _ _ _ _ E5). reflexivity.
  Qed.
  Lemma add_lora_bare watch clear path cfg (s : lm) root cs : lm_root s = Some root -> layer root -> t_kind root <> KConv1d -> t_params root <> [] -> t_id root < lm_next s ->
    dget "covariance_state" (attrs (x_state (lm_x s))) = Some cs ->
    let h := in_use (lm_handler s) cfg (lm_cfg s) in
    lc_init h <> "pca"%string \/ cs = Node [] -> lc_groups h = None -> lm_tf s = None -> lm_nf s = None ->
    exists s', lm_add_lora rnd svd watch clear None None path cfg s = (s', Err AttributeError).
  Proof.
    intros Er [Kr Lk] NC Pr Lid Ecs h Pc Gr Ft Fn. unfold lm_add_lora.
    rewrite (sbind_run _ _ s (start cfg s) tt) by (rewrite start_eq; reflexivity).
    rewrite (sbind_run _ _ (start cfg s) (start cfg s) (start cfg s)) by reflexivity.
    change (lm_tf (start cfg s)) with (lm_tf s). change (lm_nf (start cfg s)) with (lm_nf s). rewrite Ft, Fn. cbn [or_filter flt is_nil].
    assert (X : exists s', handler_add_lora rnd svd None None (start cfg s) = (s', Err AttributeError)).
    { unfold handler_add_lora. change (lm_handler (start cfg s)) with (Some h). change (lm_x (start cfg s)) with (lm_x s). rewrite Ecs. fold (in_force h cs).
      set (q := lm_set_lora (start cfg s) (lm_cfg (start cfg s)) (Some (in_force h cs))). change (lm_root q) with (lm_root s). rewrite Er.
      destruct root as [id k cls ps kids]. cbn [t_kids t_kind t_params t_id] in *. subst kids. cbn [all_params map concat]. rewrite app_nil_r. destruct ps as [|p ps]; [contradiction|]. cbn [is_nil].
      set (t := MT id k cls (p :: ps) []). set (i := Item "" id "" t).
      assert (WL : wlayer t) by (unfold wlayer, t; cbn [t_kind]; destruct k; try contradiction; exact Logic.I).
      assert (MC : forall nm pa ky u, wlayer u -> t_kids u = [] -> module_check (Item nm pa ky u) None None false = true).
      { intros nm pa ky u WU KU. unfold module_check. cbn [i_mod]. rewrite KU. cbn [is_nil negb flt andb]. unfold wlayer in WU. unfold supported, existsb, isinst. destruct (t_kind u); try contradiction; reflexivity. }
      pose proof (MC ""%string id ""%string t WL eq_refl) as MC0. fold i in MC0. lazymatch goal with |- context [if ?b then _ else _] => change b with (module_check i None None false) end. rewrite MC0.
      assert (G : forall nm pa ky u, wlayer u -> good (in_force h cs) (Item nm pa ky u)).
      { intros nm pa ky u WU. split; [exact WU|]. destruct (in_force_parts h cs) as (_ & _ & ->). rewrite Gr. eexists. reflexivity. }
      pose proof (no_pca h cs Pc) as NP.
      assert (SH0 : shared_ok (lc_rank (in_force h cs)) q []) by (intros g b E0; discriminate E0).
      destruct (lora_item_ok rnd svd (in_force h cs) i [] q SH0 (fun _ => eq_refl) NP (G _ _ _ _ WL)) as (s1 & [sh1 l1] & E1).
      rewrite (sbind_run _ _ _ _ _ E1). cbn [fst snd].
      apply lora_item_done in E1 as (s2 & b & n & a & cc & D & ->); [|exact SH0|reflexivity].
      destruct (id_wraps _ _ _ _ _ _ _ _ _ _ _ _ _ D) as [El _ _ _ _ Ln _ _ _ _ _ _ _].
      rewrite El, lora_around_eq by exact WL. cbn [i_mod i].
      set (ea := enc_of (lc_rank (in_force h cs)) t a).
      assert (Wa : wlayer ea /\ t_kids ea = [] /\ t_id ea = a) by (unfold ea, enc_of, wlayer; unfold wlayer in WL; destruct (t_kind t); try contradiction; cbn; auto).
      assert (Nn : n <> id) by (cbn [t t_id] in Lid; change (lm_next q) with (lm_next s) in Ln; lia).
      assert (Na : a <> id /\ a <> n).
      { destruct (id_wraps _ _ _ _ _ _ _ _ _ _ _ _ _ D) as [_ _ _ La _ _ _ X _ _ _ _ _]. change (lm_next q) with (lm_next s) in La. split; [lia|exact X]. }
      set (L := MT n KOther [] [] _).
      assert (En : exists rest, fst (named "" id "" L [id]) = Item "" id "" L :: Item "logix_lora_A" n "logix_lora_A" ea :: rest).
      { unfold L. rewrite named_eq. assert (M1 : mem n [id] = false) by (apply not_true_is_false; rewrite mem_In; intros [X|[]]; congruence). rewrite M1. cbn [named_list].
        destruct Wa as (_ & Ka & Ia). destruct ea as [ida ka ca pa kida]. cbn [t_kids t_id] in Ka, Ia. subst kida ida. cbn [dotted String.eqb]. rewrite named_eq.
        assert (M2 : mem a [n; id] = false) by (apply not_true_is_false; rewrite mem_In; intros [X|[X|[]]]; [apply (proj2 Na)|apply (proj1 Na)]; congruence). rewrite M2. cbn [named_list app].
        repeat match goal with |- context [let (_, _) := named ?a ?b ?c ?d ?e in _] => destruct (named a b c d e) end. cbn [fst app]. eexists. reflexivity. }
      destruct En as (rest & ->). cbn [lora_loop]. assert (M1 : module_check (Item "" id "" L) None None false = false) by reflexivity. rewrite M1.
      rewrite (MC _ _ _ ea) by apply Wa.
      set (q' := lm_set_model s2 _ _ _).
      destruct (lora_item_ok rnd svd (in_force h cs) (Item "logix_lora_A" n "logix_lora_A" ea) sh1 q') as (s3 & r3 & E3).
      - intros g b' Eb. destruct (id_shared _ _ _ _ _ _ _ _ _ _ _ _ _ D g b' Eb) as (X1 & X2 & X3). unfold q'. cbn [lm_next lm_w lm_set_model]. auto.
      - intros Es. destruct (id_group _ _ _ _ _ _ _ _ _ _ _ _ _ D) as (g & _ & G'). rewrite Es in G'. apply G'.
      - exact NP.
      - apply G, Wa.
      - apply lora_item_lost in E3 as (s4 & E4). exists s4. unfold sbind. rewrite E4. reflexivity. }
    destruct X as (s' & X). exists s'. apply sbind_err. exact X.
  Qed.
End P.
