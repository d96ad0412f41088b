(** LoRAHandler.add_lora: the loop over the modules. *)
From Verif Require Import Py PyStr Field Tensor ModelGrad Monad ModelState ModelMmap ModelSaver ModelLogger ModelModules ModelLora SpecLora LoraProofs1 LoraProofs2 LoraProofs3.
Local Open Scope nat_scope.

Section P.
  Context {F : Type} `{OField F}.
  Notation tensor := (tensor F).
  Notation lm := (@lm F).
  Notation weights := (dict mid (tensor * option tensor)).
  Context (rnd : mid -> list nat -> F) (svd : tensor -> res tensor).

  (** layer [i] got LoRA module [l], with numbers from [lo] on *)
  Record added (c : lora_cfg) (s0 s' : lm) (sh' : dict string mtree) (i : item) (l b : mtree) (n a cc : mid) : Prop := {
    ad_layer : wlayer (i_mod i);
    ad_eq : l = lora_around (lc_rank c) (i_mod i) b n a cc;
    ad_n : fresh_in s0 s' n; ad_a : fresh_in s0 s' a; ad_c : fresh_in s0 s' cc; ad_b : t_id b < lm_next s';
    ad_wb : dget (t_id b) (lm_w s') = Some (tzeros (weight_shape b), None);
    ad_wa : exists wa, dget a (lm_w s') = Some (wa, None) /\ shape wa = weight_shape (enc_of (lc_rank c) (i_mod i) a);
    ad_wc : exists wc, dget cc (lm_w s') = Some (wc, None) /\ shape wc = weight_shape (dec_of (lc_rank c) (i_mod i) cc);
    ad_group : exists g, find_group (i_name i) (lc_groups c) = Ok g /\
      if lc_share c then dget g sh' = Some b
      else fresh_in s0 s' (t_id b) /\ b = bottleneck (i_mod i) (min (lc_rank c) (width (i_mod i))) (t_id b);
    ad_rnd : lc_init c <> "pca"%string ->
      dget a (lm_w s') = Some (tgen (weight_shape (enc_of (lc_rank c) (i_mod i) a)) (rnd a), None) /\
      dget cc (lm_w s') = Some (tgen (weight_shape (dec_of (lc_rank c) (i_mod i) cc)) (rnd cc), None);
    ad_pca : lc_init c = "pca"%string -> exists cov va vc, cov_of s0 (i_name i) = Ok cov /\
      dget a (lm_w s') = Some (va, None) /\ dget cc (lm_w s') = Some (vc, None) /\ pca_weights svd (lc_rank c) (i_mod i) cov va vc;
    ad_nodup : NoDup [n; a; cc; t_id b]
  }.
  Lemma added_mono c s0 s1 s2 sh1 sh2 i l b n a cc : added c s0 s1 sh1 i l b n a cc ->
    lm_next s1 <= lm_next s2 -> (forall x : mid, x < lm_next s1 -> dget x (lm_w s2) = dget x (lm_w s1)) ->
    (forall g b, dget g sh1 = Some b -> dget g sh2 = Some b) ->
    added c s0 s2 sh2 i l b n a cc.
  Proof.
    unfold fresh_in. intros [A1 A2 A3 A4 A5 A6 A7 A8 A9 A10 A11 A12 A13] L W G. unfold fresh_in in *. constructor; unfold fresh_in; try assumption; try lia.
    - rewrite W by lia. exact A7.
    - rewrite W by lia. exact A8.
    - rewrite W by lia. exact A9.
    - destruct A10 as (g & Eg & D). exists g. split; [exact Eg|]. destruct (lc_share c); [apply G, D|]. destruct D as [D1 D2]. split; [unfold fresh_in in *; lia|exact D2].
    - rewrite !W by lia. exact A11.
    - rewrite !W by lia. exact A12.
  Qed.
  Lemma added_from c s s0 s' sh' i l b n a cc : added c s0 s' sh' i l b n a cc -> lm_next s <= lm_next s0 -> lm_x s0 = lm_x s -> added c s s' sh' i l b n a cc.
  Proof.
    unfold fresh_in. intros [A1 A2 A3 A4 A5 A6 A7 A8 A9 A10 A11 A12 A13] L X. unfold fresh_in in *. constructor; unfold fresh_in; try assumption; try lia.
    - destruct A10 as (g & Eg & D). exists g. split; [exact Eg|]. destruct (lc_share c); [exact D|]. destruct D as [D1 D2]. split; [unfold fresh_in in *; lia|exact D2].
    - unfold cov_of in *. rewrite <- X. exact A12.
  Qed.

  (** the new objects of a LoRA module *)
  Definition parts (l : mtree) : list mtree := l :: map snd (firstn 3 (t_kids l)).
  Lemma parts_around rank t b n a c : wlayer t -> parts (lora_around rank t b n a c) = [lora_around rank t b n a c; enc_of rank t a; b; dec_of rank t c].
  Proof. intros W. unfold parts. rewrite lora_around_eq by exact W. reflexivity. Qed.
  Lemma enc_id rank t a : wlayer t -> t_id (enc_of rank t a) = a.
  Proof. unfold wlayer, enc_of. destruct (t_kind t); try contradiction; reflexivity. Qed.
  Lemma dec_id rank t a : wlayer t -> t_id (dec_of rank t a) = a.
  Proof. unfold wlayer, dec_of. destruct (t_kind t); try contradiction; reflexivity. Qed.
  Lemma around_id rank t b n a c : wlayer t -> t_id (lora_around rank t b n a c) = n.
  Proof. intros W. rewrite lora_around_eq by exact W. reflexivity. Qed.

  Record table (lo : nat) (s : lm) (sh : dict string mtree) (T : list mtree) : Prop := {
    tb_lo : lo <= lm_next s;
    tb_lt : forall u, In u T -> lo <= t_id u < lm_next s;
    tb_same : forall u v, In u T -> In v T -> t_id u = t_id v -> u = v;
    tb_shared : forall g b, dget g sh = Some b -> In b T;
    tb_inj : forall g b g' b', dget g sh = Some b -> dget g' sh = Some b' -> t_id b = t_id b' -> g = g'
  }.

  Definition put_all (fs : list (item * mtree)) (t : mtree) : mtree :=
    fold_left (fun t il => set_kid (i_parent (fst il)) (i_key (fst il)) (snd il) t) fs t.

  (** the new objects of two layers are different, except for shared bottlenecks *)
  Definition own (l : mtree) : list mid := t_id l :: match t_kids l with [(_, a); _; (_, c); _] => [t_id a; t_id c] | _ => [] end.
  Lemma own_around rank t b n a c : wlayer t -> own (lora_around rank t b n a c) = [n; a; c].
  Proof. intros W. unfold own. rewrite lora_around_eq by exact W. cbn. rewrite enc_id, dec_id by exact W. reflexivity. Qed.
  Definition apart (c : lora_cfg) (p q : item * mtree) : Prop :=
    (forall x, In x (own (snd p)) -> ~ In x (map t_id (parts (snd q)))) /\
    (forall x, In x (own (snd q)) -> ~ In x (map t_id (parts (snd p)))) /\
    (lc_share c = false -> forall u v, In u (parts (snd p)) -> In v (parts (snd q)) -> t_id u <> t_id v).

  Definition made (c : lora_cfg) (tf : option (list fclass)) (nf : option (list string)) (l : list item) (g : string) (b : mtree) : Prop :=
    exists i, In i l /\ module_check i tf nf false = true /\ find_group (i_name i) (lc_groups c) = Ok g /\ wlayer (i_mod i) /\ b = bottleneck (i_mod i) (lc_rank c) (t_id b).
  Lemma lora_loop_done lo c tf nf l : forall sh (s s' : lm) sh' T,
    shared_ok (lc_rank c) s sh -> (lc_share c = false -> sh = []) -> table lo s sh T ->
    lora_loop rnd svd c tf nf true l sh s = (s', Ok sh') ->
    exists fs T', map fst fs = filter (fun i => module_check i tf nf false) l /\
      keeps s s' /\ lm_next s <= lm_next s' /\
      lm_root s' = option_map (put_all fs) (lm_root s) /\
      (forall x : mid, x < lm_next s -> dget x (lm_w s') = dget x (lm_w s)) /\
      shared_ok (lc_rank c) s' sh' /\ (forall g b, dget g sh = Some b -> dget g sh' = Some b) /\
      (forall g b, dget g sh' = Some b -> dget g sh = Some b \/ made c tf nf l g b) /\
      (forall g b, dget g sh' = Some b -> dget g sh = Some b \/ lm_next s <= t_id b) /\
      table lo s' sh' T' /\ (forall u, In u T -> In u T') /\
      ForallOrdPairs (apart c) fs /\
      (forall i l', In (i, l') fs -> exists b n a cc, added c s s' sh' i l' b n a cc /\ forall u, In u (parts l') -> In u T').
  Proof.
    induction l as [|i l IH]; intros sh s s' sh' T SH SF TB; cbn [lora_loop filter].
    - intros [= <- <-]. exists [], T. split; [reflexivity|]. split; [apply keeps_refl|]. split; [lia|]. split; [destruct (lm_root s); reflexivity|].
      split; [reflexivity|]. split; [exact SH|]. split; [auto|]. split; [auto|]. split; [auto|]. split; [exact TB|]. split; [auto|]. split; [constructor|]. intros i l' [].
    - destruct (module_check i tf nf false) eqn:Ech.
      2:{ intros E. destruct (IH _ _ _ _ _ SH SF TB E) as (fs & T' & M & K & L & R & W & SH' & SG' & MK & X). exists fs, T'. repeat (split; [assumption|]). split; [|exact X].
          intros g b Eb. destruct (MK g b Eb) as [Y|(j & Y & Z)]; [auto|]. right. exists j. split; [right; exact Y|exact Z]. }
      intros E. apply sbind_ok in E as (s1 & [sh1 l1] & E1 & E). cbn [fst] in E.
      apply lora_item_done in E1 as (s0 & b & n & a & cc & D & ->); [|exact SH|exact SF].
      set (s1 := lm_set_model s0 _ _ _) in *.
      destruct D as [WL Wr SH1 Gr Rn Pc].
      assert (SF1 : lc_share c = false -> sh1 = []).
      { intros Es. destruct Gr as (g & _ & G). rewrite Es in G. destruct G as (-> & _). apply SF, Es. }
      assert (W1 : forall x : mid, x < lm_next s -> dget x (lm_w s1) = dget x (lm_w s)).
      { intros x Lx. change (lm_w s1) with (lm_w s0). destruct (Nat.eq_dec x (t_id b)) as [->|Nx]; [|apply (wr_w _ _ _ _ _ _ _ _ _ Wr); assumption].
        rewrite (wr_wb _ _ _ _ _ _ _ _ _ Wr). destruct Gr as (g & _ & G). destruct (lc_share c).
        - destruct G as (_ & _ & [G|(_ & [G _] & _)]); [|lia]. destruct (SH g b G) as (_ & _ & ->). reflexivity.
        - destruct G as (_ & [G _] & _). lia. }
      assert (L1 : lm_next s <= lm_next s1) by (pose proof (wr_n _ _ _ _ _ _ _ _ _ Wr); cbn [lm_next lm_set_model s1]; subst s1; cbn; lia).
      assert (SG : forall g b, dget g sh = Some b -> dget g sh1 = Some b).
      { intros g' b' Eb. destruct Gr as (g & _ & G). destruct (lc_share c); [|destruct G as (-> & _); exact Eb].
        destruct G as (G1 & G2 & G3). destruct (String.string_dec g' g) as [->|Ng]; [|rewrite G2 by exact Ng; exact Eb].
        destruct G3 as [G3|(G3 & _)]; [congruence|congruence]. }
      assert (Bb : t_id b < lm_next s1 /\ t_id b <> n /\ t_id b <> a /\ t_id b <> cc /\ (In b T \/ lm_next s <= t_id b)).
      { subst s1. cbn [lm_next lm_set_model]. pose proof (wr_n _ _ _ _ _ _ _ _ _ Wr). pose proof (wr_a _ _ _ _ _ _ _ _ _ Wr). pose proof (wr_c _ _ _ _ _ _ _ _ _ Wr).
        destruct Gr as (g & _ & G). destruct (lc_share c).
        - destruct G as (_ & _ & [G|(_ & [G1 G2] & G3 & G4 & G5 & _)]).
          + destruct (SH g b G) as (Lb & _). repeat split; try lia. left. apply (tb_shared _ _ _ _ TB g b G).
          + repeat split; try assumption. right. exact G1.
        - destruct G as (_ & [G1 G2] & G3 & G4 & G5 & _). repeat split; try assumption. right. exact G1. }
      destruct Bb as (Lb & Nn & Na & Nc & InB).
      (* the new objects *)
      set (T1 := parts l1 ++ T).
      assert (EP : parts l1 = [l1; enc_of (lc_rank c) (i_mod i) a; b; dec_of (lc_rank c) (i_mod i) cc]).
      { rewrite (wr_eq _ _ _ _ _ _ _ _ _ Wr). apply parts_around, WL. }
      assert (I1 : t_id l1 = n) by (rewrite (wr_eq _ _ _ _ _ _ _ _ _ Wr); apply around_id, WL).
      pose proof (enc_id (lc_rank c) (i_mod i) a WL) as I2. pose proof (dec_id (lc_rank c) (i_mod i) cc WL) as I3.
      pose proof (wr_n _ _ _ _ _ _ _ _ _ Wr) as Ln. pose proof (wr_a _ _ _ _ _ _ _ _ _ Wr) as La. pose proof (wr_c _ _ _ _ _ _ _ _ _ Wr) as Lc.
      pose proof (wr_ac _ _ _ _ _ _ _ _ _ Wr) as Nac. pose proof (wr_an _ _ _ _ _ _ _ _ _ Wr) as Nan. pose proof (wr_cn _ _ _ _ _ _ _ _ _ Wr) as Ncn.
      assert (TB1 : table lo s1 sh1 T1).
      { pose proof (tb_lo _ _ _ _ TB) as Llo. constructor.
        - lia.
        - intros u. unfold T1. rewrite EP. cbn [app In]. change (lm_next s1) with (lm_next s0) in *. intros [<-|[<-|[<-|[<-|Hu]]]]; try lia.
          + destruct InB as [InB|InB]; [apply (tb_lt _ _ _ _ TB) in InB|]; lia.
          + apply (tb_lt _ _ _ _ TB) in Hu. lia.
        - assert (BT : forall u, In u T -> t_id u = t_id b -> u = b).
          { intros u Hu Eu. destruct InB as [InB|InB]; [apply (tb_same _ _ _ _ TB); assumption|]. apply (tb_lt _ _ _ _ TB) in Hu. lia. }
          intros u v. unfold T1. rewrite EP. cbn [app In].
          intros [<-|[<-|[<-|[<-|Hu]]]] [<-|[<-|[<-|[<-|Hv]]]] Euv; try reflexivity; rewrite ?I1, ?I2, ?I3 in Euv; try congruence; try lia;
            try (apply (tb_lt _ _ _ _ TB) in Hv; lia); try (apply (tb_lt _ _ _ _ TB) in Hu; lia).
          + symmetry. apply BT; [exact Hv|congruence].
          + apply BT; assumption.
          + apply (tb_same _ _ _ _ TB); assumption.
        - intros g' b' Eb. destruct Gr as (g & _ & G). destruct (lc_share c).
          + destruct G as (G1 & G2 & G3). destruct (String.string_dec g' g) as [->|Ng].
            * rewrite G1 in Eb. injection Eb as <-. unfold T1. rewrite EP. cbn. auto.
            * rewrite G2 in Eb by exact Ng. unfold T1. apply in_app_iff. right. apply (tb_shared _ _ _ _ TB g' b' Eb).
          + destruct G as (-> & _). unfold T1. apply in_app_iff. right. apply (tb_shared _ _ _ _ TB g' b' Eb).
        - destruct Gr as (g & _ & G). destruct (lc_share c); [|destruct G as (-> & _); apply (tb_inj _ _ _ _ TB)].
          destruct G as (G1 & G2 & G3). intros g1 b1 g2 b2 E1 E2 Eid.
          destruct (String.string_dec g1 g) as [->|N1]; destruct (String.string_dec g2 g) as [->|N2]; [reflexivity| | |].
          + rewrite G1 in E1. injection E1 as <-. rewrite G2 in E2 by exact N2. destruct G3 as [G3|(_ & [G3 _] & _)]; [apply (tb_inj _ _ _ _ TB _ _ _ _ G3 E2 Eid)|].
            apply (tb_shared _ _ _ _ TB) in E2. apply (tb_lt _ _ _ _ TB) in E2. lia.
          + rewrite G1 in E2. injection E2 as <-. rewrite G2 in E1 by exact N1. destruct G3 as [G3|(_ & [G3 _] & _)]; [apply (tb_inj _ _ _ _ TB _ _ _ _ E1 G3 Eid)|].
            apply (tb_shared _ _ _ _ TB) in E1. apply (tb_lt _ _ _ _ TB) in E1. lia.
          + rewrite G2 in E1 by exact N1. rewrite G2 in E2 by exact N2. apply (tb_inj _ _ _ _ TB _ _ _ _ E1 E2 Eid). }
      destruct (IH sh1 s1 s' sh' T1) as (fs & T' & M & K & L & R & W & SH' & SG' & MK & SN & TB' & TT & AP & A); [exact SH1|exact SF1|exact TB1|exact E|].
      exists ((i, l1) :: fs), T'. split; [cbn [map fst]; rewrite M; reflexivity|].
      assert (K1 : keeps s s1) by (eapply keeps_trans; [exact (wr_keeps _ _ _ _ _ _ _ _ _ Wr)|repeat split]).
      split; [eapply keeps_trans; eassumption|]. split; [lia|].
      split.
      { rewrite R. subst s1. cbn [lm_root lm_set_model]. rewrite (wr_root _ _ _ _ _ _ _ _ _ Wr). destruct (lm_root s); reflexivity. }
      split; [intros x Lx; rewrite W by lia; apply W1, Lx|]. split; [exact SH'|]. split; [auto|].
      split.
      { intros g' b' Eb. destruct (MK g' b' Eb) as [X|(j & X1 & X2 & X3)]; [|right; exists j; split; [right; exact X1|auto]].
        destruct Gr as (g & Eg & G). destruct (lc_share c).
        - destruct G as (G1 & G2 & G3). destruct (String.string_dec g' g) as [->|Ng]; [|rewrite G2 in X by exact Ng; auto].
          rewrite G1 in X. injection X as <-. destruct G3 as [G3|(_ & _ & _ & _ & _ & G3)]; [auto|]. right. exists i. split; [left; reflexivity|auto].
        - destruct G as (-> & _). auto. }
      assert (SN1 : forall g b, dget g sh1 = Some b -> dget g sh = Some b \/ lm_next s <= t_id b).
      { intros g' b' Eb. destruct Gr as (g & Eg & G). destruct (lc_share c); [|destruct G as (-> & _); auto]. destruct G as (G1 & G2 & G3).
        destruct (String.string_dec g' g) as [->|Ng]; [|rewrite G2 in Eb by exact Ng; auto]. rewrite G1 in Eb. injection Eb as <-.
        destruct G3 as [G3|(_ & [G3 _] & _)]; auto. }
      split; [intros g' b' Eb; destruct (SN g' b' Eb) as [X|X]; [apply SN1, X|right; lia]|].
      split; [exact TB'|].
      split; [intros u Hu; apply TT; unfold T1; apply in_app_iff; auto|].
      split.
      { constructor; [|exact AP]. rewrite Forall_forall. intros [i' l'] Hin. cbn [snd]. destruct (A i' l' Hin) as (b' & n' & a' & cc' & Ad & _).
        pose proof (ad_layer _ _ _ _ _ _ _ _ _ _ Ad) as WL'. pose proof (ad_eq _ _ _ _ _ _ _ _ _ _ Ad) as El'.
        pose proof (ad_n _ _ _ _ _ _ _ _ _ _ Ad) as [Ln' _]. pose proof (ad_a _ _ _ _ _ _ _ _ _ _ Ad) as [La' _]. pose proof (ad_c _ _ _ _ _ _ _ _ _ _ Ad) as [Lc' _].
        change (lm_next s1) with (lm_next s0) in *.
        assert (O1 : own l1 = [n; a; cc]) by (rewrite (wr_eq _ _ _ _ _ _ _ _ _ Wr); apply own_around, WL).
        assert (O2 : own l' = [n'; a'; cc']) by (rewrite El'; apply own_around, WL').
        assert (EP' : parts l' = [l'; enc_of (lc_rank c) (i_mod i') a'; b'; dec_of (lc_rank c) (i_mod i') cc']) by (rewrite El'; apply parts_around, WL').
        assert (I1' : t_id l' = n') by (rewrite El'; apply around_id, WL'). pose proof (enc_id (lc_rank c) (i_mod i') a' WL') as I2'. pose proof (dec_id (lc_rank c) (i_mod i') cc' WL') as I3'.
        assert (NB : ~ In (t_id b') [n; a; cc]).
        { destruct (ad_group _ _ _ _ _ _ _ _ _ _ Ad) as (g' & _ & G'). destruct (lc_share c) eqn:Es.
          - destruct (SN g' b' G') as [X|X]; [|change (lm_next s1) with (lm_next s0) in X; cbn [In]; lia].
            destruct Gr as (g & _ & G1 & G2 & G3). destruct (String.string_dec g' g) as [->|Ng].
            + rewrite G1 in X. injection X as <-. cbn [In]. clear - Nn Na Nc. intuition congruence.
            + rewrite G2 in X by exact Ng. destruct (SH g' b' X) as (Y & _). cbn [In]. lia.
          - destruct G' as [[Lb' _] _]. change (lm_next s1) with (lm_next s0) in Lb'. cbn [In]. lia. }
        split; [|split].
        - intros x. cbn [snd]. rewrite O1, EP'. cbn [map]. rewrite I1', I2', I3'. clear - Ln' La' Lc' Ln La Lc NB. cbn [In] in *. lia.
        - intros x. cbn [snd]. rewrite O2, EP. cbn [map]. rewrite I1, I2, I3. change (lm_next s1) with (lm_next s0) in *. clear - Ln' La' Lc' Ln La Lc Lb. cbn [In]. lia.
        - intros Es u v. cbn [snd]. rewrite EP. rewrite EP'.
          destruct (ad_group _ _ _ _ _ _ _ _ _ _ Ad) as (g' & _ & G'). rewrite Es in G'. destruct G' as [[Lb' _] _]. change (lm_next s1) with (lm_next s0) in Lb'.
          intros Hu Hv. assert (t_id u < lm_next s0) by (cbn [In] in Hu; destruct Hu as [<-|[<-|[<-|[<-|[]]]]]; lia). assert (lm_next s0 <= t_id v) by (cbn [In] in Hv; destruct Hv as [<-|[<-|[<-|[<-|[]]]]]; lia). lia. }
      intros i' l' [[= <- <-]|Hin].
      + exists b, n, a, cc. split; [|intros u Hu; apply TT; unfold T1; apply in_app_iff; auto].
        eapply (added_mono c s s1 s' sh1 sh'); [|exact L|exact W|exact SG'].
        change (lm_next s1) with (lm_next s0) in *. constructor; change (lm_w s1) with (lm_w s0); unfold fresh_in; change (lm_next s1) with (lm_next s0); try assumption; try lia.
        * exact (wr_eq _ _ _ _ _ _ _ _ _ Wr).
        * exact (wr_wb _ _ _ _ _ _ _ _ _ Wr).
        * exact (wr_wa _ _ _ _ _ _ _ _ _ Wr).
        * exact (wr_wc _ _ _ _ _ _ _ _ _ Wr).
        * destruct Gr as (g & Eg & G). exists g. split; [exact Eg|]. destruct (lc_share c); [apply G|]. destruct G as (_ & G1 & _ & _ & _ & G2). split; [exact G1|exact G2].
        * clear - Nn Na Nc Nac Nan Ncn. repeat constructor; cbn [In]; lia.
      + destruct (A i' l' Hin) as (b' & n' & a' & cc' & Ad & Pa). exists b', n', a', cc'. split; [|exact Pa].
        eapply added_from; [exact Ad|exact L1|apply (proj1 K1)].
  Qed.
End P.
