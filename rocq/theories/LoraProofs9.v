(** After the first LoRA exactly the bottlenecks are tracked (C56). *)
From Coq Require Import Ascii.
From Verif Require Import Py PyStr Field Tensor ModelGrad Monad ModelState ModelMmap ModelSaver ModelLogger ModelModules ModelLora SpecLora LogProofs1 LoraProofs1 LoraProofs2 LoraProofs3 LoraProofs4 LoraProofs5 LoraProofs6 LoraProofs7 LoraProofs8.
Local Open Scope nat_scope.

(** ---- substrings of dotted names ---- *)
Fixpoint no_dot (s : string) : Prop := match s with EmptyString => True | String c s' => c <> "."%char /\ no_dot s' end.
Lemma prefix_dot p : forall y a b, no_dot p -> (p ++ y = a ++ "." ++ b)%string -> exists y', a = (p ++ y')%string.
Proof.
  induction p as [|c p IH]; intros y a b N E; [exists a; reflexivity|]. destruct N as [Nc Np]. destruct a as [|c' a]; cbn in E; injection E as E1 E2.
  - congruence.
  - destruct (IH y a b Np E2) as (y' & ->). exists y'. subst. reflexivity.
Qed.
Lemma substring_dot p a b : no_dot p -> substring p (a ++ "." ++ b)%string -> substring p a \/ substring p b.
Proof.
  intros N (x & y & E). revert x E. induction a as [|c a IH]; intros x E.
  - destruct x as [|c x]; cbn in E.
    + destruct p as [|c p]; [right; exists ""%string, b; reflexivity|]. cbn in E. injection E as E1 _. destruct N as [N _]. congruence.
    + injection E as _ E. right. exists x, y. exact E.
  - destruct x as [|c' x].
    + cbn [String.append] in E. destruct (prefix_dot p y (String c a) b N) as (y' & Ey); [symmetry; exact E|]. left. exists ""%string, y'. exact Ey.
    + cbn in E. injection E as E1 E2. destruct (IH x E2) as [(x1 & y1 & ->)|X]; [left; exists (String c x1), y1; reflexivity|right; exact X].
Qed.
Lemma substring_dots p ks : no_dot p -> p <> ""%string -> substring p (dots ks) -> exists k, In k ks /\ substring p k.
Proof.
  intros N Ne. unfold dots. induction ks as [|k ks IH]; intros X.
  - destruct X as (x & y & E). cbn in E. symmetry in E. apply string_app_empty in E as [_ E]. apply string_app_empty in E as [E _]. contradiction.
  - destruct ks as [|k2 ks]; [exists k; split; [left; reflexivity|exact X]|]. change (String.concat "." (k :: k2 :: ks)) with (k ++ "." ++ String.concat "." (k2 :: ks))%string in X. apply substring_dot in X; [|exact N]. destruct X as [X|X].
    + exists k. split; [left; reflexivity|exact X].
    + destruct (IH X) as (k' & Hk & Y). exists k'. split; [right; exact Hk|exact Y].
Qed.
Lemma concat_snoc ks k : ks <> [] -> String.concat "." (ks ++ [k]) = (String.concat "." ks ++ "." ++ k)%string.
Proof.
  induction ks as [|a ks IH]; [congruence|]. intros _. destruct ks as [|b ks]; [reflexivity|].
  change ((a :: b :: ks) ++ [k]) with (a :: (b :: ks) ++ [k]). cbn [String.concat]. change ((b :: ks) ++ [k]) with (b :: ks ++ [k]) in *.
  rewrite IH by discriminate. rewrite !app_assoc_s. reflexivity.
Qed.
Lemma substring_snoc p ks k : substring p k -> substring p (dots (ks ++ [k])).
Proof.
  intros (x & y & ->). unfold dots. destruct ks as [|a ks]; [exists x, y; reflexivity|]. rewrite concat_snoc by discriminate.
  exists (String.concat "." (a :: ks) ++ "." ++ x)%string, y. rewrite !app_assoc_s. reflexivity.
Qed.

(** ---- paths of a changed tree ---- *)
Lemma path_replace f t : forall ks v, path (replace_kids f t) ks v ->
  (exists u, path t ks u /\ v = replace_kids f u) \/
  exists ks1 key ks2 u c l, ks = ks1 ++ key :: ks2 /\ path t ks1 u /\ In (key, c) (t_kids u) /\ f (t_id u) key = Some l /\ path l ks2 v.
Proof.
  induction t as [id k cls ps kids IH] using mtree_ind'. intros ks v P. set (t := MT id k cls ps kids) in *.
  inversion P as [x E1 E2|x key c' l u Hk P2]; subst.
  - left. exists t. split; [constructor|reflexivity].
  - cbn [replace_kids t t_kids] in Hk. apply in_map_iff in Hk as ((key0 & c) & E & Hk). cbn [fst snd] in E. destruct (f id key0) as [l'|] eqn:Ef; injection E as -> <-.
    + right. exists [], key, l, t, c, l'. split; [reflexivity|]. split; [constructor|]. auto.
    + rewrite Forall_forall in IH. destruct (IH (key, c) Hk l v P2) as [(u & Pu & ->)|(ks1 & key1 & ks2 & u & c1 & l1 & -> & Pu & X)].
      * left. exists u. split; [|reflexivity]. econstructor; [exact Hk|exact Pu].
      * right. exists (key :: ks1), key1, ks2, u, c1, l1. split; [reflexivity|]. split; [econstructor; [exact Hk|exact Pu]|exact X].
Qed.
Lemma path_keys_in t ks u : path t ks u -> forall k, In k ks -> exists v c, below v t /\ In (k, c) (t_kids v).
Proof.
  induction 1 as [|t k c l u Hk P IH]; [intros k []|]. intros k' [<-|Hin]; [exists t, c; split; [constructor|exact Hk]|].
  destruct (IH k' Hin) as (v & c' & Bv & Hv). exists v, c'. split; [eapply below_trans; [exact Bv|eapply below_child; exact Hk]|exact Hv].
Qed.

Section P.
  Context {F : Type} `{OField F}.
  Notation tensor := (tensor F).
  Notation lm := (@lm F).
  Notation weights := (dict mid (tensor * option tensor)).
  Context (rnd : mid -> list nat -> F) (svd : tensor -> res tensor).


  (** the children of a LoRA module, by path *)
  Lemma lora_paths h (s s' : lm) sh' i l b n a cc ks v : added rnd svd h s s' sh' i l b n a cc -> t_kids b = [] -> t_kids (i_mod i) = [] ->
    path l ks v -> (ks = [] /\ v = l) \/ (exists k, ks = [k] /\ In (k, v) (t_kids l)).
  Proof.
    intros Ad Kb Kt P. pose proof (ad_layer _ _ _ _ _ _ _ _ _ _ _ _ Ad) as WL. pose proof (ad_eq _ _ _ _ _ _ _ _ _ _ _ _ Ad) as El. rewrite lora_around_eq in El by exact WL.
    inversion P as [x E1 E2|x k c ks' u Hk P2]; subst; [left; auto|]. right. exists k.
    assert (Kc : t_kids c = []).
    { cbn [t_kids In] in Hk. destruct Hk as [[= <- <-]|[[= <- <-]|[[= <- <-]|[[= <- <-]|[]]]]]; try assumption.
      - unfold enc_of, wlayer in *. destruct (t_kind (i_mod i)); try contradiction; reflexivity.
      - unfold dec_of, wlayer in *. destruct (t_kind (i_mod i)); try contradiction; reflexivity. }
    inversion P2 as [x E1 E2|x k2 c2 ks2 u2 Hk2 P3]; subst; [auto|]. rewrite Kc in Hk2. destruct Hk2.
  Qed.

  (** the names of the new tree that contain logix_lora_B *)
  Lemma bottleneck_names h tf nf root (s s' : lm) fs sh' T : tree_ok root (lm_next s) -> t_kids root <> [] -> plain root ->
    lora_done rnd svd h tf nf root s s' fs sh' T ->
    forall ks v, path (replace_kids (slots fs) root) ks v ->
    substring "logix_lora_B" (dots ks) <->
    exists i b n a c ks0, selected tf nf root i /\ slots fs (i_parent i) (i_key i) = Some (lora_around (lc_rank h) (i_mod i) b n a c) /\
      path root ks0 (i_mod i) /\ ks = ks0 ++ ["logix_lora_B"%string] /\ v = b.
  Proof.
    intros OK KR PL LD ks v P. split.
    2:{ intros (i & b & n & a & c & ks0 & _ & _ & _ & -> & _). apply substring_snoc. exists ""%string, ""%string. reflexivity. }
    intros SB. apply substring_dots in SB as (k & Hk & Sk); [|cbn; repeat split; discriminate|discriminate].
    apply path_replace in P as [(u & Pu & ->)|(ks1 & key & ks2 & u & c & l & -> & Pu & Hkey & El & Pl)].
    { exfalso. destruct (path_keys_in _ _ _ Pu k Hk) as (v & c & Bv & Hv). apply (PL v k c Bv Hv Sk). }
    pose proof (path_below _ _ _ Pu) as Bu. destruct (slot_item rnd svd root _ OK h tf nf s s' fs sh' T LD KR u key c l Bu Hkey El) as (i & Hi & Em & Ep & Ek & Hn & Hp).
    destruct (ld_added _ _ _ _ _ _ _ _ _ _ _ LD i l Hi) as (b & n & a & cc & Ad & Pt).
    assert (Kt : t_kids (i_mod i) = []) by (rewrite Em; apply Hp).
    assert (Kb : t_kids b = []).
    { destruct (ad_group _ _ _ _ _ _ _ _ _ _ _ _ Ad) as (g & _ & G). destruct (lc_share h).
      - destruct (ld_made _ _ _ _ _ _ _ _ _ _ _ LD g b G) as (j & _ & _ & _ & _ & ->). unfold bottleneck. destruct (t_kind (i_mod j)); reflexivity.
      - destruct G as [_ ->]. unfold bottleneck. destruct (t_kind (i_mod i)); reflexivity. }
    pose proof (lora_paths h s s' sh' i l b n a cc ks2 v Ad Kb Kt Pl) as LP.
    apply in_app_iff in Hk as [Hk|[<-|Hk]].
    - exfalso. destruct (path_keys_in _ _ _ Pu k Hk) as (w & c' & Bw & Hw). apply (PL w k c' Bw Hw Sk).
    - exfalso. apply (PL u key c Bu Hkey Sk).
    - destruct LP as [(-> & _)|(k' & -> & Hk')]; [destruct Hk|]. destruct Hk as [<-|[]].
      pose proof (ad_layer _ _ _ _ _ _ _ _ _ _ _ _ Ad) as WL. pose proof (ad_eq _ _ _ _ _ _ _ _ _ _ _ _ Ad) as El2. rewrite El2, lora_around_eq in Hk' by exact WL.
      assert (E : k' = "logix_lora_B"%string /\ v = b).
      { cbn [t_kids In] in Hk'. apply contains_spec in Sk. destruct Hk' as [[= <- <-]|[[= <- <-]|[[= <- <-]|[[= <- <-]|[]]]]]; try (vm_compute in Sk; discriminate Sk); [auto|].
        unfold base_key in Sk. destruct (t_kind (i_mod i)); vm_compute in Sk; discriminate Sk. }
      destruct E as [-> ->]. exists i, b, n, a, cc, (ks1 ++ [key]). split; [split; [exact Hn|rewrite Em; exact Hp]|].
      split; [rewrite Ep, Ek, El, El2; reflexivity|]. split; [rewrite Em; eapply path_snoc; eassumption|]. split; [rewrite <- app_assoc; reflexivity|reflexivity].
  Qed.

  Lemma own_not_bottleneck h tf nf root (s s' : lm) fs sh' T : lora_done rnd svd h tf nf root s s' fs sh' T ->
    forall i l b n a c j l' b' n' a' c', In (i, l) fs -> added rnd svd h s s' sh' i l b n a c -> In (j, l') fs -> added rnd svd h s s' sh' j l' b' n' a' c' ->
    ~ In (t_id b) [n'; a'; c'].
  Proof.
    intros LD i l b n a c j l' b' n' a' c' Hi Ad Hj Ad' X. pose proof (ad_layer _ _ _ _ _ _ _ _ _ _ _ _ Ad) as WL. pose proof (ad_layer _ _ _ _ _ _ _ _ _ _ _ _ Ad') as WL'.
    assert (O2 : own l' = [n'; a'; c']) by (rewrite (ad_eq _ _ _ _ _ _ _ _ _ _ _ _ Ad'); apply own_around, WL').
    assert (P1 : In (t_id b) (map t_id (parts l))) by (apply in_map; rewrite (ad_eq _ _ _ _ _ _ _ _ _ _ _ _ Ad), parts_around by exact WL; cbn; auto).
    destruct (ForallOrdPairs_In (ld_apart _ _ _ _ _ _ _ _ _ _ _ LD) (i, l) (j, l') Hi Hj) as [E|[(_ & AP & _)|(AP & _ & _)]].
    - injection E as <- <-. rewrite (ad_eq _ _ _ _ _ _ _ _ _ _ _ _ Ad) in Ad'. pose proof (ad_eq _ _ _ _ _ _ _ _ _ _ _ _ Ad') as El. apply lora_around_inj in El as (<- & <- & <- & <-); [|exact WL].
      pose proof (ad_nodup _ _ _ _ _ _ _ _ _ _ _ _ Ad) as ND. apply (NoDup_remove_2 [n; a; c] [] (t_id b)) in ND. rewrite app_nil_r in ND. contradiction.
    - apply (AP (t_id b)); [cbn [snd]; rewrite O2; exact X|exact P1].
    - apply (AP (t_id b)); [cbn [snd]; rewrite O2; exact X|exact P1].
  Qed.
  Lemma bottleneck_below h tf nf root (s s' : lm) fs sh' T i l b n a c : tree_ok root (lm_next s) -> t_kids root <> [] ->
    lora_done rnd svd h tf nf root s s' fs sh' T -> In (i, l) fs -> added rnd svd h s s' sh' i l b n a c -> below b (replace_kids (slots fs) root).
  Proof.
    intros OK Kr LD Hl Ad. pose proof (ad_layer _ _ _ _ _ _ _ _ _ _ _ _ Ad) as WL.
    assert (Hs : selected tf nf root i).
    { pose proof (in_map fst _ _ Hl) as X. rewrite (ld_items _ _ _ _ _ _ _ _ _ _ _ LD) in X. apply filter_In in X as [X1 X2]. split; [exact X1|]. apply module_check_spec in X2. tauto. }
    pose proof (slots_in fs i l (ld_slots _ _ _ _ _ _ _ _ _ _ _ LD) Hl) as El.
    destruct (named_modules_spec root _ OK) as (_ & _ & Sp0). destruct (Sp0 i (proj1 Hs)) as (ks & P & _ & [(-> & _)|(ks' & u & -> & Pu & Iu & Hu)]).
    { exfalso. inversion P; subst. apply Kr. destruct Hs as (_ & (X & _) & _). congruence. }
    assert (Bl : below l (replace_kids (slots fs) root)).
    { destruct (replace_below (slots fs) root u (path_below _ _ _ Pu)) as [Bu|(v & key & c' & l' & Bv & Bu & Hk & El' & _)].
      - eapply below_trans; [|exact Bu]. eapply (below_child _ (i_key i)). destruct u as [uid uk ucls ups ukids]. cbn [replace_kids t_kids t_id] in *. apply in_map_iff. exists (i_key i, i_mod i). cbn [fst snd]. rewrite Iu, El. auto.
      - exfalso. destruct (slot_item rnd svd root _ OK h tf nf s s' fs sh' T LD Kr v key c' l' Bv Hk El') as (i2 & _ & _ & _ & _ & _ & Hp2).
        assert (Ku : t_kids c' = []) by apply Hp2. apply below_inv in Bu as [->|(? & ? & Hk3 & _)]; [|rewrite Ku in Hk3; destruct Hk3]. rewrite Ku in Hu. destruct Hu. }
    eapply below_trans; [|exact Bl]. eapply (below_child _ "logix_lora_B"%string). rewrite (ad_eq _ _ _ _ _ _ _ _ _ _ _ _ Ad), lora_around_eq by exact WL. cbn; auto.
  Qed.
  Lemma bottleneck_path h tf nf root (s s' : lm) fs sh' T : tree_ok root (lm_next s) -> t_kids root <> [] ->
    lora_done rnd svd h tf nf root s s' fs sh' T -> forall i l b n a c, In (i, l) fs -> added rnd svd h s s' sh' i l b n a c ->
    forall ks v, path (replace_kids (slots fs) root) ks v -> t_id v = t_id b -> exists ks0, ks = ks0 ++ ["logix_lora_B"%string].
  Proof.
    intros OK Kr LD i l b n a c Hl Ad ks v P Ev. pose proof (ad_layer _ _ _ _ _ _ _ _ _ _ _ _ Ad) as WL.
    assert (Lb : lm_next s <= t_id b).
    { destruct (ld_added _ _ _ _ _ _ _ _ _ _ _ LD i l Hl) as (b0 & n0 & a0 & c0 & Ad0 & Pt). pose proof (ad_eq _ _ _ _ _ _ _ _ _ _ _ _ Ad) as El.
      apply (tb_lt _ _ _ _ (ld_table _ _ _ _ _ _ _ _ _ _ _ LD)). apply Pt. rewrite El, parts_around by exact WL. cbn; auto. }
    apply path_replace in P as [(u & Pu & ->)|(k1 & key & k2 & u & c' & l' & -> & Pu & Hk & El' & Pl)].
    { exfalso. rewrite replace_id in Ev. pose proof (proj1 (ok_ids _ _ OK u (path_below _ _ _ Pu))). lia. }
    destruct (slot_item rnd svd root _ OK h tf nf s s' fs sh' T LD Kr u key c' l' (path_below _ _ _ Pu) Hk El') as (j & Hj & Em & _ & _ & Hn & Hp).
    destruct (ld_added _ _ _ _ _ _ _ _ _ _ _ LD j l' Hj) as (b' & n' & a' & cc' & Ad' & _). pose proof (ad_layer _ _ _ _ _ _ _ _ _ _ _ _ Ad') as WL'.
    pose proof (own_not_bottleneck h tf nf root s s' fs sh' T LD i l b n a c j l' b' n' a' cc' Hl Ad Hj Ad') as NO. cbn [In] in NO.
    assert (Kb : t_kids b' = []).
    { destruct (ad_group _ _ _ _ _ _ _ _ _ _ _ _ Ad') as (g & _ & G). destruct (lc_share h).
      - destruct (ld_made _ _ _ _ _ _ _ _ _ _ _ LD g b' G) as (j' & _ & _ & _ & _ & ->). unfold bottleneck. destruct (t_kind (i_mod j')); reflexivity.
      - destruct G as [_ ->]. unfold bottleneck. destruct (t_kind (i_mod j)); reflexivity. }
    assert (Kt : t_kids (i_mod j) = []) by (rewrite Em; apply Hp).
    pose proof (ad_eq _ _ _ _ _ _ _ _ _ _ _ _ Ad') as El2.
    destruct (lora_paths h s s' sh' j l' b' n' a' cc' k2 v Ad' Kb Kt Pl) as [(-> & ->)|(k & -> & Hkv)].
    { exfalso. apply NO. left. rewrite <- Ev, El2, around_id by exact WL'. reflexivity. }
    rewrite El2, lora_around_eq in Hkv by exact WL'. cbn [t_kids In] in Hkv. destruct Hkv as [[= <- <-]|[[= <- <-]|[[= <- <-]|[[= <- <-]|[]]]]].
    - exfalso. apply NO. right. left. rewrite <- Ev, enc_id by exact WL'. reflexivity.
    - exists (k1 ++ [key]). rewrite <- app_assoc. reflexivity.
    - exfalso. apply NO. right. right. left. rewrite <- Ev, dec_id by exact WL'. reflexivity.
    - exfalso. rewrite Em in Ev. pose proof (proj1 (ok_ids _ _ OK c' (below_trans _ _ _ (below_child _ _ _ Hk) (path_below _ _ _ Pu)))). lia.
  Qed.

  Lemma add_lora_bottlenecks clear tf nf cfg (s s' : lm) root : lm_root s = Some root -> t_kids root <> [] -> tree_ok root (lm_next s) -> plain root ->
    lm_add_lora rnd svd true clear tf nf None cfg s = (s', Ok tt) ->
    let h := in_use (lm_handler s) cfg (lm_cfg s) in let tf' := chosen tf (lm_tf s) in let nf' := chosen nf (lm_nf s) in
    (exists i, selected tf' nf' root i) ->
    exists f, lm_root s' = Some (replace_kids f root) /\ wrapped h tf' nf' root (lm_next s) (lm_next s') (lm_w s') f /\ x_mods (lm_x s') = map fst (x_names (lm_x s')) /\
      (forall m name, In (m, name) (x_names (lm_x s')) <->
         exists i b n a c ks, selected tf' nf' root i /\ f (i_parent i) (i_key i) = Some (lora_around (lc_rank h) (i_mod i) b n a c) /\
           t_id b = m /\ path root ks (i_mod i) /\ name = dots (ks ++ ["logix_lora_B"%string]) /\
           (exists j, In j (named_modules (replace_kids f root)) /\ i_mod j = b /\ i_name j = name) /\ passes (lm_tf s) (lm_nf s) name b) /\
      (forall i b n a c, selected tf' nf' root i -> f (i_parent i) (i_key i) = Some (lora_around (lc_rank h) (i_mod i) b n a c) ->
        layer b /\ exists j ks, In j (named_modules (replace_kids f root)) /\ i_mod j = b /\ i_name j = dots (ks ++ ["logix_lora_B"%string])).
  Proof.
    intros Er Kr OK PL E h tf' nf' (i0 & Hi0). pose proof (add_lora_tracked rnd svd clear tf nf cfg s s' root Er Kr OK E) as (root' & Er' & _ & XM & TR & _).
    destruct (add_lora_done rnd svd _ _ _ _ _ _ _ _ Er Kr OK E) as (cs & fs & sh' & T & s2 & _ & LD & R1 & R2 & R3 & _). fold tf' in LD. fold nf' in LD. fold h in LD.
    destruct (in_force_parts h cs) as (P1 & P2 & P3).
    assert (WR : wrapped h tf' nf' root (lm_next s) (lm_next s') (lm_w s') (slots fs)).
    { rewrite R2, R3. eapply wrapped_cfg; [symmetry; exact P1|symmetry; exact P2|symmetry; exact P3|]. exact (done_wrapped rnd svd _ _ _ _ (start cfg s) _ _ _ _ LD). }
    exists (slots fs). rewrite R1, (ld_root _ _ _ _ _ _ _ _ _ _ _ LD). split; [reflexivity|]. split; [exact WR|].
    assert (Eroot : root' = replace_kids (slots fs) root) by (rewrite R1, (ld_root _ _ _ _ _ _ _ _ _ _ _ LD) in Er'; congruence). subst root'.
    split; [exact XM|].
    pose proof (new_tree_ok rnd svd _ _ _ _ (start cfg s) _ _ _ _ OK Kr LD) as OK'. destruct (named_modules_spec _ _ OK') as (_ & Vis & Sp).
    pose proof (bottleneck_names _ _ _ _ (start cfg s) _ _ _ _ OK Kr PL LD) as BN. rewrite P1 in BN.
    (* every bottleneck is visited, under a name ending in logix_lora_B *)
    assert (FB : forall i b n a c, selected tf' nf' root i -> slots fs (i_parent i) (i_key i) = Some (lora_around (lc_rank h) (i_mod i) b n a c) ->
      layer b /\ exists j ks, In j (named_modules (replace_kids (slots fs) root)) /\ i_mod j = b /\ i_name j = dots (ks ++ ["logix_lora_B"%string])).
    { intros i b n a c Hs El.
      assert (X : In i (map fst fs)) by (rewrite (ld_items _ _ _ _ _ _ _ _ _ _ _ LD); apply filter_In; split; [apply Hs|]; apply module_check_spec; split; [apply Hs|discriminate]).
      apply in_map_iff in X as ((i' & l) & Ei & Hl). cbn [fst] in Ei. subst i'. pose proof (slots_in fs i l (ld_slots _ _ _ _ _ _ _ _ _ _ _ LD) Hl) as El2.
      destruct (ld_added _ _ _ _ _ _ _ _ _ _ _ LD i l Hl) as (b0 & n0 & a0 & c0 & Ad & Pt). pose proof (ad_layer _ _ _ _ _ _ _ _ _ _ _ _ Ad) as WL.
      pose proof (ad_eq _ _ _ _ _ _ _ _ _ _ _ _ Ad) as El3. rewrite El, El3 in El2. injection El2 as El2. rewrite P1 in El2. apply lora_around_inj in El2 as (<- & <- & <- & <-); [|exact WL].
      assert (Bb : below b (replace_kids (slots fs) root)) by (exact (bottleneck_below _ _ _ _ (start cfg s) _ _ _ _ _ _ _ _ _ _ OK Kr LD Hl Ad)).
      split.
      { destruct (ad_group _ _ _ _ _ _ _ _ _ _ _ _ Ad) as (g & _ & G). destruct (lc_share _).
        - destruct (ld_made _ _ _ _ _ _ _ _ _ _ _ LD g b G) as (j' & _ & _ & _ & _ & ->). unfold bottleneck, layer. destruct (t_kind (i_mod j')); split; try reflexivity; exact Logic.I.
        - destruct G as [_ ->]. unfold bottleneck, layer. destruct (t_kind (i_mod i)); split; try reflexivity; exact Logic.I. }
      destruct (Vis b Bb) as (j & Hj & Ej). destruct (Sp j Hj) as (kj & Pj & En & _).
      destruct (bottleneck_path _ _ _ _ (start cfg s) _ _ _ _ OK Kr LD i l b n a c Hl Ad kj (i_mod j) Pj) as (k0 & ->); [congruence|]. exists j, k0. auto. }
    assert (SOME : exists j, In j (named_modules (replace_kids (slots fs) root)) /\ substring "logix_lora_B" (i_name j)).
    { destruct (wp_layer _ _ _ _ _ _ _ _ WR i0 Hi0) as (b & n & a & c & El & _). destruct (FB i0 b n a c Hi0 El) as (_ & j & ks & Hj & _ & En).
      exists j. split; [exact Hj|]. rewrite En. apply substring_snoc. exists ""%string, ""%string. reflexivity. }
    split; [|exact FB].
    intros m name. rewrite TR. split.
    - intros (i & [Hi Hp] & <- & <- & HB). specialize (HB SOME). destruct (Sp i Hi) as (ks & Pi & En & _). rewrite En in HB.
      apply (BN ks (i_mod i) Pi) in HB as (i1 & b & n & a & c & ks0 & Hs & El & Pk & -> & Eb).
      exists i1, b, n, a, c, ks0. split; [exact Hs|]. split; [exact El|]. split; [congruence|]. split; [exact Pk|]. split; [exact En|].
      split; [exists i; auto|]. rewrite <- Eb. exact Hp.
    - intros (i & b & n & a & c & ks & Hs & El & <- & Pk & -> & (j & Hj & Ej & En) & Hp). exists j. split; [split; [exact Hj|rewrite Ej, En; exact Hp]|].
      split; [congruence|]. split; [exact En|]. intros _. apply substring_snoc. exists ""%string, ""%string. reflexivity.
  Qed.

  (** without stored filters exactly the bottlenecks are tracked, and nothing else is trained *)
  Lemma add_lora_all clear tf nf cfg (s s' : lm) root : lm_root s = Some root -> t_kids root <> [] -> tree_ok root (lm_next s) -> plain root ->
    lm_add_lora rnd svd true clear tf nf None cfg s = (s', Ok tt) ->
    let h := in_use (lm_handler s) cfg (lm_cfg s) in let tf' := chosen tf (lm_tf s) in let nf' := chosen nf (lm_nf s) in
    (exists i, selected tf' nf' root i) -> (lm_tf s = None \/ lm_tf s = Some []) -> (lm_nf s = None \/ lm_nf s = Some []) ->
    exists f, lm_root s' = Some (replace_kids f root) /\ wrapped h tf' nf' root (lm_next s) (lm_next s') (lm_w s') f /\
      (forall m, In m (x_mods (lm_x s')) <->
         exists i b n a c, selected tf' nf' root i /\ f (i_parent i) (i_key i) = Some (lora_around (lc_rank h) (i_mod i) b n a c) /\ t_id b = m) /\
      (forall u p, below u (replace_kids f root) -> t_kids u = [] -> In p (t_params u) -> ~ In (t_id u) (x_mods (lm_x s')) -> In p (lm_frozen s')).
  Proof.
    intros Er Kr OK PL E h tf' nf' EX ET EN. pose proof (add_lora_bottlenecks clear tf nf cfg s s' root Er Kr OK PL E EX) as (f & Er' & WR & XM & TR & FB).
    fold h tf' nf' in WR, TR, FB. exists f. split; [exact Er'|]. split; [exact WR|].
    pose proof (add_lora_tracked rnd svd clear tf nf cfg s s' root Er Kr OK E) as (root' & Er'' & _ & _ & TR' & FR). rewrite Er' in Er''. injection Er'' as <-. split.
    - intros m. rewrite XM, in_map_iff. split.
      + intros ([m' name] & <- & Hm). apply TR in Hm as (i & b & n & a & c & ks & Hs & El & Em & _). exists i, b, n, a, c. auto.
      + intros (i & b & n & a & c & Hs & El & Em). destruct (FB i b n a c Hs El) as (LB & j & ks & Hj & Ej & En). exists (m, i_name j). split; [reflexivity|].
        apply TR'. exists j. split; [|split; [congruence|split; [reflexivity|]]].
        * split; [exact Hj|]. rewrite Ej. split; [exact LB|]. destruct ET as [-> | ->], EN as [-> | ->]; split; exact Logic.I.
        * intros _. rewrite En. apply substring_snoc. exists ""%string, ""%string. reflexivity.
    - intros u p Bu Ku Hp NT. apply FR. right. exists u. auto.
  Qed.
End P.
