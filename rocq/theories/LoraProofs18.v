(** LoRA: initialize_from_log reads the weights it has just written (C66). *)
From Verif Require Import Py PyStr Field Tensor ModelGrad Monad ModelState ModelMmap ModelSaver ModelLogger ModelModules ModelLora SpecState SpecLora LoraProofs1 LoraProofs2 LoraProofs3 LoraProofs4 LoraProofs5 LoraProofs6 LoraProofs7 LoraProofs8 LoraProofs9 LoraProofs10 LoraProofs11 LoraProofs16 LoraProofs17.
Local Open Scope nat_scope.

Lemma dset_same {K V} `{Eqb K} (k : K) (v : V) d : dget k d = Some v -> dset k v d = d.
Proof.
  induction d as [|[k0 v0] d IH]; cbn [dget dset]; [discriminate|]. destruct (eqb k k0) eqn:E.
  - intros [= ->]. destruct (eqb_spec k k0); [subst; reflexivity|discriminate E].
  - intros X. rewrite (IH X). reflexivity.
Qed.

Section P.
  Context {F : Type} `{OField F}.
  Notation tensor := (tensor F).
  Notation lm := (@lm F).
  Notation weights := (dict mid (tensor * option tensor)).
  Context (rnd : mid -> list nat -> F) (svd : tensor -> res tensor).

  Lemma set_param_same (w : weights) p : has_param w p -> set_param w p (param_of w p) = w.
  Proof.
    intros (v & b & E & Hb). unfold set_param, param_of. rewrite E. destruct p as [m d]. cbn [fst snd] in *. destruct d.
    - destruct b as [x|]; [|exfalso; apply Hb; reflexivity]. apply dset_same, E.
    - destruct b as [x|]; apply dset_same, E.
  Qed.
  Lemma load_own (s : lm) root n : lm_root s = Some root -> tree_ok root n -> undotted root -> load_lora (saved_file (lm_w s) root) s = (s, Ok tt).
  Proof.
    intros Er OK U. unfold load_lora. rewrite Er. set (W := lm_w s). set (ks := state_keys W "" root). set (file := saved_file W root).
    assert (Hp : forall k p, In (k, p) ks -> has_param W p).
    { intros k p Hin. apply (key_dots root n) in Hin as (l & u & v & b & _ & E & _ & Ep & Hb); [|exact OK]. exists v, b. rewrite Ep. auto. }
    assert (Gt : forall k p v, In (k, p) ks -> dget k file = Some v -> v = param_of W p).
    { intros k p v Hin E. assert (Hk : In k (map fst file)) by (apply dget_In_keys; eexists; exact E). apply saved_only in Hk as (p' & Hin' & C).
      unfold file in E. rewrite (saved_get root n W k p OK U Hin C) in E. congruence. }
    assert (FA : forallb (fun e => dmem (fst e) ks) file = true).
    { apply forallb_forall. intros [k v] Hin. cbn [fst]. apply (in_map fst) in Hin. cbn [fst] in Hin. apply saved_only in Hin as (p & Hin & _). apply dmem_In. apply (in_map fst) in Hin. exact Hin. }
    rewrite FA.
    assert (FL : forall l, (forall k p, In (k, p) l -> In (k, p) ks) ->
      fold_left (fun w k => match dget (fst k) file with Some v => if same_shape (shape v) (shape (param_of w (snd k))) then set_param w (snd k) v else w | None => w end) l W = W).
    { induction l as [|[k p] l IH]; intros Hl; [reflexivity|]. cbn [fold_left fst snd]. destruct (dget k file) as [v|] eqn:E.
      - rewrite (Gt k p v (Hl k p (or_introl eq_refl)) E), same_shape_refl, set_param_same by (eapply Hp, Hl; left; reflexivity). apply IH. intros k' p' H'. apply Hl. right. exact H'.
      - apply IH. intros k' p' H'. apply Hl. right. exact H'. }
    rewrite (FL ks) by auto.
    assert (NB : existsb (fun k => match dget (fst k) file with Some v => negb (same_shape (shape v) (shape (param_of W (snd k)))) | None => false end) ks = false).
    { apply not_true_is_false. rewrite existsb_exists. intros ([k p] & Hin & C). cbn [fst snd] in C. destruct (dget k file) as [v|] eqn:E; [|discriminate C].
      rewrite (Gt k p v Hin E), same_shape_refl in C. discriminate C. }
    rewrite NB. f_equal. unfold W. rewrite <- Er. destruct s; reflexivity.
  Qed.

  (** what add_lora leaves on disk *)
  Lemma add_lora_file watch clear tf nf cfg (s s' : lm) : lm_add_lora rnd svd watch clear tf nf None cfg s = (s', Ok tt) ->
    exists t f, save_lora t = (lm_set_file t f, Ok tt) /\ lm_root t = lm_root s' /\ lm_w t = lm_w s' /\ lm_file s' = f.
  Proof.
    unfold lm_add_lora. intros E. apply sbind_ok in E as (s0 & [] & E0 & E). apply sbind_ok in E as (s1 & q & E1 & E). apply sbind_ok in E as (s2 & [] & E2 & E).
    apply sbind_ok in E as (s3 & [] & E3 & E). injection E3 as <-. apply sbind_ok in E as (s4 & [] & E4 & E). pose proof E4 as E4'. apply save_lora_keeps in E4' as (f & ->).
    apply sbind_ok in E as (s5 & [] & E5 & E).
    assert (A5 : exists x, s5 = lm_set_x (lm_set_file s2 f) x).
    { destruct (clear || watch).
      - apply clear_keeps in E5 as (x & -> & _). exists x. reflexivity.
      - injection E5 as <-. exists (lm_x s2). destruct s2; reflexivity. }
    destruct A5 as (x & ->). exists s2, f. split; [exact E4|]. destruct watch.
    - apply sbind_ok in E as (s6 & s6' & E6 & E). injection E6 as <- <-. change (lm_root (lm_set_x (lm_set_file s2 f) x)) with (lm_root s2) in E.
      destruct (lm_root s2) as [root|] eqn:Er; [|discriminate E]. unfold lm_watch, on_x in E. destruct (watch _ _ _) as [x' r]. injection E as <- _. repeat split.
    - injection E as <-. repeat split.
  Qed.

  Lemma bottleneck_leaf t r b : t_kids (bottleneck t r b) = [].
  Proof. unfold bottleneck. destruct (t_kind t); reflexivity. Qed.
  Lemma replaced_undotted root n0 n1 h tf nf (w : weights) f : (forall i, selected tf nf root i -> wlayer (i_mod i)) ->
    wrapped h tf nf root n0 n1 w f -> undotted root -> undotted (replace_kids f root).
  Proof.
    intros WL WR U v k c Bv Hk. apply below_replace in Bv as [(u & Bu & ->)|(u & key & c0 & l & Bu & Hc0 & Ef & Bv)].
    - destruct u as [id ki cls ps kids]. cbn [replace_kids t_kids] in Hk. apply in_map_iff in Hk as ((k0 & c0) & E & Hk). cbn [fst snd] in E. injection E as -> _. exact (U _ _ _ Bu Hk).
    - destruct (wp_only _ _ _ _ _ _ _ _ WR _ _ _ Ef) as (i & Hs & Ip & Ik). destruct (wp_layer _ _ _ _ _ _ _ _ WR i Hs) as (b & n & a & cc & El & _ & _ & _ & B1 & B2).
      assert (Kb : t_kids b = []) by (destruct (lc_share h); [destruct (B2 eq_refl) as (j & _ & _ & ->)|rewrite (B1 eq_refl)]; apply bottleneck_leaf).
      rewrite Ip, Ik, Ef in El. injection El as ->. rewrite lora_around_eq in Bv by (apply WL, Hs).
      apply below_inv in Bv as [->|(k1 & c1 & Hk1 & Bv)].
      + cbn [t_kids] in Hk. apply no_dot_spec. destruct Hk as [E|[E|[E|[E|[]]]]]; injection E as <- _; [| | |unfold base_key; destruct (t_kind (i_mod i))]; cbn; repeat split; discriminate.
      + assert (Kc : t_kids c1 = []).
        { cbn [t_kids] in Hk1. destruct Hk1 as [E|[E|[E|[E|[]]]]]; injection E as _ <-.
          - unfold enc_of. destruct (t_kind (i_mod i)); try reflexivity; apply (proj2 Hs).
          - exact Kb.
          - unfold dec_of. destruct (t_kind (i_mod i)); try reflexivity; apply (proj2 Hs).
          - apply (proj2 Hs). }
        apply below_inv in Bv as [->|(? & ? & X & _)]; rewrite Kc in *; contradiction.
  Qed.

  (** adding LoRA modules to a plain model: the file holds the new weights *)
  Lemma add_lora_writes clear tf nf cfg (s s1 : lm) root : lm_root s = Some root -> t_kids root <> [] -> tree_ok root (lm_next s) -> plain root -> undotted root ->
    (exists i, selected (chosen tf (lm_tf s)) (chosen nf (lm_nf s)) root i) ->
    lm_add_lora rnd svd true clear tf nf None cfg s = (s1, Ok tt) ->
    exists root1 file, lm_root s1 = Some root1 /\ tree_ok root1 (lm_next s1) /\ undotted root1 /\ lm_file s1 = Some file /\ load_lora file s1 = (s1, Ok tt) /\
      (exists ks u, path root1 ks u /\ lora_named ks /\ dget (t_id u) (lm_w s1) <> None) /\
      (forall ks u v b, path root1 ks u -> lora_named ks -> dget (t_id u) (lm_w s1) = Some (v, b) ->
         dget (dots (ks ++ ["weight"%string])) file = Some v /\ forall x, b = Some x -> dget (dots (ks ++ ["bias"%string])) file = Some x) /\
      (forall key, In key (dkeys file) -> exists ks u v b, path root1 ks u /\ lora_named ks /\ dget (t_id u) (lm_w s1) = Some (v, b) /\
         (key = dots (ks ++ ["weight"%string]) \/ (key = dots (ks ++ ["bias"%string]) /\ b <> None))).
  Proof.
    intros Er Kr OK PL U (i & Hs) E.
    destruct (add_lora_tree rnd svd _ _ _ _ _ _ _ _ Er Kr OK E) as (f & Er' & WR & OK' & _).
    set (h := in_use (lm_handler s) cfg (lm_cfg s)) in *.
    assert (WLs : forall j, selected (chosen tf (lm_tf s)) (chosen nf (lm_nf s)) root j -> wlayer (i_mod j)).
    { intros j Hj. destruct (add_lora_layer rnd svd _ _ _ _ _ _ _ _ j Er Kr OK E Hj) as (_ & _ & _ & _ & _ & _ & _ & _ & _ & WL & _). exact WL. }
    pose proof (replaced_undotted root _ _ _ _ _ _ f WLs WR U) as U'.
    destruct (add_lora_bottlenecks rnd svd _ _ _ _ _ _ _ Er Kr OK PL E (ex_intro _ i Hs)) as (f2 & Er2 & WR2 & _ & _ & FB).
    rewrite Er' in Er2. injection Er2 as Er2.
    destruct (wp_layer _ _ _ _ _ _ _ _ WR2 i Hs) as (b & n & a & c & El & _ & _ & Wb & _). destruct (FB i b n a c Hs El) as (_ & j & ks & Hj & Ej & En). rewrite <- Er2 in Hj.
    destruct (named_modules_spec _ _ OK') as (_ & _ & Sp). destruct (Sp j Hj) as (kj & Pj & Enj & _).
    assert (EX : exists ks u, path (replace_kids f root) ks u /\ lora_named ks /\ dget (t_id u) (lm_w s1) <> None).
    { exists kj, (i_mod j). split; [exact Pj|]. split; [|rewrite Ej, Wb; discriminate].
      assert (X : substring "logix_lora" (dots kj)) by (rewrite <- Enj, En; apply substring_snoc; exists ""%string, "_B"%string; reflexivity).
      apply substring_dots in X as (k & Hk & Sk); [|cbn; repeat split; discriminate|discriminate]. exists k. auto. }
    destruct (add_lora_file _ _ _ _ _ _ _ E) as (t & file & Sv & Rt & Wt & Ef).
    assert (Ert : lm_root t = Some (replace_kids f root)) by congruence.
    assert (EXt : exists ks u, path (replace_kids f root) ks u /\ lora_named ks /\ dget (t_id u) (lm_w t) <> None) by (rewrite Wt; exact EX).
    destruct (save_lora_saves t _ _ Ert OK' U' EXt) as (file' & Sv' & S1 & S2). rewrite Sv in Sv'. injection Sv' as Sv'.
    pose proof (save_lora_file t _ _ Ert OK' EXt) as Sv2. rewrite Sv in Sv2. injection Sv2 as Sv2.
    rewrite Wt in *. exists (replace_kids f root), file'. split; [exact Er'|]. split; [exact OK'|]. split; [exact U'|]. split; [congruence|]. split.
    { assert (X : file' = saved_file (lm_w s1) (replace_kids f root)) by congruence. rewrite X. eapply load_own; eassumption. }
    split; [exact EX|]. split; [exact S1|exact S2].
  Qed.
  Lemma plain_not_lora root n : tree_ok root n -> plain root -> ~ (exists j, In j (named_modules root) /\ substring "logix_lora_B" (i_name j)).
  Proof.
    intros OK PL (j & Hj & Sj). destruct (named_modules_spec _ _ OK) as (_ & _ & Sp). destruct (Sp j Hj) as (kj & Pj & Enj & _). rewrite Enj in Sj.
    apply substring_dots in Sj as (k & Hk & Sk); [|cbn; repeat split; discriminate|discriminate]. destruct (path_keys_in _ _ _ Pj k Hk) as (v & c & Bv & Hv). exact (PL _ _ _ Bv Hv Sk).
  Qed.
  (** initialize_from_log on a plain model overwrites the stored weights and then loads the new ones *)
  Lemma from_log_lost (s s1 : lm) root old : lm_root s = Some root -> t_kids root <> [] -> tree_ok root (lm_next s) -> plain root -> undotted root ->
    (exists i, selected (lm_tf s) (lm_nf s) root i) -> lm_file s = Some old ->
    lm_add_lora rnd svd true true None None None None s = (s1, Ok tt) ->
    lora_from_log rnd svd None s = (s1, Ok tt) /\
    exists root1 file, lm_root s1 = Some root1 /\ lm_file s1 = Some file /\ (exists ks u, path root1 ks u /\ lora_named ks /\ dget (t_id u) (lm_w s1) <> None) /\
      (forall ks u v b, path root1 ks u -> lora_named ks -> dget (t_id u) (lm_w s1) = Some (v, b) ->
         dget (dots (ks ++ ["weight"%string])) file = Some v /\ forall x, b = Some x -> dget (dots (ks ++ ["bias"%string])) file = Some x).
  Proof.
    intros Er Kr OK PL U EX Ef E. destruct (add_lora_writes true None None None s s1 root Er Kr OK PL U EX E) as (root1 & file & R1 & _ & _ & F1 & L1 & X1 & S1 & _). split.
    - rewrite (from_log_adds rnd svd None s s1 root file); [exact L1|cbn [stored_lora]; rewrite Ef; discriminate|exact Er|exact (plain_not_lora _ _ OK PL)|exact E|cbn [stored_lora]; rewrite F1; reflexivity].
    - exists root1, file. auto.
  Qed.
  (** the same if the modules were added before: add_lora has written the file *)
  Lemma from_log_after (s s1 : lm) root clear tf nf cfg : lm_root s = Some root -> t_kids root <> [] -> tree_ok root (lm_next s) -> plain root -> undotted root ->
    (exists i, selected (chosen tf (lm_tf s)) (chosen nf (lm_nf s)) root i) ->
    lm_add_lora rnd svd true clear tf nf None cfg s = (s1, Ok tt) ->
    lora_from_log rnd svd None s1 = (s1, Ok tt).
  Proof.
    intros Er Kr OK PL U EX E. destruct (add_lora_writes clear tf nf cfg s s1 root Er Kr OK PL U EX E) as (root1 & file & R1 & OK1 & _ & F1 & L1 & (ks & u & P & (k & Hk & Sk) & Eu) & _).
    destruct EX as (i & Hs).
    destruct (add_lora_bottlenecks rnd svd _ _ _ _ _ _ _ Er Kr OK PL E (ex_intro _ i Hs)) as (f2 & Er2 & WR2 & _ & _ & FB).
    destruct (wp_layer _ _ _ _ _ _ _ _ WR2 i Hs) as (b & n & a & c & El & _). destruct (FB i b n a c Hs El) as (_ & j & kj & Hj & Ej & En).
    rewrite (from_log_loads rnd svd None s1 (replace_kids f2 root) file); [exact L1|cbn [stored_lora]; rewrite F1; reflexivity|exact Er2|].
    exists j. split; [exact Hj|]. rewrite En. apply substring_snoc. exists ""%string, ""%string. reflexivity.
  Qed.
  Lemma from_log_has path (s : lm) root file : path = Some (Some (Ok file)) \/ (path = None /\ lm_file s = Some file) ->
    lm_root s = Some root -> (exists j, In j (named_modules root) /\ substring "logix_lora_B" (i_name j)) -> lora_from_log rnd svd path s = load_lora file s.
  Proof.
    intros Ep Er L. apply from_log_loads with (root := root); auto. destruct Ep as [->|[-> Ef]]; cbn [stored_lora]; [reflexivity|rewrite Ef; reflexivity].
  Qed.
  Lemma from_log_other (s s1 : lm) root file : lm_root s = Some root -> ~ (exists j, In j (named_modules root) /\ substring "logix_lora_B" (i_name j)) ->
    lm_add_lora rnd svd true true None None None None s = (s1, Ok tt) -> lora_from_log rnd svd (Some (Some (Ok file))) s = load_lora file s1.
  Proof. intros Er L E. apply (from_log_adds rnd svd _ s s1 root file); auto. discriminate. Qed.
  Lemma from_log_skip path (s : lm) : path = Some None \/ (path = None /\ lm_file s = None) \/ lm_root s = None -> lora_from_log rnd svd path s = (s, Ok tt).
  Proof. intros X. apply from_log_nothing. destruct X as [->|[[-> E]|E]]; [left; reflexivity|left; cbn [stored_lora]; rewrite E; reflexivity|right; exact E]. Qed.
  Lemma from_log_raises path (s s1 : lm) root e : lm_root s = Some root ->
    (path = Some (Some (Err e)) /\ (exists j, In j (named_modules root) /\ substring "logix_lora_B" (i_name j)) -> lora_from_log rnd svd path s = (s, Err e)) /\
    (path <> Some None -> (path = None -> lm_file s <> None) -> ~ (exists j, In j (named_modules root) /\ substring "logix_lora_B" (i_name j)) ->
     lm_add_lora rnd svd true true None None None None s = (s1, Err e) -> lora_from_log rnd svd path s = (s1, Err e)).
  Proof.
    intros Er. split.
    - intros (-> & L). apply from_log_fails with (root := root); auto.
    - intros N1 N2 L E. apply from_log_add_fails with (root := root); auto. destruct path as [[f|]|]; cbn [stored_lora]; [discriminate|contradiction|]. destruct (lm_file s); [discriminate|]. intros _. exact (N2 eq_refl eq_refl).
  Qed.
End P.
