(** PCA initialisation of LoRA (C65). *)
From Verif Require Import Py PyStr Field Tensor ModelGrad Monad ModelState ModelMmap ModelSaver ModelLogger ModelModules ModelLora SpecGrad SpecState SpecLora GradProofs1 LoraProofs1 LoraProofs2 LoraProofs3 LoraProofs4 LoraProofs5 LoraProofs6 LoraProofs7 LoraProofs10 LoraProofs11.
Local Open Scope nat_scope.

Lemma pack_lt a b m n : a < m -> b < n -> a * n + b < m * n.
Proof. intros L1 L2. apply Nat.lt_le_trans with (S a * n); [cbn; lia|]. apply Nat.mul_le_mono_r. lia. Qed.

Section P.
  Context {F : Type} `{OField F}.
  Notation tensor := (tensor F).
  Notation lm := (@lm F).
  Context (rnd : mid -> list nat -> F) (svd : tensor -> res tensor).

  Lemma nd_item_has (x : nd (@sval F)) k y d : nd_item x k = Ok y -> y = Leaf d -> exists l, x = Node l /\ dget k l = Some (Leaf d).
  Proof. destruct x as [v|l]; cbn [nd_item]; [discriminate|]. intros [= <-] E. exists l. split; [reflexivity|]. destruct (dget k l) as [z|]; [congruence|discriminate E]. Qed.
  Lemma top_k_ok (m : nd (@sval F)) k u : top_k svd m k = Ok u ->
    exists d v, m = Leaf (VT d) /\ svd (snd d) = Ok v /\ forall n q, shape v = [n; q] -> u = mgen n (min k q) (fun i j => mget v i j).
  Proof.
    unfold top_k. destruct m as [[d| | |]|]; try discriminate. destruct (svd (snd d)) as [v|] eqn:E; [|discriminate]. cbn [bind].
    destruct (shape v) as [|n [|q [|]]] eqn:S; try discriminate. intros [= <-]. exists d, v. split; [reflexivity|]. split; [exact E|]. intros n' q' E'. rewrite S in E'. injection E' as <- <-. reflexivity.
  Qed.
  Lemma cov_stored (s : lm) name cov dir d : cov_of s name = Ok cov -> nd_item cov dir = Ok (Leaf (VT d)) -> stored (x_state (lm_x s)) SCov name dir = Some (snd d).
  Proof.
    unfold cov_of, stored, lookup2, stat_name. destruct (dget "covariance_state" (attrs (x_state (lm_x s)))) as [cs|] eqn:E; [|discriminate]. cbn [bind]. intros E1 E2.
    destruct cov as [v|l]; [discriminate E2|]. destruct cs as [v|ll]; [discriminate E1|]. cbn [nd_item] in E1, E2. injection E1 as E1. injection E2 as E2.
    destruct (dget name ll) as [y|]; [subst y|injection E1 as <-; discriminate E2]. destruct (dget dir l) as [z|]; [subst z; reflexivity|discriminate E2].
  Qed.

  (** the layers of the LoRA module of [i] in a finished state *)
  Lemma add_lora_added watch clear tf nf cfg (s s' : lm) root i : lm_root s = Some root -> t_kids root <> [] -> tree_ok root (lm_next s) ->
    lm_add_lora rnd svd watch clear tf nf None cfg s = (s', Ok tt) -> selected (chosen tf (lm_tf s)) (chosen nf (lm_nf s)) root i ->
    let h := in_use (lm_handler s) cfg (lm_cfg s) in
    exists cs f b n a c, dget "covariance_state" (attrs (x_state (lm_x s))) = Some cs /\ lm_handler s' = Some (in_force h cs) /\
      lm_root s' = Some (replace_kids f root) /\ f (i_parent i) (i_key i) = Some (lora_around (lc_rank h) (i_mod i) b n a c) /\ wlayer (i_mod i) /\
      (exists wa, dget a (lm_w s') = Some (wa, None) /\ shape wa = weight_shape (enc_of (lc_rank h) (i_mod i) a)) /\
      (exists wc, dget c (lm_w s') = Some (wc, None) /\ shape wc = weight_shape (dec_of (lc_rank h) (i_mod i) c)) /\
      (lc_init (in_force h cs) <> "pca"%string ->
        dget a (lm_w s') = Some (tgen (weight_shape (enc_of (lc_rank h) (i_mod i) a)) (rnd a), None) /\
        dget c (lm_w s') = Some (tgen (weight_shape (dec_of (lc_rank h) (i_mod i) c)) (rnd c), None)) /\
      (lc_init (in_force h cs) = "pca"%string -> exists cov va vc, cov_of s (i_name i) = Ok cov /\
        dget a (lm_w s') = Some (va, None) /\ dget c (lm_w s') = Some (vc, None) /\ pca_weights svd (lc_rank h) (i_mod i) cov va vc).
  Proof.
    intros Er Kr OK E Hs h. destruct (add_lora_done rnd svd _ _ _ _ _ _ _ _ Er Kr OK E) as (cs & fs & sh' & T & s2 & Ecs & LD & R1 & R2 & R3 & _ & _ & R & _). fold h in LD, R.
    assert (Hin : exists l, In (i, l) fs).
    { assert (X : In i (map fst fs)) by (rewrite (ld_items _ _ _ _ _ _ _ _ _ _ _ LD); apply filter_In; split; [apply Hs|]; apply module_check_spec; split; [apply Hs|discriminate]).
      apply in_map_iff in X as ([i' l] & <- & X). exists l. exact X. }
    destruct Hin as (l & Hl). destruct (ld_added _ _ _ _ _ _ _ _ _ _ _ LD i l Hl) as (b & n & a & c & Ad & _).
    destruct (in_force_parts h cs) as (P1 & P2 & P3).
    exists cs, (slots fs), b, n, a, c. split; [exact Ecs|]. split; [exact R|]. rewrite R1, R2. split; [exact (ld_root _ _ _ _ _ _ _ _ _ _ _ LD)|].
    pose proof (slots_in fs i l (ld_slots _ _ _ _ _ _ _ _ _ _ _ LD) Hl) as El. rewrite (ad_eq _ _ _ _ _ _ _ _ _ _ _ _ Ad), P1 in El.
    pose proof (ad_wa _ _ _ _ _ _ _ _ _ _ _ _ Ad) as A1. pose proof (ad_wc _ _ _ _ _ _ _ _ _ _ _ _ Ad) as A2. pose proof (ad_rnd _ _ _ _ _ _ _ _ _ _ _ _ Ad) as A3. pose proof (ad_pca _ _ _ _ _ _ _ _ _ _ _ _ Ad) as A4.
    rewrite P1 in A1, A2, A3, A4. split; [exact El|]. split; [exact (ad_layer _ _ _ _ _ _ _ _ _ _ _ _ Ad)|]. auto.
  Qed.

  (** random weights otherwise; falling back to random weights is for good *)
  Lemma add_lora_random watch clear tf nf cfg (s s' : lm) root i cs : lm_root s = Some root -> t_kids root <> [] -> tree_ok root (lm_next s) ->
    lm_add_lora rnd svd watch clear tf nf None cfg s = (s', Ok tt) -> selected (chosen tf (lm_tf s)) (chosen nf (lm_nf s)) root i ->
    dget "covariance_state" (attrs (x_state (lm_x s))) = Some cs ->
    let h := in_use (lm_handler s) cfg (lm_cfg s) in
    lc_init h <> "pca"%string \/ cs = Node [] ->
    exists f b n a c ta tc, lm_root s' = Some (replace_kids f root) /\ f (i_parent i) (i_key i) = Some (lora_around (lc_rank h) (i_mod i) b n a c) /\
      In ("logix_lora_A"%string, ta) (t_kids (lora_around (lc_rank h) (i_mod i) b n a c)) /\ In ("logix_lora_C"%string, tc) (t_kids (lora_around (lc_rank h) (i_mod i) b n a c)) /\
      dget (t_id ta) (lm_w s') = Some (tgen (weight_shape ta) (rnd (t_id ta)), None) /\ dget (t_id tc) (lm_w s') = Some (tgen (weight_shape tc) (rnd (t_id tc)), None) /\
      exists h', lm_handler s' = Some h' /\ lc_init h' <> "pca"%string.
  Proof.
    intros Er Kr OK E Hs Ecs h Pc. destruct (add_lora_added _ _ _ _ _ _ _ _ _ Er Kr OK E Hs) as (cs' & f & b & n & a & c & Ecs' & Eh & E1 & E2 & WL & _ & _ & R & _). fold h in Eh, E2, R.
    rewrite Ecs in Ecs'. injection Ecs' as <-. destruct (R (no_pca h cs Pc)) as [Ra Rc].
    exists f, b, n, a, c, (enc_of (lc_rank h) (i_mod i) a), (dec_of (lc_rank h) (i_mod i) c). split; [exact E1|]. split; [exact E2|]. rewrite lora_around_eq by exact WL. cbn [t_kids In].
    assert (Ia : t_id (enc_of (lc_rank h) (i_mod i) a) = a) by (unfold enc_of; unfold wlayer in WL; destruct (t_kind (i_mod i)); try contradiction; reflexivity).
    assert (Ic : t_id (dec_of (lc_rank h) (i_mod i) c) = c) by (unfold dec_of; unfold wlayer in WL; destruct (t_kind (i_mod i)); try contradiction; reflexivity).
    rewrite Ia, Ic. repeat (split; [auto|]). exists (in_force h cs). split; [exact Eh|]. apply no_pca, Pc.
  Qed.

  (** the encoder gets the first left singular vectors of the forward covariance, the decoder those of the backward covariance *)
  Lemma add_lora_pca watch clear tf nf cfg (s s' : lm) root i cs : lm_root s = Some root -> t_kids root <> [] -> tree_ok root (lm_next s) ->
    lm_add_lora rnd svd watch clear tf nf None cfg s = (s', Ok tt) -> selected (chosen tf (lm_tf s)) (chosen nf (lm_nf s)) root i ->
    dget "covariance_state" (attrs (x_state (lm_x s))) = Some cs -> cs <> Node [] ->
    (forall m u n, shape m = [n; n] -> svd m = Ok u -> shape u = [n; n]) ->
    let h := in_use (lm_handler s) cfg (lm_cfg s) in lc_init h = "pca"%string ->
    exists f b n a c wa wc Cf Cb Uf Ub, lm_root s' = Some (replace_kids f root) /\ f (i_parent i) (i_key i) = Some (lora_around (lc_rank h) (i_mod i) b n a c) /\
      dget a (lm_w s') = Some (wa, None) /\ dget c (lm_w s') = Some (wc, None) /\
      stored (x_state (lm_x s)) SCov (i_name i) "forward" = Some Cf /\ stored (x_state (lm_x s)) SCov (i_name i) "backward" = Some Cb /\
      svd Cf = Ok Uf /\ svd Cb = Ok Ub /\
      let r := min (lc_rank h) (width (i_mod i)) in
      match t_kind (i_mod i) with
      | KLinear ni no => shape Cf = [ni; ni] -> shape Cb = [no; no] ->
          (forall j l, j < r -> l < ni -> mget wa j l = mget Uf l j) /\ (forall k j, k < no -> j < r -> mget wc k j = mget Ub k j)
      | KConv2d g => shape Cf = [c_in g * c_kh g * c_kw g; c_in g * c_kh g * c_kw g] -> shape Cb = [c_out g; c_out g] ->
          (forall j ch kh kw, j < r -> ch < c_in g -> kh < c_kh g -> kw < c_kw g -> tget wa [j; ch; kh; kw] = mget Uf ((ch * c_kh g + kh) * c_kw g + kw) j) /\
          (forall k j, k < c_out g -> j < r -> tget wc [k; j; 0; 0] = mget Ub k j)
      | _ => False
      end /\
      lm_handler s' = Some h.
  Proof.
    intros Er Kr OK E Hs Ecs Ncs SV h Ip. destruct (add_lora_added _ _ _ _ _ _ _ _ _ Er Kr OK E Hs) as (cs' & f & b & n & a & c & Ecs' & Eh & E1 & E2 & WL & Sa & Sc & _ & R). fold h in Eh, E2, R, Sa, Sc.
    rewrite Ecs in Ecs'. injection Ecs' as <-.
    assert (IF : in_force h cs = h) by (unfold in_force; destruct cs as [v|[|x l]]; rewrite ?andb_false_r; try reflexivity; contradiction).
    rewrite IF in Eh, R. destruct (R Ip) as (cov & wa & wc & Ecov & Ea & Ec & (nf0 & nb0 & uf & ub & uft & Ef & Eb & Tf & Tb & Tt & Wt)).
    destruct (top_k_ok _ _ _ Tf) as (df & Uf & -> & Svf & Uf_eq). destruct (top_k_ok _ _ _ Tb) as (db & Ub & -> & Svb & Ub_eq).
    destruct Sa as (wa' & Ea' & Sa). destruct Sc as (wc' & Ec' & Sc). rewrite Ea in Ea'. injection Ea' as <-. rewrite Ec in Ec'. injection Ec' as <-.
    exists f, b, n, a, c, wa, wc, (snd df), (snd db), Uf, Ub.
    pose proof (cov_stored s _ _ _ _ Ecov Ef) as St1. pose proof (cov_stored s _ _ _ _ Ecov Eb) as St2.
    repeat (split; [assumption|]). split; [|exact Eh]. unfold wlayer in WL. unfold enc_of, dec_of, weight_shape in Sa, Sc. destruct (t_kind (i_mod i)) as [ni no| |g| |] eqn:Ek; try contradiction; cbn [t_kind conv1x1 enc_geom c_in c_out c_groups c_kh c_kw] in Sa, Sc.
    - intros C1 C2. pose proof (SV _ _ _ C1 Svf) as U1. pose proof (SV _ _ _ C2 Svb) as U2. specialize (Uf_eq _ _ U1). specialize (Ub_eq _ _ U2).
      assert (Lr : min (lc_rank h) (width (i_mod i)) <= ni /\ min (lc_rank h) (width (i_mod i)) <= no) by (unfold width; rewrite Ek; lia).
      set (r := min (lc_rank h) (width (i_mod i))) in *. rewrite (Nat.min_l r ni) in Uf_eq by lia. rewrite (Nat.min_l r no) in Ub_eq by lia. subst uf ub. destruct Wt as [W1 W2]. rewrite Sa in W1. rewrite Sc in W2.
      unfold transpose in Tt. cbn [mgen tgen shape] in Tt. injection Tt as <-.
      rewrite expand_to_same in W1 by reflexivity. injection W1 as <-. rewrite expand_to_same in W2 by reflexivity. injection W2 as <-. split.
      + intros j l Hj Hl. rewrite (mget_mgen r ni) by assumption. apply (mget_mgen ni r (fun i j => mget Uf i j)); assumption.
      + intros k j Hk Hj. apply (mget_mgen no r (fun i j => mget Ub i j)); assumption.
    - intros C1 C2. pose proof (SV _ _ _ C1 Svf) as U1. pose proof (SV _ _ _ C2 Svb) as U2. specialize (Uf_eq _ _ U1). specialize (Ub_eq _ _ U2). destruct Wt as [W1 W2].
      set (D := c_in g * c_kh g * c_kw g) in *.
      assert (Lr : 0 < c_kh g -> 0 < c_kw g -> min (lc_rank h) (width (i_mod i)) <= D).
      { intros P1 P2. assert (X : c_in g * 1 * 1 <= D) by (unfold D; apply Nat.mul_le_mono; [apply Nat.mul_le_mono_l; lia|lia]). unfold width. rewrite Ek. lia. }
      assert (Lr2 : min (lc_rank h) (width (i_mod i)) <= c_out g) by (unfold width; rewrite Ek; lia).
      set (r := min (lc_rank h) (width (i_mod i))) in *. rewrite (Nat.min_l r (c_out g)) in Ub_eq by lia. subst ub. split.
      + intros j ch kh kw Hj Hc Hh Hw. rewrite (Nat.min_l r D) in Uf_eq by (apply Lr; lia). subst uf. unfold transpose in Tt. cbn [mgen tgen shape] in Tt. injection Tt as <-.
        unfold tget. rewrite Sa, W1. cbn [ravel]. rewrite Nat.div_1_r.
        set (l := (ch * c_kh g + kh) * c_kw g + kw). assert (Hl : l < D) by (unfold l, D; apply pack_lt; [apply pack_lt; assumption|assumption]).
        transitivity (mget (mgen r D (fun i j => mget (mgen D r (fun i0 j0 => mget Uf i0 j0)) j i)) j l).
        { match goal with |- _ = mget ?m j l => change (mget m j l) with (nth (j * (D * 1) + (l * 1 + 0)) (data m) f0) end. f_equal. unfold l, D, prod. cbn [fold_right]. ring. }
        rewrite (mget_mgen r D) by assumption. apply (mget_mgen D r (fun i j => mget Uf i j)); assumption.
      + intros k j Hk Hj. unfold tget. rewrite Sc, W2. cbn [ravel].
        transitivity (mget (mgen (c_out g) r (fun i j => mget Ub i j)) k j).
        { match goal with |- _ = mget ?m k j => change (mget m k j) with (nth (k * (r * 1) + (j * 1 + 0)) (data m) f0) end. f_equal. rewrite Nat.div_1_r. unfold prod. cbn [fold_right]. lia. }
        apply (mget_mgen (c_out g) r (fun i j => mget Ub i j)); assumption.
  Qed.
End P.
