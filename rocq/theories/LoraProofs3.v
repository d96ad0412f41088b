(** LoRAHandler.add_lora: what one module adds, and the loop. *)
From Verif Require Import Py PyStr Field Tensor ModelGrad Monad ModelState ModelMmap ModelSaver ModelLogger ModelModules ModelLora SpecLora LoraProofs1 LoraProofs2.
Local Open Scope nat_scope.

Section P.
  Context {F : Type} `{OField F}.
  Notation tensor := (tensor F).
  Notation lm := (@lm F).
  Notation weights := (dict mid (tensor * option tensor)).
  Context (rnd : mid -> list nat -> F) (svd : tensor -> res tensor).

  (** the parts add_lora's loop does not touch *)
  Definition keeps (s s' : lm) : Prop :=
    lm_x s' = lm_x s /\ lm_frozen s' = lm_frozen s /\ lm_tf s' = lm_tf s /\ lm_nf s' = lm_nf s /\ lm_cfg s' = lm_cfg s /\
    lm_handler s' = lm_handler s /\ lm_file s' = lm_file s.
  Lemma keeps_refl s : keeps s s.
  Proof. repeat split. Qed.
  Lemma keeps_trans a b c : keeps a b -> keeps b c -> keeps a c.
  Proof. unfold keeps. intros (A1 & A2 & A3 & A4 & A5 & A6 & A7) (B1 & B2 & B3 & B4 & B5 & B6 & B7). repeat split; congruence. Qed.
  Lemma keeps_set_model s r n w : keeps s (lm_set_model s r n w).
  Proof. repeat split. Qed.

  Definition wlayer (t : mtree) : Prop := match t_kind t with KLinear _ _ | KConv2d _ => True | _ => False end.
  Definition enc_of (rank : nat) (t : mtree) (a : mid) : mtree :=
    match t_kind t with
    | KConv2d g => MT a (KConv2d (enc_geom g (min rank (width t)))) [] [a] []
    | KLinear i o => MT a (KLinear i (min rank (width t))) [] [a] []
    | _ => t end.
  Definition dec_of (rank : nat) (t : mtree) (c : mid) : mtree :=
    match t_kind t with
    | KConv2d g => MT c (KConv2d (conv1x1 (min rank (width t)) (c_out g))) [] [c] []
    | KLinear i o => MT c (KLinear (min rank (width t)) o) [] [c] []
    | _ => t end.
  Definition base_key (t : mtree) : string := match t_kind t with KConv2d _ => "_conv" | _ => "_linear" end.
  Lemma lora_around_eq rank t b n a c : wlayer t ->
    lora_around rank t b n a c = MT n KOther [] [] [("logix_lora_A", enc_of rank t a); ("logix_lora_B", b); ("logix_lora_C", dec_of rank t c); (base_key t, t)]%string.
  Proof. unfold wlayer, lora_around, enc_of, dec_of, base_key, width. destruct (t_kind t); try contradiction; reflexivity. Qed.

  (** weights after wrapping: outside the new numbers and the bottleneck nothing changes *)
  Record wraps (s s' : lm) (rank : nat) (t b l : mtree) (n a c : mid) : Prop := {
    wr_eq : l = lora_around rank t b n a c;
    wr_keeps : keeps s s';
    wr_root : lm_root s' = lm_root s;
    wr_a : lm_next s <= a < lm_next s'; wr_c : lm_next s <= c < lm_next s'; wr_n : lm_next s <= n < lm_next s';
    wr_ac : a <> c; wr_an : a <> n; wr_cn : c <> n;
    wr_wb : dget (t_id b) (lm_w s') = Some (tzeros (weight_shape b), None);
    wr_wa : exists wa, dget a (lm_w s') = Some (wa, None) /\ shape wa = weight_shape (enc_of rank t a);
    wr_wc : exists wc, dget c (lm_w s') = Some (wc, None) /\ shape wc = weight_shape (dec_of rank t c);
    wr_w : forall x : mid, x < lm_next s -> x <> t_id b -> dget x (lm_w s') = dget x (lm_w s)
  }.

  Lemma new_layer_run k wsh (s : lm) : new_layer rnd k wsh s =
    (lm_set_model s (lm_root s) (S (lm_next s)) (dset (lm_next s) (tgen wsh (rnd (lm_next s)), None) (lm_w s)), Ok (MT (lm_next s) k [] [lm_next s] [])).
  Proof. reflexivity. Qed.
  Lemma set_weight_run m f (s : lm) v b v' : dget (t_id m) (lm_w s) = Some (v, b) -> f v = Ok v' ->
    set_weight m f s = (lm_set_model s (lm_root s) (lm_next s) (dset (t_id m) (v', b) (lm_w s)), Ok tt).
  Proof. intros E1 E2. unfold set_weight. rewrite E1, E2. reflexivity. Qed.
  Ltac dg := repeat first [rewrite dget_dset_eq | rewrite dget_dset_neq by lia].

  Definition new_bid (shared : option mtree) (s : lm) : mid := match shared with Some b => t_id b | None => S (lm_next s) end.
  Lemma new_lora_wraps rank t shared (s : lm) : wlayer t ->
    (forall b, shared = Some b -> t_id b < lm_next s /\ exists v, dget (t_id b) (lm_w s) = Some (v, None) /\ shape v = weight_shape b) ->
    exists s' b a c n, new_lora rnd rank t shared s = (s', Ok (lora_around rank t b n a c)) /\
      wraps s s' rank t b (lora_around rank t b n a c) n a c /\
      match shared with Some b0 => b = b0
      | None => b = bottleneck t (min rank (width t)) (t_id b) /\ lm_next s <= t_id b < lm_next s' /\ t_id b <> n /\ t_id b <> a /\ t_id b <> c end /\
      dget a (lm_w s') = Some (tgen (weight_shape (enc_of rank t a)) (rnd a), None) /\
      dget c (lm_w s') = Some (tgen (weight_shape (dec_of rank t c)) (rnd c), None).
  Proof.
    intros WL HS. destruct t as [tid tk tcls tps tkids]. unfold wlayer in WL. cbn [t_kind] in WL.
    destruct tk as [i o| |g| |]; try contradiction; unfold new_lora; cbn [t_kind].
    - set (r := min rank (min i o)). unfold linear_layer. rewrite (sbind_run _ _ _ _ _ (new_layer_run _ _ s)).
      destruct shared as [b0|].
      + destruct (HS b0 eq_refl) as (Lb & v & Ev & Sv).
        rewrite (sbind_run (sret b0) _ _ _ b0) by reflexivity.
        rewrite (sbind_run _ _ _ _ _ (new_layer_run _ _ _)). cbn [lm_next lm_set_model lm_w lm_root].
        erewrite sbind_run.
        2:{ unfold zero_weight. apply set_weight_run with (v := v) (b := None); [cbn [lm_w lm_set_model]; dg; exact Ev|reflexivity]. }
        unfold lora_node. cbn [lm_next lm_set_model lm_w lm_root]. eexists _, b0, _, _, _. split; [reflexivity|].
        split; [|split; [reflexivity|split; cbn [lm_w lm_set_model]; dg; reflexivity]].
        constructor; cbn [lm_next lm_set_model lm_w lm_root]; try lia; try reflexivity.
        * repeat split.
        * dg. rewrite Sv. reflexivity.
        * dg. eexists. split; reflexivity.
        * dg. eexists. split; reflexivity.
        * intros x Lx Nx. dg. reflexivity.
      + rewrite (sbind_run _ _ _ _ _ (new_layer_run _ _ _)). cbn [lm_next lm_set_model lm_w lm_root].
        rewrite (sbind_run _ _ _ _ _ (new_layer_run _ _ _)). cbn [lm_next lm_set_model lm_w lm_root].
        erewrite sbind_run.
        2:{ unfold zero_weight. eapply set_weight_run; [cbn [lm_w lm_set_model t_id]; dg; reflexivity|reflexivity]. }
        unfold lora_node. cbn [lm_next lm_set_model lm_w lm_root]. eexists _, (MT (S (lm_next s)) (KLinear r r) [] [S (lm_next s)] []), _, _, _. split; [reflexivity|].
        cbn [t_id].
        split; [|split; [repeat split; cbn; lia|split; cbn [lm_w lm_set_model]; dg; reflexivity]].
        constructor; cbn [lm_next lm_set_model lm_w lm_root t_id]; try lia; try reflexivity.
        * repeat split.
        * dg. reflexivity.
        * dg. eexists. split; reflexivity.
        * dg. eexists. split; reflexivity.
        * intros x Lx Nx. dg. reflexivity.
    - set (r := min rank (min (c_in g) (c_out g))). unfold conv_layer. rewrite (sbind_run _ _ _ _ _ (new_layer_run _ _ s)).
      destruct shared as [b0|].
      + destruct (HS b0 eq_refl) as (Lb & v & Ev & Sv).
        rewrite (sbind_run (sret b0) _ _ _ b0) by reflexivity.
        rewrite (sbind_run _ _ _ _ _ (new_layer_run _ _ _)). cbn [lm_next lm_set_model lm_w lm_root].
        erewrite sbind_run.
        2:{ unfold zero_weight. apply set_weight_run with (v := v) (b := None); [cbn [lm_w lm_set_model]; dg; exact Ev|reflexivity]. }
        unfold lora_node. cbn [lm_next lm_set_model lm_w lm_root]. eexists _, b0, _, _, _. split; [reflexivity|].
        split; [|split; [reflexivity|split; cbn [lm_w lm_set_model]; dg; reflexivity]].
        constructor; cbn [lm_next lm_set_model lm_w lm_root]; try lia; try reflexivity.
        * repeat split.
        * dg. rewrite Sv. reflexivity.
        * dg. eexists. split; reflexivity.
        * dg. eexists. split; reflexivity.
        * intros x Lx Nx. dg. reflexivity.
      + rewrite (sbind_run _ _ _ _ _ (new_layer_run _ _ _)). cbn [lm_next lm_set_model lm_w lm_root].
        rewrite (sbind_run _ _ _ _ _ (new_layer_run _ _ _)). cbn [lm_next lm_set_model lm_w lm_root].
        erewrite sbind_run.
        2:{ unfold zero_weight. eapply set_weight_run; [cbn [lm_w lm_set_model t_id]; dg; reflexivity|reflexivity]. }
        unfold lora_node. cbn [lm_next lm_set_model lm_w lm_root]. eexists _, (MT (S (lm_next s)) (KConv2d (conv1x1 r r)) [] [S (lm_next s)] []), _, _, _. split; [reflexivity|].
        cbn [t_id].
        split; [|split; [repeat split; cbn; lia|split; cbn [lm_w lm_set_model]; dg; reflexivity]].
        constructor; cbn [lm_next lm_set_model lm_w lm_root t_id]; try lia; try reflexivity.
        * repeat split.
        * dg. reflexivity.
        * dg. eexists. split; reflexivity.
        * dg. eexists. split; reflexivity.
        * intros x Lx Nx. dg. reflexivity.
  Qed.

  (** ---- PCA initialisation ---- *)
  Lemma set_weight_ok m f (s s' : lm) : set_weight m f s = (s', Ok tt) ->
    exists v b v', dget (t_id m) (lm_w s) = Some (v, b) /\ f v = Ok v' /\ s' = lm_set_model s (lm_root s) (lm_next s) (dset (t_id m) (v', b) (lm_w s)).
  Proof.
    unfold set_weight. destruct (dget (t_id m) (lm_w s)) as [[v b]|]; [|discriminate]. destruct (f v) as [v'|e] eqn:E; [|discriminate].
    intros [= <-]. eauto 8.
  Qed.
  Lemma reshape_shape (t : tensor) sh t' : reshape t sh = Ok t' -> shape t' = sh /\ data t' = data t.
  Proof. unfold reshape. destruct (_ =? _); [|discriminate]. intros [= <-]. split; reflexivity. Qed.
  (** which weights: the leading singular vectors *)
  Definition pca_weights (rank : nat) (t : mtree) (cov : nd sval) (va vc : tensor) : Prop :=
    exists f b uf ub uft, nd_item cov "forward" = Ok f /\ nd_item cov "backward" = Ok b /\
      top_k svd f (min rank (width t)) = Ok uf /\ top_k svd b (min rank (width t)) = Ok ub /\ transpose uf = Ok uft /\
      match t_kind t with
      | KConv2d _ => data va = data uft /\ data vc = data ub
      | _ => expand_to uft (shape va) = Ok va /\ expand_to ub (shape vc) = Ok vc
      end.
  Lemma expand_to_idem (t : tensor) sh t' : expand_to t sh = Ok t' -> expand_to t (shape t') = Ok t'.
  Proof. intros E. rewrite (expand_to_shape _ _ _ E). exact E. Qed.
  Lemma pca_init_ok rank t b n a c cov (s s' : lm) va vc : wlayer t -> a <> c ->
    dget a (lm_w s) = Some (va, None) -> dget c (lm_w s) = Some (vc, None) ->
    pca_init svd rank t (lora_around rank t b n a c) cov s = (s', Ok tt) ->
    exists va' vc', s' = lm_set_model s (lm_root s) (lm_next s) (dset c (vc', None) (dset a (va', None) (lm_w s))) /\
      shape va' = shape va /\ shape vc' = shape vc /\ pca_weights rank t cov va' vc'.
  Proof.
    intros WL Nac Ea Ec. rewrite lora_around_eq by exact WL. destruct t as [tid tk tcls tps tkids]. unfold wlayer in WL. cbn [t_kind] in WL.
    unfold pca_weights, width. cbn [t_kind].
    destruct tk as [i o| |g| |]; try contradiction; unfold pca_init; cbn [t_kind enc_of dec_of].
    - set (r := min rank (min i o)). intros E. apply sbind_ok in E as (s1 & uf & E1 & E). apply sbind_ok in E as (s2 & ub & E2 & E).
      unfold lift in E1, E2. injection E1 as -> E1. injection E2 as -> E2.
      destruct (nd_item cov "forward") as [f|] eqn:Ef; [|discriminate]. destruct (nd_item cov "backward") as [bb|] eqn:Eb; [|discriminate]. cbn [bind] in E1, E2.
      apply sbind_ok in E as (s3 & [] & E3 & E4). apply set_weight_ok in E3 as (v1 & b1 & v1' & G1 & X1 & ->).
      apply set_weight_ok in E4 as (v2 & b2 & v2' & G2 & X2 & ->). cbn [enc_of dec_of t_kind t_id lm_w lm_set_model lm_root lm_next] in *.
      rewrite Ea in G1. injection G1 as <- <-. rewrite dget_dset_neq in G2 by congruence. rewrite Ec in G2. injection G2 as <- <-.
      destruct (transpose uf) as [uft|] eqn:Et; [|discriminate]. cbn [bind] in X1.
      exists v1', v2'. split; [reflexivity|]. pose proof (expand_to_shape _ _ _ X1) as S1. pose proof (expand_to_shape _ _ _ X2) as S2.
      split; [exact S1|]. split; [exact S2|]. exists f, bb, uf, ub, uft. rewrite S1, S2. auto 10.
    - set (r := min rank (min (c_in g) (c_out g))). intros E. apply sbind_ok in E as (s1 & uf & E1 & E). apply sbind_ok in E as (s2 & ub & E2 & E).
      unfold lift in E1, E2. injection E1 as -> E1. injection E2 as -> E2.
      destruct (nd_item cov "forward") as [f|] eqn:Ef; [|discriminate]. destruct (nd_item cov "backward") as [bb|] eqn:Eb; [|discriminate]. cbn [bind] in E1, E2.
      apply sbind_ok in E as (s3 & [] & E3 & E4). apply set_weight_ok in E3 as (v1 & b1 & v1' & G1 & X1 & ->).
      apply set_weight_ok in E4 as (v2 & b2 & v2' & G2 & X2 & ->). cbn [enc_of dec_of t_kind t_id lm_w lm_set_model lm_root lm_next] in *.
      rewrite Ea in G1. injection G1 as <- <-. rewrite dget_dset_neq in G2 by congruence. rewrite Ec in G2. injection G2 as <- <-.
      destruct (transpose uf) as [uft|] eqn:Et; [|discriminate]. cbn [bind] in X1.
      exists v1', v2'. split; [reflexivity|]. apply reshape_shape in X1 as [S1 D1]. apply reshape_shape in X2 as [S2 D2].
      split; [exact S1|]. split; [exact S2|]. exists f, bb, uf, ub, uft. auto 10.
  Qed.

  (** ---- one module ---- *)
  Definition shared_ok (rank : nat) (s : lm) (sh : dict string mtree) : Prop :=
    forall g b, dget g sh = Some b -> t_id b < lm_next s /\ (exists t, wlayer t /\ b = bottleneck t rank (t_id b)) /\
      dget (t_id b) (lm_w s) = Some (tzeros (weight_shape b), None).
  Definition fresh_in (s s' : lm) (b : mid) : Prop := lm_next s <= b < lm_next s'.
  (** the covariances used for a module *)
  Definition cov_of (s : lm) (name : string) : res (nd sval) :=
    let* cs := (match dget "covariance_state" (attrs (x_state (lm_x s))) with Some d => Ok d | None => Err AttributeError end) in nd_item cs name.
  Record item_done (c : lora_cfg) (i : item) (sh sh' : dict string mtree) (s s1 : lm) (b l : mtree) (n a cc : mid) : Prop := {
    id_layer : wlayer (i_mod i);
    id_wraps : wraps s s1 (lc_rank c) (i_mod i) b l n a cc;
    id_shared : shared_ok (lc_rank c) s1 sh';
    id_group : exists g, find_group (i_name i) (lc_groups c) = Ok g /\
      if lc_share c then
        dget g sh' = Some b /\ (forall g', g' <> g -> dget g' sh' = dget g' sh) /\
        (dget g sh = Some b \/ (dget g sh = None /\ fresh_in s s1 (t_id b) /\ t_id b <> n /\ t_id b <> a /\ t_id b <> cc /\
           b = bottleneck (i_mod i) (lc_rank c) (t_id b)))
      else sh' = sh /\ fresh_in s s1 (t_id b) /\ t_id b <> n /\ t_id b <> a /\ t_id b <> cc /\
           b = bottleneck (i_mod i) (min (lc_rank c) (width (i_mod i))) (t_id b);
    id_rnd : lc_init c <> "pca"%string ->
      dget a (lm_w s1) = Some (tgen (weight_shape (enc_of (lc_rank c) (i_mod i) a)) (rnd a), None) /\
      dget cc (lm_w s1) = Some (tgen (weight_shape (dec_of (lc_rank c) (i_mod i) cc)) (rnd cc), None);
    id_pca : lc_init c = "pca"%string -> exists cov va vc, cov_of s (i_name i) = Ok cov /\
      dget a (lm_w s1) = Some (va, None) /\ dget cc (lm_w s1) = Some (vc, None) /\ pca_weights (lc_rank c) (i_mod i) cov va vc
  }.
  Lemma bottleneck_id t r b : t_id (bottleneck t r b) = b.
  Proof. unfold bottleneck. destruct (t_kind t); reflexivity. Qed.
  Lemma new_shared_run rank t (s : lm) : wlayer t ->
    new_shared rnd rank t s = (lm_set_model s (lm_root s) (S (lm_next s)) (dset (lm_next s) (tgen (weight_shape (bottleneck t rank (lm_next s))) (rnd (lm_next s)), None) (lm_w s)),
                               Ok (bottleneck t rank (lm_next s))).
  Proof. unfold wlayer, new_shared, bottleneck. destruct (t_kind t); try contradiction; reflexivity. Qed.
  (** wrapping from a state in which the shared bottleneck may just have been created *)
  Lemma wraps_from (s s0 s1 : lm) rank t b l n a c : wraps s0 s1 rank t b l n a c ->
    keeps s s0 -> lm_root s0 = lm_root s -> lm_next s <= lm_next s0 -> (forall x : mid, x < lm_next s -> dget x (lm_w s0) = dget x (lm_w s)) ->
    wraps s s1 rank t b l n a c.
  Proof.
    intros [E K R A C N AC AN CN WB WA WC WW] K0 R0 L0 W0. constructor; try assumption; try lia.
    - eapply keeps_trans; eassumption.
    - congruence.
    - intros x Lx Nx. rewrite WW by (lia || exact Nx). apply W0, Lx.
  Qed.
  Lemma lora_item_done c i sh (s s' : lm) sh' l : shared_ok (lc_rank c) s sh -> (lc_share c = false -> sh = []) ->
    lora_item rnd svd c true i sh s = (s', Ok (sh', l)) ->
    exists s1 b n a cc, item_done c i sh sh' s s1 b l n a cc /\
      s' = lm_set_model s1 (option_map (set_kid (i_parent i) (i_key i) l) (lm_root s1)) (lm_next s1) (lm_w s1).
  Proof.
    intros SH SF. unfold lora_item. set (t := i_mod i). intros E.
    apply sbind_ok in E as (s0 & [] & E0 & E).
    assert (X0 : s0 = s) by (destruct (t_kind t); try discriminate E0; injection E0 as <-; reflexivity). subst s0.
    apply sbind_ok in E as (s0 & g & Eg & E). unfold lift in Eg. injection Eg as <- Eg.
    apply sbind_ok in E as (s0 & sh0 & Es & E). apply sbind_ok in E as (s1 & l0 & El & E).
    apply sbind_ok in E as (s2 & [] & Ep & E). injection E as <- <- <-.
    assert (WL : wlayer t).
    { unfold wlayer. unfold new_lora in El. destruct (t_kind t); try exact Logic.I; discriminate El. }
    (* the shared bottleneck *)
    assert (G0 : keeps s s0 /\ lm_root s0 = lm_root s /\ lm_next s <= lm_next s0 /\ (forall x : mid, x < lm_next s -> dget x (lm_w s0) = dget x (lm_w s)) /\
                 (forall b, dget g sh0 = Some b -> t_id b < lm_next s0 /\ exists v, dget (t_id b) (lm_w s0) = Some (v, None) /\ shape v = weight_shape b) /\
                 (forall g', g' <> g -> dget g' sh0 = dget g' sh) /\
                 (if lc_share c then exists b, dget g sh0 = Some b /\ (dget g sh = Some b \/ (dget g sh = None /\ b = bottleneck t (lc_rank c) (t_id b) /\ lm_next s <= t_id b)) else sh0 = sh)).
    { destruct (lc_share c) eqn:Esh; cbn [andb] in Es.
      - destruct (dmem g sh) eqn:Em; cbn [negb] in Es.
        + injection Es as <- <-. split; [apply keeps_refl|]. split; [reflexivity|]. split; [lia|]. split; [reflexivity|].
          split; [intros b Eb; destruct (SH g b Eb) as (L & _ & Wb); split; [exact L|]; eexists; split; [exact Wb|reflexivity]|]. split; [reflexivity|].
          apply dmem_In in Em. apply dget_In_keys in Em as (b & Eb). exists b. auto.
        + apply sbind_ok in Es as (s3 & m & E1 & E2). rewrite new_shared_run in E1 by exact WL. injection E1 as <- <-. injection E2 as <- <-.
          split; [repeat split|]. split; [reflexivity|]. cbn [lm_next lm_set_model lm_w]. split; [lia|].
          split; [intros x Lx; apply dget_dset_neq; lia|].
          split; [|split; [intros g' Ng; apply dget_dset_neq; exact Ng|]].
          * intros b. rewrite dget_dset_eq. intros [= <-]. rewrite bottleneck_id. split; [lia|]. rewrite dget_dset_eq. eexists. split; reflexivity.
          * exists (bottleneck t (lc_rank c) (lm_next s)). rewrite dget_dset_eq. split; [reflexivity|]. right. rewrite bottleneck_id. split; [|split; [reflexivity|lia]].
            unfold dmem in Em. destruct (dget g sh); [discriminate|reflexivity].
      - injection Es as <- <-. split; [apply keeps_refl|]. split; [reflexivity|]. split; [lia|]. split; [reflexivity|].
        split; [|split; [reflexivity|reflexivity]]. intros b Eb. rewrite (SF eq_refl) in Eb. discriminate. }
    destruct G0 as (K0 & R0 & L0 & W0 & SB & SG & SS).
    destruct (new_lora_wraps (lc_rank c) t (dget g sh0) s0 WL SB) as (s1' & b & a & cc & n & El' & Wr & Sb & Ra & Rc).
    rewrite El' in El. injection El as -> <-.
    pose proof (wraps_from _ _ _ _ _ _ _ _ _ _ Wr K0 R0 L0 W0) as Wr1.
    assert (Nb : t_id b <> n /\ t_id b <> a /\ t_id b <> cc /\ t_id b < lm_next s1).
    { destruct Wr as [_ _ _ A C N _ _ _ _ _ _ _]. destruct (dget g sh0) as [b0|] eqn:Eb.
      - subst b0. destruct (SB b eq_refl) as [Lb _]. lia.
      - destruct Sb as (_ & L & N1 & N2 & N3). repeat split; try assumption. apply L. }
    destruct Nb as (Nn & Na & Nc & Lb).
    (* PCA *)
    assert (G2 : lm_root s2 = lm_root s1 /\ lm_next s2 = lm_next s1 /\ keeps s1 s2 /\
                 (forall x : mid, x <> a -> x <> cc -> dget x (lm_w s2) = dget x (lm_w s1)) /\
                 (exists wa, dget a (lm_w s2) = Some (wa, None) /\ shape wa = weight_shape (enc_of (lc_rank c) t a)) /\
                 (exists wc, dget cc (lm_w s2) = Some (wc, None) /\ shape wc = weight_shape (dec_of (lc_rank c) t cc)) /\
                 (lc_init c <> "pca"%string -> s2 = s1) /\
                 (lc_init c = "pca"%string -> exists cov va vc, cov_of s (i_name i) = Ok cov /\
                    dget a (lm_w s2) = Some (va, None) /\ dget cc (lm_w s2) = Some (vc, None) /\ pca_weights (lc_rank c) t cov va vc)).
    { destruct (String.eqb_spec (lc_init c) "pca") as [Ei|Ei].
      - apply sbind_ok in Ep as (s3 & s3' & E1 & Ep). injection E1 as <- <-. apply sbind_ok in Ep as (s3 & cov & E1 & Ep).
        unfold lift in E1. injection E1 as <- E1.
        destruct (pca_init_ok (lc_rank c) t b n a cc cov s1 s2 _ _ WL (wr_ac _ _ _ _ _ _ _ _ _ Wr) Ra Rc Ep) as (va & vc & -> & Sa & Sc & PW).
        cbn [lm_root lm_next lm_w lm_set_model]. pose proof (wr_ac _ _ _ _ _ _ _ _ _ Wr) as Nac.
        split; [reflexivity|]. split; [reflexivity|]. split; [repeat split|].
        split; [intros x X1 X2; rewrite !dget_dset_neq by assumption; reflexivity|].
        split; [exists va; rewrite dget_dset_neq by exact Nac; rewrite dget_dset_eq; split; [reflexivity|rewrite Sa; reflexivity]|].
        split; [exists vc; rewrite dget_dset_eq; split; [reflexivity|rewrite Sc; reflexivity]|].
        split; [congruence|]. intros _. exists cov, va, vc. split.
        { pose proof (proj1 (wr_keeps _ _ _ _ _ _ _ _ _ Wr1)) as KX. rewrite KX in E1. exact E1. }
        rewrite dget_dset_neq by exact Nac. rewrite !dget_dset_eq. auto.
      - injection Ep as <-. split; [reflexivity|]. split; [reflexivity|]. split; [apply keeps_refl|]. split; [reflexivity|].
        split; [eexists; split; [exact Ra|reflexivity]|]. split; [eexists; split; [exact Rc|reflexivity]|]. split; [reflexivity|]. congruence. }
    destruct G2 as (R2 & L2 & K2 & W2 & A2 & C2 & I2 & P2).
    exists s2, b, n, a, cc. split; [|reflexivity].
    assert (Wr2 : wraps s s2 (lc_rank c) t b (lora_around (lc_rank c) t b n a cc) n a cc).
    { destruct Wr1 as [E K R A C N AC AN CN WB WA WC WW]. constructor; rewrite ?L2; try assumption.
      - eapply keeps_trans; eassumption.
      - congruence.
      - rewrite W2 by assumption. exact WB.
      - intros x Lx Nx. rewrite W2 by lia. apply WW; assumption. }
    constructor; [exact WL|exact Wr2| | |intros Ni; rewrite (I2 Ni); split; [exact Ra|exact Rc]|exact P2].
    - (* shared bottlenecks stay zero *)
      intros g' b' Eb'. destruct (String.string_dec g' g) as [->|Ng].
      + destruct (dget g sh0) as [b0|] eqn:Eb0; [|discriminate]. injection Eb' as ->. subst b'.
        split; [rewrite L2; exact Lb|]. split; [|exact (wr_wb _ _ _ _ _ _ _ _ _ Wr2)].
        destruct (lc_share c).
        * destruct SS as (b1 & Eb1 & D). injection Eb1 as <-. destruct D as [D|(_ & D & _)].
          -- destruct (SH g b D) as (_ & X & _). exact X.
          -- exists t. split; [exact WL|exact D].
        * subst sh0. destruct (SH g b Eb0) as (_ & X & _). exact X.
      + rewrite (SG g' Ng) in Eb'. destruct (SH g' b' Eb') as (L & X & Wb). pose proof (wr_a _ _ _ _ _ _ _ _ _ Wr2). pose proof (wr_c _ _ _ _ _ _ _ _ _ Wr2).
        split; [pose proof (wr_n _ _ _ _ _ _ _ _ _ Wr2); lia|]. split; [exact X|].
        destruct (Nat.eq_dec (t_id b') (t_id b)) as [Ei|Ni].
        * rewrite Ei. rewrite (wr_wb _ _ _ _ _ _ _ _ _ Wr2). destruct X as (t' & _ & X).
          (* the same number: the same weights *)
          assert (Y : dget (t_id b) (lm_w s0) = Some (tzeros (weight_shape b'), None)) by (rewrite <- Ei, W0 by exact L; exact Wb).
          destruct (dget g sh0) as [b0|] eqn:Eb0.
          -- subst b0. destruct (SB b eq_refl) as (_ & v & Ev & Sv). rewrite Ev in Y. injection Y as ->. cbn [tzeros shape] in Sv. rewrite Sv. reflexivity.
          -- destruct Sb as (_ & Lb' & _). lia.
        * rewrite (wr_w _ _ _ _ _ _ _ _ _ Wr2) by assumption. exact Wb.
    - exists g. split; [exact Eg|]. destruct (lc_share c) eqn:Esh.
      + destruct SS as (b1 & Eb1 & D). rewrite Eb1 in Sb. subst b1. split; [exact Eb1|]. split; [exact SG|]. destruct D as [D|(D1 & D2 & D3)]; [left; exact D|right].
        split; [exact D1|]. split; [split; [exact D3|rewrite L2; exact Lb]|]. auto.
      + subst sh0. rewrite (SF eq_refl) in Sb. cbn [dget] in Sb. destruct Sb as (Sb & L & _). split; [reflexivity|].
        split; [split; [lia|rewrite L2; exact Lb]|]. auto.
  Qed.
End P.
