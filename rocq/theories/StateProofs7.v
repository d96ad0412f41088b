(** Eigendecompositions, inverses, and corrected eigenvalues. *)
From Coq Require Import ZArith Permutation.
From Verif Require Import Py Field Tensor ModelGrad Monad ModelState SpecGrad SpecState GradProofs1 GradProofs2 StateProofs1 StateProofs2 StateProofs3 StateProofs4 StateProofs5 StateProofs6.
Local Open Scope nat_scope.

Section Proofs.
  Context {F : Type} `{OField F}.
  Add Field FfS7 : f_theory.
  Notation tensor := (tensor F).
  Notation sval := (@sval F).
  Notation lstate := (@lstate F).
  Notation dten := (@dten F).
  Notation binfo := (@binfo F).
  Notation call := (@call F).

  Definition vt_only (x : nd sval) : Prop := forall m t v, get2 x m t = Some v -> exists d, v = VT d.
  Lemma paired_vt x c : paired x c -> vt_only x.
  Proof. intros (_ & _ & P) m t v E. specialize (P m t). rewrite E in P. destruct v; try contradiction. eauto. Qed.

  Lemma NoDup_app_intro {A} (a b : list A) : NoDup a -> NoDup b -> (forall x, In x a -> ~ In x b) -> NoDup (a ++ b).
  Proof.
    induction 1 as [|x a N Na IH]; intros Nb D; [exact Nb|]. cbn. constructor.
    - rewrite in_app_iff. intros [Q|Q]; [contradiction|]. apply (D x); [left; reflexivity|exact Q].
    - apply IH; [exact Nb|]. intros y I. apply D. right. exact I.
  Qed.
  Lemma items_flat (m : string) (e : list (string * nd sval)) : (forall t y, In (t, y) e -> exists d, y = Leaf (VT d)) ->
    exists l, mapM (fun q : string * nd sval => let* d := as_dten (snd q) in Ok ((m, fst q), d)) e = Ok l /\
      map fst l = map (fun q => (m, fst q)) e /\ (forall k d, In (k, d) l <-> fst k = m /\ In (snd k, Leaf (VT d)) e).
  Proof.
    induction e as [|[t y] e IH]; intros P; [exists []; cbn; repeat split; try contradiction; intros (_ & []) |].
    destruct (P t y (or_introl eq_refl)) as (d & ->). destruct IH as (l & E & K & I); [intros t' y' I; apply (P t'); right; exact I|].
    exists (((m, t), d) :: l). cbn [mapM snd as_dten bind fst]. rewrite E. cbn [bind]. split; [reflexivity|]. split; [cbn; f_equal; exact K|].
    intros [m' t'] d'. cbn [In fst snd]. rewrite I. cbn [fst snd]. split.
    - intros [[= <- <- <-]|[-> I']]; auto.
    - intros [-> [[= <- <-]|I']]; auto.
  Qed.
  Lemma items2_ok (x : nd sval) : two x -> vt_only x -> exists l, items2 x = Ok l /\ NoDup (map fst l) /\
    forall m t d, In ((m, t), d) l <-> get2 x m t = Some (VT d).
  Proof.
    intros Tx V. destruct x as [|d]; [contradiction|]. destruct Tx as [Nd Fa]. unfold items2. cbn [nd_items bind].
    assert (G : forall ms, NoDup (map fst ms) -> (forall m y, In (m, y) ms -> dget m d = Some y) ->
      exists rows, mapM (fun p : string * nd sval => let* ts := nd_items (snd p) in
          mapM (fun q : string * nd sval => let* dd := as_dten (snd q) in Ok ((fst p, fst q), dd)) ts) ms = Ok rows /\
        NoDup (map fst (concat rows)) /\ (forall k dd, In (k, dd) (concat rows) <-> In (fst k) (map fst ms) /\ get2 (Node d) (fst k) (snd k) = Some (VT dd)) ).
    { induction ms as [|[m y] ms IH]; intros N P.
      - exists []. cbn. split; [reflexivity|]. split; [constructor|]. intros k dd. tauto.
      - cbn [map fst] in N. inversion N as [|? ? N1 N2]; subst. destruct IH as (rows & E & NR & IR); [exact N2|intros m' y' I; apply P; right; exact I|].
        assert (Ey := P m y (or_introl eq_refl)). pose proof (Forall_dget flat m d y Fa Ey) as Fy. destruct y as [|e]; [contradiction|]. destruct Fy as [Ne Fe].
        assert (G2 : forall t, get2 (Node d) m t = match dget t e with Some (Leaf v) => Some v | _ => None end).
        { intros t. unfold get2. cbn [sub]. rewrite Ey. reflexivity. }
        destruct (items_flat m e) as (l & El & Kl & Il).
        { intros t z I. apply In_dget in I; [|exact Ne]. pose proof (Forall_dget is_leaf t e z Fe I) as L. destruct z as [v|]; [|contradiction].
          destruct (V m t v) as (dd & ->); [rewrite G2, I; reflexivity|]. eauto. }
        exists (l :: rows). cbn [mapM snd nd_items bind fst]. rewrite El. cbn [bind]. rewrite E. cbn [bind concat]. split; [reflexivity|].
        assert (IL : forall k dd, In (k, dd) l <-> fst k = m /\ get2 (Node d) m (snd k) = Some (VT dd)).
        { intros k dd. rewrite Il, G2. split; intros [-> I]; (split; [reflexivity|]).
          - apply In_dget in I; [|exact Ne]. rewrite I. reflexivity.
          - destruct (dget (snd k) e) as [[v|]|] eqn:Q; try discriminate. injection I as ->. apply dget_In. exact Q. }
        split.
        + rewrite map_app. apply NoDup_app_intro; [|exact NR|].
          * rewrite Kl. rewrite <- (map_map fst (pair m)). apply FinFun.Injective_map_NoDup; [intros a b [= ->]; reflexivity|exact Ne].
          * intros k I1 I2. apply in_map_iff in I1. destruct I1 as ([k1 d1] & <- & I1). apply IL in I1. apply in_map_iff in I2.
            destruct I2 as ([k2 d2] & Q & I2). cbn [fst] in *. subst k2. apply IR in I2. destruct I1 as [Q1 _]. rewrite Q1 in I2. tauto.
        + intros k dd. rewrite in_app_iff, IL, IR. cbn [map fst In]. split.
          * intros [[-> Q]|[I Q]]; auto.
          * intros [[<-|I] Q]; auto. }
    destruct (G d Nd (fun m y I => In_dget m y d Nd I)) as (rows & -> & NR & IR). cbn [bind]. exists (concat rows). split; [reflexivity|]. split; [exact NR|].
    intros m t dd. rewrite IR. cbn [fst snd]. split; [tauto|]. intros Q. split; [|exact Q]. unfold get2 in Q. cbn [sub] in Q.
    destruct (dget m d) as [y|] eqn:E; [|discriminate Q]. apply dget_In_keys. eauto.
  Qed.

  (** the decomposition loop *)
  Definition svd_step (eigh : tensor -> res (tensor * tensor)) (p : string * string * dten) : SM lstate unit :=
    let '((m, k), d) := p in
      let! vw := lift (eigh (snd d)) in
      let! ev := attr "covariance_eigval_state" in
      let! ev' := lift (nd_set2 ev m k (VT (fst d, fst vw))) in
      set_attr "covariance_eigval_state" ev' ;;
      let! ec := attr "covariance_eigvec_state" in
      let! ec' := lift (nd_set2 ec m k (VT (fst d, snd vw))) in
      set_attr "covariance_eigvec_state" ec'.
  Lemma svd_loop eigh l : forall (s : lstate) ev ec, dget "covariance_eigval_state"%string (attrs s) = Some ev -> dget "covariance_eigvec_state"%string (attrs s) = Some ec ->
    two ev -> two ec -> NoDup (map fst l) -> forall s', seach (svd_step eigh) l s = (s', Ok tt) ->
    exists ev' ec', registries s' = registries s /\ dget "covariance_eigval_state"%string (attrs s') = Some ev' /\ dget "covariance_eigvec_state"%string (attrs s') = Some ec' /\
      two ev' /\ two ec' /\ (forall n, n <> "covariance_eigval_state"%string -> n <> "covariance_eigvec_state"%string -> dget n (attrs s') = dget n (attrs s)) /\
      (forall m k d, In ((m, k), d) l -> exists v w, eigh (snd d) = Ok (v, w) /\ get2 ev' m k = Some (VT (fst d, v)) /\ get2 ec' m k = Some (VT (fst d, w))) /\
      (forall m k, ~ In (m, k) (map fst l) -> get2 ev' m k = get2 ev m k /\ get2 ec' m k = get2 ec m k).
  Proof.
    induction l as [|[[m k] d] l IH]; intros s ev ec Ev Ec Tv Tc N s' E.
    - cbn in E. injection E as <-. exists ev, ec. repeat split; auto; contradiction.
    - cbn [map fst] in N. inversion N as [|? ? N1 N2]; subst. cbn [seach] in E. apply sbind_ok in E. destruct E as (s1 & [] & E1 & E2).
      unfold svd_step in E1. cbv [sbind lift attr set_attr] in E1. destruct (eigh (snd d)) as [[v w]|e] eqn:Eg; [|discriminate E1].
      rewrite Ev in E1. rewrite (nd_set2_two ev m k _ Tv) in E1. cbn [attrs with_attrs] in E1.
      rewrite dget_dset_neq in E1 by discriminate. rewrite Ec in E1. rewrite (nd_set2_two ec m k _ Tc) in E1. cbn [attrs with_attrs fst snd] in E1.
      injection E1 as E1. assert (Es1 : attrs s1 = dset "covariance_eigvec_state"%string (put2 ec m k (VT (fst d, w))) (dset "covariance_eigval_state"%string (put2 ev m k (VT (fst d, v))) (attrs s)))
        by (rewrite <- E1; reflexivity).
      assert (Rs1 : registries s1 = registries s) by (rewrite <- E1; reflexivity). clear E1.
      destruct (IH s1 (put2 ev m k (VT (fst d, v))) (put2 ec m k (VT (fst d, w)))) with (s' := s') as (ev' & ec' & R & Gv & Gc & Tv' & Tc' & O & I & NI); try assumption.
      + rewrite Es1, dget_dset_neq by discriminate. apply dget_dset_eq.
      + rewrite Es1. apply dget_dset_eq.
      + apply put2_two; exact Tv.
      + apply put2_two; exact Tc.
      + exists ev', ec'. split; [congruence|]. split; [exact Gv|]. split; [exact Gc|]. split; [exact Tv'|]. split; [exact Tc'|]. split; [|split].
        * intros n A B. rewrite O by assumption. rewrite Es1, !dget_dset_neq by assumption. reflexivity.
        * intros m' k' d' [[= <- <- <-]|J]; [|apply I; exact J]. exists v, w. split; [exact Eg|]. destruct (NI m k N1) as [-> ->].
          rewrite !get2_put2_eq by assumption. auto.
        * intros m' k' Q. cbn [map fst In] in Q. destruct (NI m' k') as [-> ->]; [tauto|]. rewrite !get2_put2_neq by (try assumption; intros W; apply Q; left; congruence). auto.
  Qed.
  Lemma register_new n sy sv nc (s : lstate) : mem n (st_states s) = false -> register_state n sy sv nc s =
    (LState (dset n (Node []) (attrs s)) (n :: st_states s) (if sy then st_sync s ++ [n] else st_sync s)
            (if sv then st_save s ++ [n] else st_save s) (st_norm s) (if nc then n :: st_noclear s else st_noclear s), Ok tt).
  Proof. unfold register_state. intros ->. reflexivity. Qed.
  Lemma svd_ok eigh (s : lstate) x s' : dget "covariance_state"%string (attrs s) = Some x -> two x -> vt_only x ->
    ~ In "covariance_eigval_state"%string (st_states s) -> ~ In "covariance_eigvec_state"%string (st_states s) ->
    covariance_svd eigh s = (s', Ok tt) ->
    exists ev ec, st_states s' = ("covariance_eigvec_state" :: "covariance_eigval_state" :: st_states s)%string /\ st_sync s' = st_sync s /\
      st_save s' = st_save s ++ ["covariance_eigval_state"; "covariance_eigvec_state"]%string /\ st_norm s' = st_norm s /\ st_noclear s' = st_noclear s /\
      dget "covariance_eigval_state"%string (attrs s') = Some ev /\ dget "covariance_eigvec_state"%string (attrs s') = Some ec /\ two ev /\ two ec /\
      (forall n, n <> "covariance_eigval_state"%string -> n <> "covariance_eigvec_state"%string -> dget n (attrs s') = dget n (attrs s)) /\
      (forall m k, match get2 x m k with
                   | Some (VT d) => exists v w, eigh (snd d) = Ok (v, w) /\ get2 ev m k = Some (VT (fst d, v)) /\ get2 ec m k = Some (VT (fst d, w))
                   | _ => get2 ev m k = None /\ get2 ec m k = None
                   end).
  Proof.
    intros Ex Tx Vx Nv Nc E. destruct (items2_ok x Tx Vx) as (l & El & Nl & Il).
    assert (M1 : mem "covariance_eigval_state"%string (st_states s) = false).
    { apply mem_false. exact Nv. }
    assert (M2 : mem "covariance_eigvec_state"%string (st_states s) = false).
    { apply mem_false. exact Nc. }
    unfold covariance_svd in E. rewrite (sbind_run _ _ _ _ _ (register_new "covariance_eigval_state" false true false s M1)) in E.
    assert (M3 : mem "covariance_eigvec_state"%string ("covariance_eigval_state"%string :: st_states s) = false).
    { apply mem_false. apply mem_false in M2. intros [Q|Q]; [discriminate Q|contradiction]. }
    match type of E with sbind _ _ ?st = _ => rewrite (sbind_run _ _ _ _ _ (register_new "covariance_eigvec_state" false true false st M3)) in E end. cbn [attrs st_states st_sync st_save st_norm st_noclear] in E.
    apply sbind_ok in E. destruct E as (s0 & x0 & Ea & E). unfold attr in Ea. injection Ea as <- Ea. cbn [attrs] in Ea.
    rewrite !dget_dset_neq in Ea by discriminate. rewrite Ex in Ea. injection Ea as <-.
    apply sbind_ok in E. destruct E as (s0 & l0 & Ea & E). unfold lift in Ea. injection Ea as <- Ea. rewrite El in Ea. injection Ea as <-.
    match type of E with seach ?f l ?st = _ => set (s1 := st) in E; change (seach (svd_step eigh) l s1 = (s', Ok tt)) in E end.
    destruct (svd_loop eigh l s1 (Node []) (Node [])) with (s' := s') as (ev & ec & R & Gv & Gc & Tv & Tc & O & I & NI); try assumption.
    - cbn [s1 attrs]. rewrite dget_dset_neq by discriminate. apply dget_dset_eq.
    - cbn [s1 attrs]. apply dget_dset_eq.
    - split; constructor.
    - split; constructor.
    - exists ev, ec. unfold registries in R. injection R as R1 R2 R3 R4 R5. rewrite R1, R2, R3, R4, R5. cbn [s1 st_states st_sync st_save st_norm st_noclear].
      split; [reflexivity|]. split; [reflexivity|]. split; [rewrite <- app_assoc; reflexivity|]. split; [reflexivity|]. split; [reflexivity|]. split; [exact Gv|].
      split; [exact Gc|]. split; [exact Tv|]. split; [exact Tc|]. split.
      + intros n A B. rewrite O by assumption. cbn [s1 attrs]. rewrite !dget_dset_neq by assumption. reflexivity.
      + intros m k. destruct (get2 x m k) as [v|] eqn:G.
        * destruct (Vx m k v G) as (d & ->). apply I. apply Il. exact G.
        * assert (Q : ~ In (m, k) (map fst l)). { intros Q. apply in_map_iff in Q. destruct Q as ([k' d] & Q1 & Q2). cbn in Q1. subst k'. apply Il in Q2. congruence. }
          destruct (NI m k Q) as [-> ->]. auto.
  Qed.
  (** it succeeds when every decomposition does *)
  Lemma svd_loop_total eigh l : (forall m k d, In ((m, k), d) l -> exists vw, eigh (snd d) = Ok vw) ->
    forall (s : lstate) ev ec, dget "covariance_eigval_state"%string (attrs s) = Some ev -> dget "covariance_eigvec_state"%string (attrs s) = Some ec ->
    two ev -> two ec -> exists s', seach (svd_step eigh) l s = (s', Ok tt).
  Proof.
    induction l as [|[[m k] d] l IH]; intros P s ev ec Ev Ec Tv Tc; [exists s; reflexivity|].
    destruct (P m k d (or_introl eq_refl)) as ([v w] & Eg).
    set (s1 := with2 s "covariance_eigval_state"%string (put2 ev m k (VT (fst d, v))) "covariance_eigvec_state"%string (put2 ec m k (VT (fst d, w)))).
    assert (E1 : svd_step eigh ((m, k), d) s = (s1, Ok tt)).
    { unfold svd_step. cbv [sbind lift attr set_attr]. rewrite Eg, Ev. rewrite (nd_set2_two ev m k _ Tv). cbn [attrs with_attrs].
      rewrite dget_dset_neq by discriminate. rewrite Ec. rewrite (nd_set2_two ec m k _ Tc). reflexivity. }
    destruct (IH (fun m' k' d' I => P m' k' d' (or_intror I)) s1 (put2 ev m k (VT (fst d, v))) (put2 ec m k (VT (fst d, w)))) as (s' & E').
    - unfold s1, with2. cbn [attrs with_attrs]. rewrite dget_dset_neq by discriminate. apply dget_dset_eq.
    - unfold s1, with2. cbn [attrs with_attrs]. apply dget_dset_eq.
    - apply put2_two; exact Tv.
    - apply put2_two; exact Tc.
    - exists s'. cbn [seach]. rewrite (sbind_run _ _ _ _ _ E1). exact E'.
  Qed.

  (** rotation *)
  Lemma rotate_square_ok (g fwd bwd sq : tensor) : rotate_square g fwd bwd = Ok sq -> twf g ->
    exists n i j i2 j2, shape g = [n; i; j] /\ shape fwd = [j; j2] /\ shape bwd = [i; i2] /\ shape sq = [i2; j2] /\ twf sq /\
      forall a c, a < i2 -> c < j2 -> mget sq a c = lsum (map (fun x => fmul (project bwd fwd a c x) (project bwd fwd a c x)) (samples g)).
  Proof.
    unfold rotate_square. intros E Wg. destruct (shape g) as [|n [|i [|j [|]]]] eqn:Sg; try discriminate. destruct (shape fwd) as [|j1 [|j2 [|]]] eqn:Sf; try discriminate.
    destruct (shape bwd) as [|i1 [|i2 [|]]] eqn:Sb; try discriminate. destruct ((j =? j1) && (i =? i1)) eqn:C; [|discriminate].
    apply andb_prop in C. destruct C as [C1 C2]. apply Nat.eqb_eq in C1. apply Nat.eqb_eq in C2. subst j1 i1. injection E as <-.
    exists n, i, j, i2, j2. repeat split; try reflexivity; [apply tgen_wf|]. intros a c La Lc. rewrite mget_mgen by assumption.
    unfold samples, batch_size. rewrite Sg. cbn [hd]. rewrite map_map, lsum_seq. apply sum_ext. intros s Ls.
    destruct g as [sh d]. cbn [shape] in Sg. subst sh.
    assert (P : project bwd fwd a c (slice (T [n; i; j] d) s) = sum i (fun p => fmul (mget bwd p a) (sum j (fun q => fmul (tget (T [n; i; j] d) [s; p; q]) (mget fwd q c))))).
    { unfold project. change (shape (slice (T [n; i; j] d) s)) with [i; j]. cbn [nth]. apply sum_ext. intros p Lp. rewrite <- sum_mul_l. apply sum_ext. intros q Lq.
      unfold mget at 1. rewrite tget_slice by (apply valid2; assumption). ring. }
    rewrite P. reflexivity.
  Qed.

  (** the accumulated squares *)
  Definition sq_sum (bwd fwd : tensor) (gs : list tensor) (a c : nat) : F := lsum (map (fun x => fmul (project bwd fwd a c x) (project bwd fwd a c x)) gs).
  Definition es : string := "ekfac_eigval_state".
  Definition en : string := "ekfac_counter".
  Definition einv (ec : nd sval) (s0 s : lstate) (done : list (@ecall F)) : Prop :=
    (forall n, n <> es -> n <> en -> dget n (attrs s) = dget n (attrs s0)) /\ registries s = registries s0 /\
    exists X C, dget es (attrs s) = Some X /\ dget en (attrs s) = Some C /\ flat X /\ flat C /\
      forall m, let ecs := filter (fun e => String.eqb (e_m e) m) done in
        (ecs = [] /\ get1 X m = None /\ get1 C m = None) \/
        exists dv Tn db df bwd fwd i j, ecs <> [] /\ get1 X m = Some (VT (dv, Tn)) /\ twf Tn /\ shape Tn = [i; j] /\
          get2 ec m "forward" = Some (VT (df, fwd)) /\ get2 ec m "backward" = Some (VT (db, bwd)) /\
          (exists k l, shape bwd = [k; i] /\ shape fwd = [l; j] /\ Forall (fun g => shape g = [k; l]) (grads_for m done)) /\
          (forall a c, a < i -> c < j -> mget Tn a c = sq_sum bwd fwd (grads_for m done) a c) /\
          get1 C m = Some (VN (fnat (length (grads_for m done)))).

  Definition ebody (b : binfo) (m : string) (offload : bool) : SM lstate unit :=
    let! ec := attr "covariance_eigvec_state" in
    let! _ := attr "covariance_eigval_state" in
    let! ks := attr "ekfac_eigval_state" in
    let! kc := attr "ekfac_counter" in
    let! d := lift (get_data b m "grad" None) in
    (if nd_has ks m then sret tt
     else
       let device := if offload then Cpu else fst d in
       let! ks' := lift (nd_set1 ks m (VT (device, tzeros [nth 1 (shape (snd d)) 0; nth 2 (shape (snd d)) 0]))) in
       set_attr "ekfac_eigval_state" ks' ;;
       let! kc' := lift (nd_set1 kc m (VN f0)) in
       set_attr "ekfac_counter" kc') ;;
    let! fwd := lift (eig_operand ec m "forward" (if offload then AttributeError else TypeError)) in
    let! bwd := lift (eig_operand ec m "backward" AttributeError) in
    let! ks := attr "ekfac_eigval_state" in
    let! old := lift (let* z := nd_item ks m in as_dten z) in
    let! sq := lift (rotate_square (snd d) (snd fwd) (snd bwd)) in
    (if offload then
       let! new := lift (add_ (fst d, snd old) (fst d, sq)) in
       let! ks' := lift (nd_set1 ks m (VT (Cpu, snd new))) in
       set_attr "ekfac_eigval_state" ks'
     else
       let! new := lift (if dev_eqb (fst d) (fst fwd) && dev_eqb (fst d) (fst bwd) then add_ old (fst d, sq) else Err RuntimeError) in
       let! ks' := lift (nd_set1 ks m (VT new)) in
       set_attr "ekfac_eigval_state" ks') ;;
    let! n := lift (size0 (snd d)) in
    let! kc := attr "ekfac_counter" in
    let! c := lift (nd_item kc m) in
    let! c' := lift (count_add c (fnat n)) in
    let! kc' := lift (nd_set1 kc m c') in
    set_attr "ekfac_counter" kc'.
  Lemma corrected_eq eigh b m o s : corrected_eigval_update eigh b m None o s =
    ((if hasattr "covariance_eigvec_state" s then sret tt
     else covariance_svd eigh ;; register_state "ekfac_eigval_state" true true false ;;
          register_state "ekfac_counter" true false false ;;
          register_normalize_pair "ekfac_eigval_state" "ekfac_counter") ;; ebody b m o) s.
  Proof.
    assert (X : forall A B (f : SM lstate A) (g h : A -> SM lstate B) s, (forall a s', g a s' = h a s') -> sbind f g s = sbind f h s).
    { intros A B f g h s' E. unfold sbind. destruct (f s') as [s1 [a|e]]; [apply E|reflexivity]. }
    unfold corrected_eigval_update. rewrite (sbind_run _ _ _ s s) by reflexivity. apply X. intros _ s1. unfold ebody.
    apply X. intros ec s2. apply X. intros ev s3. apply X. intros ks s4. apply X. intros kc s5. reflexivity.
  Qed.
  Lemma seach_ext {A} (f g : A -> SM lstate unit) l : (forall a s, f a s = g a s) -> forall s, seach f l s = seach g l s.
  Proof. intros E. induction l as [|a l IH]; intros s; [reflexivity|]. cbn [seach]. unfold sbind. rewrite E. destruct (g a s) as [s1 [u|e]]; [apply IH|reflexivity]. Qed.

  Lemma grads_for_app m (a b : list (@ecall F)) : grads_for m (a ++ b) = grads_for m a ++ grads_for m b.
  Proof. unfold grads_for. rewrite filter_app, map_app, concat_app. reflexivity. Qed.
  Lemma eig_operand_ok (ec : nd sval) m k e d : two ec -> eig_operand ec m k e = Ok d -> get2 ec m k = Some (VT d).
  Proof.
    intros T. unfold eig_operand. rewrite (nd_item_two ec m T). cbn [bind]. rewrite (nd_item_flat _ k (sub_flat ec m T)). cbn [bind].
    rewrite (sub_get1 _ k (sub_flat ec m T)). fold (get2 ec m k). destruct (get2 ec m k) as [[x| | |]|]; congruence.
  Qed.
  Lemma get_data_grads b m o d : get_data b m "grad" None = Ok d -> logged_grads (ECall b m o) = samples (snd (d : dten)).
  Proof.
    unfold get_data, logged_grads. cbn [e_b e_m]. unfold nd_item. destruct (b_log b) as [|dd]; [discriminate|]. cbn [bind].
    destruct (dget m dd) as [[w|e]|]; cbn [bind]; try discriminate.
    destruct (dget "grad"%string e) as [[[x| | |]|]|]; cbn [as_dten]; try discriminate. congruence.
  Qed.

  Lemma ebody_inv ec ev s0 s s' done e : dget "covariance_eigvec_state"%string (attrs s0) = Some ec -> dget "covariance_eigval_state"%string (attrs s0) = Some ev -> two ec ->
    grad_wf e -> einv ec s0 s done -> ebody (e_b e) (e_m e) (e_off e) s = (s', Ok tt) -> einv ec s0 s' (done ++ [e]).
  Proof.
    intros Gc Gv Tc We (O & R & X & C & GX & GC & FX & FC & K) E. destruct e as [b m off]. cbn [e_b e_m e_off] in *.
    unfold ebody in E. cbv [sbind lift attr set_attr sret] in E. fold es en in E. rewrite (O "covariance_eigvec_state"%string) in E by discriminate. rewrite Gc in E.
    rewrite (O "covariance_eigval_state"%string) in E by discriminate. rewrite Gv, GX, GC in E.
    destruct (get_data b m "grad" None) as [d|] eqn:Ed; [|discriminate E]. specialize (We d Ed). cbn [e_b e_m] in We. specialize (We).
    rewrite (nd_has_get1 X m FX) in E.
    set (X1 := match get1 X m with Some _ => X | None => put1 X m (VT (if off then Cpu else fst d, tzeros [nth 1 (shape (snd d)) 0; nth 2 (shape (snd d)) 0])) end).
    set (C1 := match get1 X m with Some _ => C | None => put1 C m (VN f0) end).
    set (s1 := match get1 X m with Some _ => s | None => with2 s es X1 en C1 end).
    assert (FX1 : flat X1) by (unfold X1; destruct (get1 X m); [exact FX|apply put1_flat; exact FX]).
    assert (FC1 : flat C1) by (unfold C1; destruct (get1 X m); [exact FC|apply put1_flat; exact FC]).
    assert (E' : (let (s2, r) := (s1, Ok tt : res unit) in
        match r with
        | Ok _ => match eig_operand ec m "forward" (if off then AttributeError else TypeError) with
           | Ok fwd => match eig_operand ec m "backward" AttributeError with
              | Ok bwd => match (let* z := nd_item X1 m in as_dten z) with
                 | Ok old => match rotate_square (snd d) (snd fwd) (snd bwd) with
                    | Ok sq => match (if off then let* n := add_ (fst d, snd old) (fst d, sq) in Ok (Cpu, snd n)
                                      else (if dev_eqb (fst d) (fst fwd) && dev_eqb (fst d) (fst bwd) then add_ old (fst d, sq) else Err RuntimeError)) with
                       | Ok new => match size0 (snd d) with
                          | Ok n => match (let* c := nd_item C1 m in count_add c (fnat n)) with
                             | Ok c' => s' = with2 s1 es (put1 X1 m (VT new)) en (put1 C1 m c')
                             | Err _ => False end
                          | Err _ => False end
                       | Err _ => False end
                    | Err _ => False end
                 | Err _ => False end
              | Err _ => False end
           | Err _ => False end
        | Err _ => False end)).
    { assert (A1 : dget es (attrs s1) = Some X1 /\ dget en (attrs s1) = Some C1).
      { unfold s1, X1, C1. destruct (get1 X m); [auto|]. unfold with2. cbn [attrs with_attrs]. rewrite dget_dset_eq, dget_dset_neq by discriminate. rewrite dget_dset_eq. auto. }
      destruct A1 as [A1 A2].
      destruct (get1 X m) as [v|] eqn:G1.
      - cbv beta iota in E. destruct (eig_operand ec m "forward" _) as [fwd|]; [|discriminate E]. destruct (eig_operand ec m "backward" _) as [bwd|]; [|discriminate E].
        rewrite GX in E. unfold X1. destruct (let* z := nd_item X m in as_dten z) as [old|]; [|discriminate E]. destruct (rotate_square _ _ _) as [sq|]; [|discriminate E].
        destruct off.
        + destruct (add_ _ _) as [new|]; [|discriminate E]. cbn [bind]. rewrite (nd_set1_flat X m _ FX) in E. cbn [attrs with_attrs] in E.
          destruct (size0 (snd d)) as [n|]; [|discriminate E]. rewrite dget_dset_neq in E by discriminate. rewrite GC in E. unfold C1.
          destruct (nd_item C m) as [c|]; [|discriminate E]. cbn [bind]. destruct (count_add c (fnat n)) as [c'|]; [|discriminate E].
          rewrite (nd_set1_flat C m _ FC) in E. injection E as <-. reflexivity.
        + destruct (if _ && _ then _ else _) as [new|]; [|discriminate E]. rewrite (nd_set1_flat X m _ FX) in E. cbn [attrs with_attrs] in E.
          destruct (size0 (snd d)) as [n|]; [|discriminate E]. rewrite dget_dset_neq in E by discriminate. rewrite GC in E. unfold C1.
          destruct (nd_item C m) as [c|]; [|discriminate E]. cbn [bind]. destruct (count_add c (fnat n)) as [c'|]; [|discriminate E].
          rewrite (nd_set1_flat C m _ FC) in E. injection E as <-. reflexivity.
      - rewrite (nd_set1_flat X m _ FX), (nd_set1_flat C m _ FC) in E. cbv beta iota in E. fold X1 C1 in E. fold (with_attrs s (dset es X1 (attrs s))) in E.
        change (with_attrs (with_attrs s (dset es X1 (attrs s))) (dset en C1 (attrs (with_attrs s (dset es X1 (attrs s)))))) with s1 in E.
        destruct (eig_operand ec m "forward" _) as [fwd|]; [|discriminate E]. destruct (eig_operand ec m "backward" _) as [bwd|]; [|discriminate E].
        rewrite A1 in E. destruct (let* z := nd_item X1 m in as_dten z) as [old|]; [|discriminate E]. destruct (rotate_square _ _ _) as [sq|]; [|discriminate E].
        destruct off.
        + destruct (add_ _ _) as [new|]; [|discriminate E]. cbn [bind]. rewrite (nd_set1_flat X1 m _ FX1) in E.
          destruct (size0 (snd d)) as [n|]; [|discriminate E]. cbn [attrs with_attrs] in E. rewrite dget_dset_neq in E by discriminate.
          change (dset en C1 (dset es X1 (attrs s))) with (attrs s1) in E. rewrite A2 in E.
          destruct (nd_item C1 m) as [c|]; [|discriminate E]. cbn [bind]. destruct (count_add c (fnat n)) as [c'|]; [|discriminate E].
          rewrite (nd_set1_flat C1 m _ FC1) in E. injection E as <-. reflexivity.
        + destruct (if _ && _ then _ else _) as [new|]; [|discriminate E]. rewrite (nd_set1_flat X1 m _ FX1) in E.
          destruct (size0 (snd d)) as [n|]; [|discriminate E]. cbn [attrs with_attrs] in E. rewrite dget_dset_neq in E by discriminate.
          change (dset en C1 (dset es X1 (attrs s))) with (attrs s1) in E. rewrite A2 in E.
          destruct (nd_item C1 m) as [c|]; [|discriminate E]. cbn [bind]. destruct (count_add c (fnat n)) as [c'|]; [|discriminate E].
          rewrite (nd_set1_flat C1 m _ FC1) in E. injection E as <-. reflexivity. }
    clear E. cbv beta iota in E'.
    destruct (eig_operand ec m "forward" _) as [[df fwd]|] eqn:Ef; [|contradiction]. apply (eig_operand_ok ec m _ _ _ Tc) in Ef.
    destruct (eig_operand ec m "backward" _) as [[db bwd]|] eqn:Eb; [|contradiction]. apply (eig_operand_ok ec m _ _ _ Tc) in Eb.
    rewrite (nd_item_flat X1 m FX1), (sub_get1 X1 m FX1) in E'. cbn [bind] in E'.
    destruct (as_dten _) as [old|] eqn:Eo; [|contradiction]. cbn [snd] in E'.
    destruct (rotate_square (snd d) fwd bwd) as [sq|] eqn:Er; [|contradiction].
    destruct (rotate_square_ok _ _ _ _ Er We) as (n & i & j & i2 & j2 & Sd & Sf & Sb & Ss & Ws & Vs).
    assert (Hold : get1 X1 m = Some (VT old)).
    { destruct (get1 X1 m) as [[o| | |]|]; cbn in Eo; congruence. }
    match type of E' with context [match ?x with Ok _ => _ | Err _ => False end] => destruct x as [new|] eqn:En; [|contradiction] end.
    assert (Hadd : tadd (snd old) sq = Ok (snd new)).
    { destruct off.
      - unfold add_ in En. cbn [fst snd] in En. destruct (dev_eqb _ _); [|discriminate]. destruct (tadd _ _); cbn [bind] in En; [|discriminate]. injection En as <-. reflexivity.
      - destruct (_ && _); [|discriminate]. unfold add_ in En. cbn [fst snd] in En. destruct (dev_eqb _ _); [|discriminate]. destruct (tadd _ _); cbn [bind] in En; [|discriminate]. injection En as <-. reflexivity. }
    assert (Sz : size0 (snd d) = Ok n) by (unfold size0; rewrite Sd; reflexivity). rewrite Sz in E'.
    rewrite (nd_item_flat C1 m FC1), (sub_get1 C1 m FC1) in E'. cbn [bind] in E'.
    destruct (count_add _ (fnat n)) as [c'|] eqn:Ecn; [|contradiction]. subst s'.
    assert (Lg : logged_grads (ECall b m off) = samples (snd d)) by (apply get_data_grads; exact Ed).
    assert (Ln : length (samples (snd d)) = n) by (unfold samples, batch_size; rewrite map_length, seq_length, Sd; reflexivity).
    assert (G1 : grads_for m [ECall b m off] = samples (snd d)).
    { unfold grads_for. cbn [filter e_m]. rewrite String.eqb_refl. cbn [map concat]. rewrite app_nil_r. exact Lg. }
    assert (O1 : forall k, k <> es -> k <> en -> dget k (attrs s1) = dget k (attrs s0)).
    { intros k A B. rewrite <- (O k A B). unfold s1. destruct (get1 X m); [reflexivity|]. unfold with2. cbn [attrs with_attrs]. rewrite !dget_dset_neq by assumption. reflexivity. }
    split; [|split].
    - intros k A B. unfold with2. cbn [attrs with_attrs]. rewrite !dget_dset_neq by assumption. apply O1; assumption.
    - change (registries s1 = registries s0). rewrite <- R. unfold s1. destruct (get1 X m); reflexivity.
    - exists (put1 X1 m (VT new)), (put1 C1 m c'). unfold with2. cbn [attrs with_attrs]. rewrite dget_dset_eq, dget_dset_neq by discriminate. rewrite dget_dset_eq.
      split; [reflexivity|]. split; [reflexivity|]. split; [apply put1_flat; exact FX1|]. split; [apply put1_flat; exact FC1|]. intros m'.
      destruct (String.eqb_spec m' m) as [->|Nm].
      + right. cbv zeta. rewrite !get1_put1_eq by assumption. destruct new as [dn Tn]. cbn [snd] in *.
        assert (NE : filter (fun e => String.eqb (e_m e) m) (done ++ [ECall b m off]) <> []).
        { rewrite filter_app. cbn [filter e_m]. rewrite String.eqb_refl. intros Q. apply app_eq_nil in Q. destruct Q; discriminate. }
        assert (Q : twf (snd old) /\ shape (snd old) = [i2; j2] /\ (forall a c, a < i2 -> c < j2 -> mget (snd old) a c = sq_sum bwd fwd (grads_for m done) a c) /\
                    Forall (fun g => shape g = [i; j]) (grads_for m done) /\
                    c' = VN (fadd (fnat (length (grads_for m done))) (fnat n))).
        { assert (So : shape (snd old) = shape sq). { unfold tadd, tzip in Hadd. destruct (same_shape _ _) eqn:SS; [|discriminate]. apply same_shape_true. exact SS. }
          specialize (K m). cbv zeta in K. unfold X1 in Hold. unfold C1 in Ecn.
          destruct K as [(Ef0 & K1 & K2)|(dv & T0 & db0 & df0 & bwd0 & fwd0 & i0 & j0 & _ & K1 & W0 & S0 & Gf & Gb & (k0 & l0 & Sb0 & Sf0 & Gr0) & V0 & K2)].
          - rewrite K1 in Hold, Ecn. rewrite get1_put1_eq in Hold by exact FX. rewrite get1_put1_eq in Ecn by exact FC. injection Hold as <-. cbn [snd] in *.
            split; [apply tzeros_wf|]. split; [congruence|]. unfold grads_for. rewrite Ef0. cbn [map concat length]. cbn [count_add] in Ecn. injection Ecn as <-.
            split; [|split; [constructor|reflexivity]]. intros a c _ _. unfold mget. rewrite tget_tzeros. reflexivity.
          - rewrite K1 in Hold, Ecn. rewrite K1 in Hold. injection Hold as <-. rewrite K2 in Ecn. cbn [count_add] in Ecn. injection Ecn as <-. cbn [snd] in *.
            rewrite Ef in Gf. rewrite Eb in Gb. injection Gf as -> ->. injection Gb as -> ->. split; [exact W0|]. split; [congruence|].
            rewrite S0, Ss in So. injection So as -> ->. split; [exact V0|]. split; [|reflexivity].
            rewrite Sb in Sb0. rewrite Sf in Sf0. injection Sb0 as <-. injection Sf0 as <-. exact Gr0. }
        destruct Q as (Wo & So & Vo & Go & ->).
        exists dn, Tn, db, df, bwd, fwd, i2, j2. split; [exact NE|]. split; [reflexivity|].
        split; [exact (tzip_wf _ _ _ _ Wo Ws Hadd)|]. split; [unfold tadd, tzip in Hadd; destruct (same_shape _ _); [|discriminate]; injection Hadd as <-; exact So|].
        split; [exact Ef|]. split; [exact Eb|]. rewrite grads_for_app, G1, app_length, fnat_add, Ln.
        split. { exists i, j. split; [exact Sb|]. split; [exact Sf|]. apply Forall_app. split; [exact Go|]. apply Forall_forall. intros g Ig. unfold samples in Ig. apply in_map_iff in Ig as (p & <- & _). cbn [slice shape]. rewrite Sd. reflexivity. }
        split; [|reflexivity].
        intros a c La Lc. unfold mget. rewrite (tget_tzip _ _ _ _ _ Wo Ws Hadd) by (rewrite So; apply valid2; assumption). fold (mget (snd old) a c). fold (mget sq a c).
        rewrite Vo, Vs by assumption. unfold sq_sum. rewrite map_app, lsum_app. reflexivity.
      + rewrite !get1_put1_neq by assumption. specialize (K m'). cbv zeta in K |- *.
        assert (Fe : filter (fun e => String.eqb (e_m e) m') (done ++ [ECall b m off]) = filter (fun e => String.eqb (e_m e) m') done).
        { rewrite filter_app. cbn [filter e_m]. destruct (String.eqb_spec m m') as [->|]; [congruence|]. apply app_nil_r. }
        assert (Gm : grads_for m' (done ++ [ECall b m off]) = grads_for m' done) by (unfold grads_for; rewrite Fe; reflexivity). rewrite Fe, Gm.
        assert (XX : get1 X1 m' = get1 X m' /\ get1 C1 m' = get1 C m').
        { unfold X1, C1. destruct (get1 X m); [auto|]. rewrite !get1_put1_neq by assumption. auto. }
        destruct XX as [-> ->]. exact K.
  Qed.
  Lemma ebody_run ec ev eigh es0 : forall s0 s s' done, dget "covariance_eigvec_state"%string (attrs s0) = Some ec -> dget "covariance_eigval_state"%string (attrs s0) = Some ev -> two ec ->
    Forall grad_wf es0 -> einv ec s0 s done -> run_ecalls eigh es0 s = (s', Ok tt) -> einv ec s0 s' (done ++ es0).
  Proof.
    induction es0 as [|e l IH]; intros s0 s s' done Gc Gv Tc W I E.
    - cbn in E. injection E as <-. rewrite app_nil_r. exact I.
    - unfold run_ecalls in E. cbn [seach] in E. apply sbind_ok in E. destruct E as (s1 & [] & E1 & E2). inversion W as [|? ? W1 W2]; subst.
      rewrite corrected_eq in E1.
      assert (HA : hasattr "covariance_eigvec_state" s = true).
      { unfold hasattr. apply dmem_In. apply dget_In_keys. destruct I as (O & _). rewrite O by discriminate. eauto. }
      rewrite HA in E1. rewrite (sbind_run _ _ s s tt) in E1 by reflexivity.
      replace (done ++ e :: l) with ((done ++ [e]) ++ l) by (rewrite <- app_assoc; reflexivity).
      apply (IH s0 s1); try assumption. apply (ebody_inv ec ev s0 s); assumption.
  Qed.

  Lemma einv_start eigh s s' : inv5 s -> (covariance_svd eigh ;; register_state "ekfac_eigval_state" true true false ;;
          register_state "ekfac_counter" true false false ;; register_normalize_pair "ekfac_eigval_state" "ekfac_counter") s = (s', Ok tt) ->
    exists ev ec, dget "covariance_eigvec_state"%string (attrs s') = Some ec /\ dget "covariance_eigval_state"%string (attrs s') = Some ev /\ two ec /\
      einv ec s' s' [] /\ st_norm s' = base_pairs ++ [(es, en)] /\
      st_save s' = st_save s ++ ["covariance_eigval_state"; "covariance_eigvec_state"; "ekfac_eigval_state"]%string /\
      (forall n, In n (dkeys (attrs s)) -> dget n (attrs s') = dget n (attrs s)) /\
      (forall m k, match lookup2 s "covariance_state" m k with
                   | Some (VT d) => exists v w, eigh (snd d) = Ok (v, w) /\ get2 ev m k = Some (VT (fst d, v)) /\ get2 ec m k = Some (VT (fst d, w))
                   | _ => get2 ev m k = None /\ get2 ec m k = None
                   end).
  Proof.
    intros (R & KK & HI) E. apply sbind_ok in E. destruct E as (s1 & [] & E1 & E).
    destruct (hist_pairs _ _ _ HI SCov) as (x & c & Ex & Ec & P). cbn [stat_name counter_name] in *.
    destruct (init_registries s R) as (En & Es & Est & _).
    assert (ND : forall a, ~ In a (dkeys (attrs (@state_init F))) -> dget a (attrs s) = None).
    { intros a N. apply dget_None_keys. rewrite KK. exact N. }
    assert (N4 : forall a, In a ["covariance_eigval_state"; "covariance_eigvec_state"; "ekfac_eigval_state"; "ekfac_counter"]%string -> dget a (attrs s) = None).
    { intros a I. apply ND. rewrite init_attrs. cbn in I |- *. intros Q.
      repeat (destruct I as [<-|I]; [repeat (destruct Q as [Q|Q]; [discriminate Q|]); exact Q|]). exact I. }
    destruct (svd_ok eigh s x s1 Ex (proj1 P) (paired_vt x c P)) as (ev & ec & S1 & S2 & S3 & S4 & S5 & Gv & Gc & Tv & Tc & O & V).
    { rewrite Est. cbn. intuition discriminate. } { rewrite Est. cbn. intuition discriminate. } { exact E1. }
    assert (M1 : mem "ekfac_eigval_state"%string (st_states s1) = false).
    { rewrite S1, Est. reflexivity. }
    rewrite (sbind_run _ _ _ _ _ (register_new "ekfac_eigval_state" true true false s1 M1)) in E.
    assert (M2 : mem "ekfac_counter"%string ("ekfac_eigval_state"%string :: st_states s1) = false).
    { rewrite S1, Est. reflexivity. }
    match type of E with sbind _ _ ?st = _ => rewrite (sbind_run _ _ _ _ _ (register_new "ekfac_counter" true false false st M2)) in E end.
    unfold register_normalize_pair in E. cbn [attrs st_states st_sync st_save st_norm st_noclear] in E. rewrite S4, En in E.
    change (mem ("ekfac_eigval_state"%string, "ekfac_counter"%string) base_pairs) with false in E. cbv iota in E. injection E as <-.
    exists ev, ec. cbn [attrs st_states st_sync st_save st_norm st_noclear].
    rewrite !dget_dset_neq by discriminate. split; [exact Gc|]. split; [exact Gv|]. split; [exact Tc|]. split; [|split; [|split; [|split]]].
    - split; [auto|]. split; [reflexivity|]. cbn [attrs]. exists (Node []), (Node []). unfold es, en. rewrite dget_dset_eq, dget_dset_neq by discriminate. rewrite dget_dset_eq.
      split; [reflexivity|]. split; [reflexivity|]. split; [split; constructor|]. split; [split; constructor|]. intros m. left. cbn. auto.
    - reflexivity.
    - rewrite S3, <- app_assoc. reflexivity.
    - intros n I. assert (D : forall a, In a ["covariance_eigval_state"; "covariance_eigvec_state"; "ekfac_eigval_state"; "ekfac_counter"]%string -> n <> a).
      { intros a Ia ->. apply N4 in Ia. apply dget_None_keys in Ia. contradiction. }
      rewrite !dget_dset_neq by (apply D; cbn; auto). apply O; apply D; cbn; auto.
    - intros m k. rewrite (lookup2_get2 s _ x m k Ex). apply V.
  Qed.

  Theorem eigval_after_svd eigh (s : lstate) b m d o : dmem "covariance_eigvec_state"%string (attrs s) = true -> dmem "ekfac_eigval_state"%string (attrs s) = false ->
    corrected_eigval_update eigh b m d o s = (s, Err AttributeError).
  Proof.
    intros A B. unfold corrected_eigval_update. cbv [sbind sget attr sret lift]. unfold hasattr. rewrite A. cbv beta iota.
    assert (N : dget "ekfac_eigval_state"%string (attrs s) = None).
    { apply dget_None_keys. intros Q. apply dmem_In in Q. congruence. }
    destruct (dget "covariance_eigvec_state"%string (attrs s)); [|reflexivity].
    destruct (dget "covariance_eigval_state"%string (attrs s)); [|reflexivity]. rewrite N. reflexivity.
  Qed.
  Theorem ekfac_full eigh dk s e0 es0 s1 : inv5 s -> Forall grad_wf (e0 :: es0) -> run_ecalls eigh (e0 :: es0) s = (s1, Ok tt) ->
    exists s2 dk2 ev ec X, finalize dk s1 = (s2, Ok dk2) /\
      dget "covariance_eigval_state"%string (attrs s2) = Some ev /\ dget "covariance_eigvec_state"%string (attrs s2) = Some ec /\ two ec /\
      (forall m k, match lookup2 s "covariance_state" m k with
                   | Some (VT d) => exists v w, eigh (snd d) = Ok (v, w) /\ get2 ev m k = Some (VT (fst d, v)) /\ get2 ec m k = Some (VT (fst d, w))
                   | _ => get2 ev m k = None /\ get2 ec m k = None
                   end) /\
      (exists y c y', dget "covariance_state"%string (attrs s) = Some y /\ dget "covariance_counter"%string (attrs s) = Some c /\ paired y c /\
         normalize_nd y c = (y', Ok tt) /\ dget "covariance_state"%string (attrs s2) = Some y') /\
      dget es (attrs s2) = Some X /\ flat X /\
      forall m, let ecs := filter (fun e => String.eqb (e_m e) m) (e0 :: es0) in
        (ecs = [] /\ get1 X m = None) \/
        exists dv x db df bwd fwd i j k l, ecs <> [] /\ get1 X m = Some (VT (dv, x)) /\ twf x /\ shape x = [i; j] /\
          get2 ec m "forward" = Some (VT (df, fwd)) /\ get2 ec m "backward" = Some (VT (db, bwd)) /\
          shape bwd = [k; i] /\ shape fwd = [l; j] /\ Forall (fun g => shape g = [k; l]) (grads_for m (e0 :: es0)) /\
          forall a c, a < i -> c < j -> mget x a c =
            fdiv (lsum (map (fun g => fmul (project bwd fwd a c g) (project bwd fwd a c g)) (grads_for m (e0 :: es0)))) (fnat (length (grads_for m (e0 :: es0)))).
  Proof.
    intros I W E. unfold run_ecalls in E. cbn [seach] in E. apply sbind_ok in E. destruct E as (s3 & [] & E1 & E2).
    rewrite corrected_eq in E1. pose proof I as (R & KK & HI).
    assert (HA : hasattr "covariance_eigvec_state" s = false).
    { unfold hasattr. destruct (dmem _ _) eqn:D; [|reflexivity]. apply dmem_In in D. rewrite KK, init_attrs in D. cbn in D.
      repeat (destruct D as [D|D]; [discriminate D|]). contradiction. }
    rewrite HA in E1. apply sbind_ok in E1. destruct E1 as (s4 & [] & E0 & E1).
    destruct (einv_start eigh s s4 I E0) as (ev & ec & Gc & Gv & Tc & EI & Nm & Sv & O & V). inversion W as [|? ? W1 W2]; subst.
    assert (EI3 : einv ec s4 s3 [e0]) by (apply (ebody_inv ec ev s4 s4 s3 [] e0); assumption).
    assert (EI1 : einv ec s4 s1 (e0 :: es0)) by (apply (ebody_run ec ev eigh es0 s4 s3 s1 [e0]); assumption). clear EI3 EI E0 E1 E2.
    destruct EI1 as (O1 & R1 & X & C & GX & GC & FX & FC & K).
    assert (CF : compat1 X C).
    { split; [exact FX|]. split; [exact FC|]. intros m. specialize (K m). cbv zeta in K.
      destruct K as [(_ & -> & ->)|(? & ? & ? & ? & ? & ? & ? & ? & _ & -> & _ & _ & _ & _ & _ & _ & ->)]; exact Logic.I. }
    destruct (normalize_flat X C CF) as (X' & EX' & FX' & DX').
    assert (En1 : st_norm s1 = base_pairs ++ [(es, en)]) by (unfold registries in R1; congruence).
    assert (BP : forall st, exists x c, dget (stat_name st) (attrs s1) = Some x /\ dget (counter_name st) (attrs s1) = Some c /\ paired x c).
    { intros st. destruct (hist_pairs _ _ _ HI st) as (x & c & Ex & Ec & P). exists x, c.
      assert (Z : forall n, In n [stat_name st; counter_name st] -> dget n (attrs s1) = dget n (attrs s)).
      { intros n J. rewrite O1; [apply O| |]; try (destruct st; cbn in J; intros ->; repeat (destruct J as [J|J]; [discriminate J|]); exact J).
        rewrite KK, init_attrs. destruct st; cbn in J |- *; intuition. }
      rewrite !Z by (cbn; auto). auto. }
    destruct (normalize_pairs (base_pairs ++ [(es, en)])) with (s := s1) as (s2 & E2 & R2 & V2 & O2).
    { repeat constructor; cbn; intros Q; repeat (destruct Q as [Q|Q]; [discriminate Q|]); exact Q. }
    { intros a b Ja Jb. cbn in Ja, Jb. repeat (destruct Ja as [<-|Ja]; [repeat (destruct Jb as [<-|Jb]; [discriminate|]); contradiction|]). contradiction. }
    { intros a J. apply in_app_or in J. destruct J as [J|[<-|[]]].
      - apply base_pair_stat in J. destruct J as (st & ->). cbn [fst snd]. destruct (BP st) as (x & c & Ex & Ec & Pxc).
        destruct (normalize_two x c Pxc) as (x' & En' & _). exists x, c, x'. auto.
      - exists X, C, X'. auto. }
    pose proof (V2 (es, en) X C ltac:(apply in_or_app; right; left; reflexivity) GX GC) as GX2. cbn [fst] in GX2. rewrite EX' in GX2. cbn [fst] in GX2.
    destruct (save_ok dk s2) as (dk2 & Ed & _).
    { intros a J. assert (Sv2 : st_save s2 = st_save s ++ ["covariance_eigval_state"; "covariance_eigvec_state"; "ekfac_eigval_state"]%string).
      { unfold registries in R1, R2. congruence. }
      destruct (init_registries s R) as (_ & Es & _). rewrite Sv2, Es in J. cbn [app] in J.
      destruct (in_dec string_dec a (map fst (base_pairs ++ [(es, en)]))) as [J1|J1].
      - cbn in J1. destruct J1 as [<-|[<-|[<-|[]]]].
        + destruct (BP SMean) as (x & c & Ex & Ec & _). pose proof (V2 _ x c (or_introl eq_refl) Ex Ec) as Q. cbn [fst] in Q. rewrite Q. discriminate.
        + destruct (BP SCov) as (x & c & Ex & Ec & _). pose proof (V2 _ x c (or_intror (or_introl eq_refl)) Ex Ec) as Q. cbn [fst] in Q. rewrite Q. discriminate.
        + change (dget es (attrs s2) <> None). rewrite GX2. discriminate.
      - rewrite O2 by exact J1. rewrite O1; [|intros ->; apply J1; cbn; auto|intros ->; cbn in J; repeat (destruct J as [J|J]; [discriminate J|]); contradiction].
        cbn in J. destruct J as [<-|[<-|[<-|[<-|[<-|[<-|[]]]]]]]; try (exfalso; apply J1; cbn; tauto).
        + rewrite O by (rewrite KK, init_attrs; cbn; intuition). intros Q. apply dget_None_keys in Q. apply Q. rewrite KK, init_attrs. cbn. intuition.
        + rewrite Gv. discriminate.
        + rewrite Gc. discriminate. }
    exists s2, dk2, ev, ec, X'. split; [unfold finalize; rewrite (sbind_run _ _ _ _ _ (eq_trans (normalize_eq s1) ltac:(rewrite En1; exact E2))); exact Ed|].
    split. { rewrite O2 by (cbn; intuition discriminate). rewrite O1 by discriminate. exact Gv. }
    split. { rewrite O2 by (cbn; intuition discriminate). rewrite O1 by discriminate. exact Gc. }
    split; [exact Tc|]. split; [exact V|]. split.
    { destruct (hist_pairs _ _ _ HI SCov) as (y & c & Ey & Ec & P). destruct (normalize_two y c P) as (y' & Ny & _). exists y, c, y'. cbn [stat_name counter_name] in Ey, Ec. split; [exact Ey|]. split; [exact Ec|]. split; [exact P|]. split; [exact Ny|].
      assert (Z : forall n, In n ["covariance_state"; "covariance_counter"]%string -> dget n (attrs s1) = dget n (attrs s)).
      { intros n J. cbn in J. rewrite O1; [apply O| |]; try (destruct J as [<-|[<-|[]]]; discriminate). rewrite KK, init_attrs. destruct J as [<-|[<-|[]]]; cbn; intuition. }
      pose proof (V2 ("covariance_state", "covariance_counter")%string y c ltac:(cbn; auto)) as Q. cbn [fst snd] in Q. rewrite Q; [rewrite Ny; reflexivity| |]; rewrite Z by (cbn; auto); assumption. }
    split; [exact GX2|]. split; [exact FX'|]. intros m. specialize (K m). cbv zeta in K |- *.
    destruct K as [(Q & K1 & _)|(dv & Tn & db & df & bwd & fwd & i & j & N & K1 & W0 & S0 & Gf & Gb & (k & l & Sb & Sf & Gr) & V0 & K2)]; [left; rewrite DX', K1; auto|right].
    exists dv, (tmap (fun e => fdiv e (fnat (length (grads_for m (e0 :: es0))))) Tn), db, df, bwd, fwd, i, j, k, l. rewrite DX', K1, K2. split; [exact N|]. split; [reflexivity|]. split; [apply tmap_wf; exact W0|]. split; [exact S0|].
    repeat (split; [assumption|]). intros a c La Lc. unfold mget. rewrite tget_tmap by (try exact W0; rewrite S0; apply valid2; assumption).
    fold (mget Tn a c). rewrite V0 by assumption. reflexivity.
  Qed.
  Theorem ekfac_moments eigh dk s e0 es0 s1 : inv5 s -> Forall grad_wf (e0 :: es0) -> run_ecalls eigh (e0 :: es0) s = (s1, Ok tt) ->
    exists s2 dk2, finalize dk s1 = (s2, Ok dk2) /\
      (forall m, grads_for m (e0 :: es0) = [] -> filter (fun e => String.eqb (e_m e) m) (e0 :: es0) = [] -> eig_entry s2 m = None) /\
      forall m, filter (fun e => String.eqb (e_m e) m) (e0 :: es0) <> [] ->
        exists x i j k l cf cb vf vb u v, eig_entry s2 m = Some x /\ twf x /\ shape x = [i; j] /\
          stored s SCov m "forward" = Some cf /\ stored s SCov m "backward" = Some cb /\ eigh cf = Ok (vf, v) /\ eigh cb = Ok (vb, u) /\
          shape u = [k; i] /\ shape v = [l; j] /\ Forall (fun g => shape g = [k; l]) (grads_for m (e0 :: es0)) /\
          forall a c, a < i -> c < j -> mget x a c =
            fdiv (lsum (map (fun g => fmul (project u v a c g) (project u v a c g)) (grads_for m (e0 :: es0)))) (fnat (length (grads_for m (e0 :: es0)))).
  Proof.
    intros I W E. destruct (ekfac_full eigh dk s e0 es0 s1 I W E) as (s2 & dk2 & ev & ec & X & Ef & _ & _ & _ & V & _ & GX & FX & K). exists s2, dk2. split; [exact Ef|].
    assert (EE : forall m, eig_entry s2 m = match get1 X m with Some (VT x) => Some (snd x) | _ => None end).
    { intros m. unfold eig_entry. change (dget "ekfac_eigval_state"%string (attrs s2)) with (dget es (attrs s2)). rewrite GX. destruct X as [|dd]; [reflexivity|].
      cbn [get1]. destruct (dget m dd) as [[[| | |]|]|]; reflexivity. }
    split.
    - intros m _ N. rewrite EE. specialize (K m). cbv zeta in K. destruct K as [(_ & ->)|(? & ? & ? & ? & ? & ? & ? & ? & ? & ? & Q & _)]; [reflexivity|contradiction].
    - intros m N. specialize (K m). cbv zeta in K.
      destruct K as [(Q & _)|(dv & x & db & df & bwd & fwd & i & j & k & l & _ & K1 & W0 & S0 & Gf & Gb & Sb & Sf & Gr & V0)]; [contradiction|].
      pose proof (V m "forward"%string) as Vf. pose proof (V m "backward"%string) as Vb. unfold stored.
      change (stat_name SCov) with "covariance_state"%string.
      destruct (lookup2 s "covariance_state" m "forward") as [[[d1 cf]| | |]|]; try (destruct Vf; congruence). destruct Vf as (vf & w1 & Ef1 & _ & Gf').
      destruct (lookup2 s "covariance_state" m "backward") as [[[d2 cb]| | |]|]; try (destruct Vb; congruence). destruct Vb as (vb & w2 & Eb & _ & Gb').
      rewrite Gf in Gf'. rewrite Gb in Gb'. injection Gf' as _ <-. injection Gb' as _ <-.
      rewrite EE, K1. exists x, i, j, k, l, cf, cb, vf, vb, bwd, fwd. repeat (split; [first [reflexivity|assumption]|]). exact V0.
  Qed.
End Proofs.
