(** Cached decompositions and inverses as seen by preconditioning. *)
From Verif Require Import Py PyStr Field Tensor ModelGrad Monad ModelState ModelInfluence SpecGrad SpecState SpecInfluence GradProofs1 StateProofs1 StateProofs3 StateProofs7 InfProofs1.
Local Open Scope string_scope.
Local Open Scope list_scope.
Local Open Scope nat_scope.

Section Proofs.
  Context {F : Type} `{OField F}.
  Add Field FfI3 : f_theory.
  Notation tensor := (tensor F).
  Notation sval := (@sval F).
  Notation lstate := (@lstate F).
  Notation dten := (@dten F).
  Notation tlog := (@tlog F).
  Variable eigh : tensor -> res (tensor * tensor).
  Variable inverse : tensor -> res tensor.

  Lemma leafs_flat (e : dict string dten) : NoDup (dkeys e) -> flat (leafs e).
  Proof.
    intros N. unfold leafs, flat. split; [rewrite (dkeys_map (fun x : dten => Leaf (VT x))); exact N|]. apply Forall_forall. intros q I. apply in_map_iff in I. destruct I as (x & <- & _). exact Logic.I.
  Qed.
  Lemma log_nd_two (L : tlog) : ok_log L -> two (log_nd L).
  Proof.
    intros [N1 N2]. unfold log_nd, two. split; [rewrite (dkeys_map (fun e : dict string dten => leafs e)); exact N1|].
    apply Forall_forall. intros q I. apply in_map_iff in I. destruct I as ((m & e) & <- & I). cbn [snd]. apply leafs_flat. rewrite Forall_forall in N2. apply (N2 _ I).
  Qed.
  Lemma get2_log (L : tlog) m t : get2 (log_nd L) m t = option_map VT (look L m t).
  Proof.
    unfold get2, sub, log_nd. rewrite (dget_map (fun e : dict string dten => leafs e)). unfold look. destruct (dget m L) as [e|]; [|reflexivity]. cbn [option_map].
    unfold leafs, get1. rewrite (dget_map (fun x : dten => Leaf (VT x))). destruct (dget t e); reflexivity.
  Qed.
  Lemma log_vt (L : tlog) : vt_only (log_nd L).
  Proof. intros m t v E. rewrite get2_log in E. destruct (look L m t); [|discriminate E]. injection E as <-. eauto. Qed.
  Lemma two_vt_log (x : nd sval) : two x -> vt_only x -> exists L, x = log_nd L /\ ok_log L.
  Proof.
    destruct x as [|d]; [contradiction|]. intros (N & Fa) V.
    assert (X : exists L : tlog, d = map (fun p => (fst p, leafs (snd p))) L /\ Forall (fun p => NoDup (dkeys (snd p))) L).
    { assert (V' : forall m y, In (m, y) d -> forall t v, get1 y t = Some v -> exists o : dten, v = VT o).
      { intros m y I t v G. apply (V m t). unfold get2, sub. rewrite (In_dget m y d N I). exact G. }
      clear V N. induction d as [|[m y] d IH]; [exists []; split; [reflexivity|constructor]|]. inversion Fa as [|? ? Fy Fr]; subst. cbn [snd] in Fy.
      destruct IH as (L & -> & NL); [exact Fr|intros m' y' I; apply (V' m'); right; exact I|]. specialize (V' m y (or_introl eq_refl)).
      destruct y as [|e]; [contradiction|]. destruct Fy as [Ne Fe].
      assert (Y : exists e', e = map (fun q : string * dten => (fst q, Leaf (VT (snd q)))) e').
      { assert (V2 : forall t y, In (t, y) e -> exists o : dten, y = Leaf (VT o)).
        { intros t y I. rewrite Forall_forall in Fe. specialize (Fe _ I). cbn [snd] in Fe. destruct y as [v|]; [|contradiction].
          destruct (V' t v) as (o & ->); [unfold get1; rewrite (In_dget t _ e Ne I); reflexivity|eauto]. }
        clear V' Ne Fe Fa. induction e as [|[t y] e IHe]; [exists []; reflexivity|]. destruct IHe as (e' & ->); [intros t' y' I; apply (V2 t'); right; exact I|].
        destruct (V2 t y (or_introl eq_refl)) as (o & ->). exists ((t, o) :: e'). reflexivity. }
      destruct Y as (e' & ->). exists ((m, e') :: L). split; [reflexivity|]. constructor; [|exact NL]. cbn [snd]. rewrite (dkeys_map (fun x : dten => Leaf (VT x))) in Ne. exact Ne. }
    destruct X as (L & -> & NL). exists L. split; [reflexivity|]. split; [|exact NL]. rewrite (dkeys_map (fun e : dict string dten => leafs e)) in N. exact N.
  Qed.
  Lemma log_inj (L M : tlog) : log_nd L = log_nd M -> L = M.
  Proof.
    intros E. injection E as E. revert M E. induction L as [|[m e] L IH]; intros [|[m' e'] M] E; try discriminate E; [reflexivity|].
    cbn [map fst snd] in E. injection E as E1 E2 E3. f_equal; [|apply IH; exact E3]. f_equal; [exact E1|].
    revert e' E2. induction e as [|[t x] e IHe]; intros [|[t' x'] e'] E2; try discriminate E2; [reflexivity|]. cbn [map fst snd] in E2. injection E2 as Q1 Q2 Q3. subst. f_equal. apply IHe. exact Q3.
  Qed.

  Lemma hasattr_some (s : lstate) a x : dget a (attrs s) = Some x -> hasattr a s = true.
  Proof. unfold hasattr, dmem. intros ->. reflexivity. Qed.
  Lemma hasattr_none (s : lstate) a : dget a (attrs s) = None -> hasattr a s = false.
  Proof. unfold hasattr, dmem. intros ->. reflexivity. Qed.

  (** the state in which the decompositions of [C] are cached *)
  Definition svd_cached (s : lstate) (C EV EC : tlog) : Prop :=
    holds s "covariance_state" C /\ dget "ekfac_eigval_state" (attrs s) = None /\
    holds s "covariance_eigval_state" EV /\ holds s "covariance_eigvec_state" EC /\ decomposed eigh C EV EC.
  Lemma cached_ready s C EV EC : svd_cached s C EV EC -> kfac_ready eigh s C.
  Proof. intros (A & B & D & E & G). split; [exact A|]. split; [exact B|]. right. eauto. Qed.
  Lemma cached_get s C EV EC : svd_cached s C EV EC -> get_covariance_svd_state eigh s = (s, Ok (log_nd EV, log_nd EC)).
  Proof.
    intros (A & B & (D & _) & (E & _) & G). unfold get_covariance_svd_state. cbv [sbind sget]. rewrite (hasattr_some s _ _ D), (hasattr_some s _ _ E). cbn [andb]. cbv [sret attr].
    rewrite (hasattr_none s _ B), D, E. reflexivity.
  Qed.
  Lemma svd_log (s : lstate) C s' : holds s "covariance_state" C -> ~ In "covariance_eigval_state" (st_states s) -> ~ In "covariance_eigvec_state" (st_states s) ->
    covariance_svd eigh s = (s', Ok tt) ->
    exists EV EC, holds s' "covariance_eigval_state" EV /\ holds s' "covariance_eigvec_state" EC /\ decomposed eigh C EV EC /\
      (forall n, n <> "covariance_eigval_state" -> n <> "covariance_eigvec_state" -> dget n (attrs s') = dget n (attrs s)).
  Proof.
    intros (HC & OC) N1 N2 E. destruct (svd_ok eigh s (log_nd C) s' HC (log_nd_two C OC) (log_vt C) N1 N2 E) as (ev & ec & _ & _ & _ & _ & _ & Gv & Gc & Tv & Tc & O & D).
    destruct (two_vt_log ev Tv) as (EV & -> & OV).
    { intros m t v Q. specialize (D m t). rewrite get2_log in D. destruct (look C m t) as [d|]; cbn [option_map] in D.
      - destruct D as (w & u & _ & D & _). rewrite D in Q. injection Q as <-. eauto.
      - destruct D as [D _]. rewrite D in Q. discriminate Q. }
    destruct (two_vt_log ec Tc) as (EC & -> & OE).
    { intros m t v Q. specialize (D m t). rewrite get2_log in D. destruct (look C m t) as [d|]; cbn [option_map] in D.
      - destruct D as (w & u & _ & _ & D). rewrite D in Q. injection Q as <-. eauto.
      - destruct D as [_ D]. rewrite D in Q. discriminate Q. }
    exists EV, EC. split; [split; assumption|]. split; [split; assumption|]. split; [|exact O].
    intros m t. specialize (D m t). rewrite !get2_log in D. destruct (look C m t) as [d|]; cbn [option_map] in D.
    - destruct D as (w & u & D1 & D2 & D3). exists w, u. split; [exact D1|]. destruct (look EV m t), (look EC m t); cbn [option_map] in D2, D3; try discriminate. injection D2 as ->. injection D3 as ->. auto.
    - destruct D as [D1 D2]. destruct (look EV m t), (look EC m t); cbn [option_map] in D1, D2; try discriminate. auto.
  Qed.
  Lemma svd_log_total (s : lstate) C : holds s "covariance_state" C -> ~ In "covariance_eigval_state" (st_states s) -> ~ In "covariance_eigvec_state" (st_states s) ->
    (forall m t d, look C m t = Some d -> exists wv, eigh (snd d) = Ok wv) -> exists s', covariance_svd eigh s = (s', Ok tt).
  Proof.
    intros (HC & OC) N1 N2 P. destruct (items2_ok (log_nd C) (log_nd_two C OC) (log_vt C)) as (l & El & Nl & Il).
    assert (M1 : mem "covariance_eigval_state" (st_states s) = false) by (apply mem_false; exact N1).
    assert (M3 : mem "covariance_eigvec_state" ("covariance_eigval_state" :: st_states s) = false) by (apply mem_false; intros [Q|Q]; [discriminate Q|contradiction]).
    unfold covariance_svd. rewrite (sbind_run _ _ _ _ _ (register_new "covariance_eigval_state" false true false s M1)).
    match goal with |- exists s', sbind _ _ ?st = _ => rewrite (sbind_run _ _ _ _ _ (register_new "covariance_eigvec_state" false true false st M3)) end.
    cbn [attrs st_states st_sync st_save st_norm st_noclear].
    match goal with |- exists s', sbind _ _ ?st = _ => set (s1 := st) end.
    assert (A1 : attr "covariance_state" s1 = (s1, Ok (log_nd C))). { unfold attr, s1. cbn [attrs]. rewrite !dget_dset_neq by discriminate. rewrite HC. reflexivity. }
    rewrite (sbind_run _ _ _ _ _ A1). rewrite (sbind_run (lift (items2 (log_nd C))) _ s1 s1 l) by (unfold lift; rewrite El; reflexivity).
    apply (svd_loop_total eigh l) with (ev := Node []) (ec := Node []).
    - intros m k d I. apply (P m k). apply Il in I. rewrite get2_log in I. destruct (look C m k); cbn [option_map] in I; [congruence|discriminate].
    - unfold s1. cbn [attrs]. rewrite dget_dset_neq by discriminate. apply dget_dset_eq.
    - unfold s1. cbn [attrs]. apply dget_dset_eq.
    - split; constructor.
    - split; constructor.
  Qed.
  (** what preconditioning gets *)
  Lemma ready_get s C s' vw : kfac_ready eigh s C -> get_covariance_svd_state eigh s = (s', Ok vw) ->
    exists EV EC, vw = (log_nd EV, log_nd EC) /\ svd_cached s' C EV EC /\
      (forall n, n <> "covariance_eigval_state" -> n <> "covariance_eigvec_state" -> dget n (attrs s') = dget n (attrs s)).
  Proof.
    intros (A & B & [(D & E & N1 & N2)|(EV & EC & D & E & G)]) Q.
    - unfold get_covariance_svd_state in Q. cbv [sbind sget] in Q. rewrite (hasattr_none s _ D) in Q. cbn [andb] in Q.
      destruct (covariance_svd eigh s) as [s1 [[]|e]] eqn:Es; [|discriminate Q].
      destruct (svd_log s C s1 A N1 N2 Es) as (EV & EC & H1 & H2 & H3 & O).
      assert (SC : svd_cached s1 C EV EC). { split; [|split; [|split; [|split]]]; try assumption; [|rewrite O by discriminate; exact B]. destruct A as (A1 & A2). split; [|exact A2]. rewrite O by discriminate. exact A1. }
      pose proof SC as (S1 & S2 & (S3 & S3') & (S4 & S4') & S5).
      cbv [attr sret] in Q. rewrite (hasattr_none s1 _ S2), S3, S4 in Q. injection Q as <- <-. exists EV, EC. split; [reflexivity|]. split; [exact SC|exact O].
    - assert (SC : svd_cached s C EV EC) by (unfold svd_cached; auto). rewrite (cached_get _ _ _ _ SC) in Q. injection Q as <- <-. exists EV, EC. auto.
  Qed.
  Lemma ready_get_total s C : kfac_ready eigh s C -> (forall m t d, look C m t = Some d -> exists wv, eigh (snd d) = Ok wv) ->
    exists s' vw, get_covariance_svd_state eigh s = (s', Ok vw).
  Proof.
    intros (A & B & [(D & E & N1 & N2)|(EV & EC & D & E & G)]) P.
    - destruct (svd_log_total s C A N1 N2 P) as (s1 & Es). destruct (svd_log s C s1 A N1 N2 Es) as (EV & EC & (H1 & _) & (H2 & _) & H3 & O).
      unfold get_covariance_svd_state. cbv [sbind sget]. rewrite (hasattr_none s _ D). cbn [andb]. rewrite Es. cbv [attr sret].
      rewrite (hasattr_none s1 "ekfac_eigval_state") by (rewrite O by discriminate; exact B). rewrite H1, H2. eauto.
    - assert (SC : svd_cached s C EV EC) by (unfold svd_cached; auto). rewrite (cached_get _ _ _ _ SC). eauto.
  Qed.

  (** the same for inverses *)
  Definition inv_step (damping : option F) (p : string * string * dten) : SM lstate unit :=
    let '((m, k), d) := p in
      let! iv := lift (inverse (damped (snd d) damping)) in
      let! s := attr "covariance_inverse_state" in
      let! s' := lift (nd_set2 s m k (VT (fst d, iv))) in
      set_attr "covariance_inverse_state" s'.
  Lemma inv_loop dm l : forall (s : lstate) x, dget "covariance_inverse_state" (attrs s) = Some x -> two x -> NoDup (map fst l) ->
    (forall m k d, In ((m, k), d) l -> exists b, inverse (damped (snd d) dm) = Ok b) ->
    exists s' x', seach (inv_step dm) l s = (s', Ok tt) /\ dget "covariance_inverse_state" (attrs s') = Some x' /\ two x' /\
      (forall n, n <> "covariance_inverse_state" -> dget n (attrs s') = dget n (attrs s)) /\
      (forall m k d, In ((m, k), d) l -> exists b, inverse (damped (snd d) dm) = Ok b /\ get2 x' m k = Some (VT (fst d, b))) /\
      (forall m k, ~ In (m, k) (map fst l) -> get2 x' m k = get2 x m k).
  Proof.
    induction l as [|[[m k] d] l IH]; intros s x Ex Tx N P.
    - exists s, x. cbn. repeat split; auto; contradiction.
    - cbn [map fst] in N. inversion N as [|? ? N1 N2]; subst. destruct (P m k d (or_introl eq_refl)) as (b & Eb).
      set (s1 := with_attrs s (dset "covariance_inverse_state" (put2 x m k (VT (fst d, b))) (attrs s))).
      destruct (IH s1 (put2 x m k (VT (fst d, b)))) as (s' & x' & E' & Gx & Tx' & O & I & NI).
      + apply dget_dset_eq.
      + apply put2_two; exact Tx.
      + exact N2.
      + intros m' k' d' J. apply (P m' k'). right. exact J.
      + exists s', x'. split; [|split; [exact Gx|split; [exact Tx'|split; [|split]]]].
        * cbn [seach]. rewrite (sbind_run _ _ s s1 tt); [exact E'|]. unfold inv_step. cbv [sbind lift attr set_attr]. rewrite Eb, Ex. rewrite (nd_set2_two x m k _ Tx). reflexivity.
        * intros n Nn. rewrite O by exact Nn. unfold s1. cbn [attrs with_attrs]. apply dget_dset_neq. exact Nn.
        * intros m' k' d' [[= <- <- <-]|J]; [|apply I; exact J]. exists b. split; [exact Eb|]. rewrite NI by exact N1. apply get2_put2_eq. exact Tx.
        * intros m' k' Q. cbn [map fst In] in Q. rewrite NI by tauto. apply get2_put2_neq; [exact Tx|]. intros W. apply Q. left. congruence.
  Qed.
  Lemma damped_spec (c : tensor) d n : shape c = [n; n] -> shape (damped c d) = [n; n] /\ twf (damped c d) /\
    forall i j, i < n -> j < n -> mget (damped c d) i j = fadd (mget c i j) (fmul (own_damping c d) (ident i j)).
  Proof.
    intros Sc. unfold damped, own_damping. rewrite Sc. cbn [nth]. split; [reflexivity|]. split; [apply tgen_wf|]. intros i j Li Lj. rewrite mget_mgen by assumption.
    unfold ident, trace, tenth. rewrite Sc. reflexivity.
  Qed.
  Definition inv_cached (s : lstate) (C IV : tlog) (d : option F) : Prop :=
    holds s "covariance_state" C /\ holds s "covariance_inverse_state" IV /\ inverted inverse d C IV.
  Lemma inv_cached_ready s C IV d : inv_cached s C IV d -> raw_ready inverse s C d.
  Proof. intros (A & B & D). split; [exact A|]. right. eauto. Qed.
  Lemma inv_cached_get s C IV d d' : inv_cached s C IV d -> get_covariance_inverse_state inverse d' s = (s, Ok (log_nd IV)).
  Proof.
    intros (A & (B & _) & D). unfold get_covariance_inverse_state. cbv [sbind sget]. rewrite (hasattr_some s _ _ B). cbv [sret attr]. rewrite B. reflexivity.
  Qed.
  Lemma inv_ready_get s C d : raw_ready inverse s C d ->
    (forall m t c, look C m t = Some c -> exists b, inverse (damped (snd c) d) = Ok b) ->
    exists s' IV, get_covariance_inverse_state inverse d s = (s', Ok (log_nd IV)) /\ inv_cached s' C IV d /\
      (forall n, n <> "covariance_inverse_state" -> dget n (attrs s') = dget n (attrs s)).
  Proof.
    intros (A & [(B & N)|(IV & B & D)]) P.
    - destruct A as (HC & OC). destruct (items2_ok (log_nd C) (log_nd_two C OC) (log_vt C)) as (l & El & Nl & Il).
      assert (M1 : mem "covariance_inverse_state" (st_states s) = false) by (apply mem_false; exact N).
      unfold get_covariance_inverse_state. rewrite (sbind_run sget _ s s s) by reflexivity. rewrite (hasattr_none s _ B).
      pose proof (register_new "covariance_inverse_state" false true false s M1) as R1.
      match type of R1 with _ = (?st, _) => set (s1 := st) in R1 end.
      assert (A1 : attr "covariance_state" s1 = (s1, Ok (log_nd C))). { unfold attr, s1. cbn [attrs]. rewrite dget_dset_neq by discriminate. rewrite HC. reflexivity. }
      destruct (inv_loop d l s1 (Node [])) as (s' & x' & E' & Gx & Tx & O & I & NI).
      { unfold s1. cbn [attrs]. apply dget_dset_eq. } { split; constructor. } { exact Nl. }
      { intros m k c J. apply (P m k). apply Il in J. rewrite get2_log in J. destruct (look C m k); cbn [option_map] in J; [congruence|discriminate]. }
      assert (G2 : forall m t, match look C m t with Some c => exists b, inverse (damped (snd c) d) = Ok b /\ get2 x' m t = Some (VT (fst c, b)) | None => get2 x' m t = None end).
      { intros m t. destruct (look C m t) as [c|] eqn:Lc.
        - apply I. apply Il. rewrite get2_log, Lc. reflexivity.
        - rewrite NI; [reflexivity|]. intros Q. apply in_map_iff in Q. destruct Q as ((k & c) & Q1 & Q2). cbn [fst] in Q1. subst k. apply Il in Q2. rewrite get2_log, Lc in Q2. discriminate Q2. }
      destruct (two_vt_log x' Tx) as (IV & -> & OI).
      { intros m t v Q. specialize (G2 m t). destruct (look C m t) as [c|]; [destruct G2 as (b & _ & G2)|]; rewrite G2 in Q; [injection Q as <-; eauto|discriminate Q]. }
      exists s', IV. assert (EI : covariance_inverse inverse d s = (s', Ok tt)).
      { unfold covariance_inverse. rewrite (sbind_run _ _ _ _ _ R1), (sbind_run _ _ _ _ _ A1). rewrite (sbind_run (lift (items2 (log_nd C))) _ s1 s1 l) by (unfold lift; rewrite El; reflexivity). exact E'. }
      split; [|split].
      + rewrite (sbind_run _ _ _ _ _ EI). unfold attr. rewrite Gx. reflexivity.
      + split; [split; [|exact OC]|split; [split; assumption|]].
        * rewrite O by discriminate. unfold s1. cbn [attrs]. rewrite dget_dset_neq by discriminate. exact HC.
        * intros m t. specialize (G2 m t). rewrite get2_log in G2. destruct (look C m t) as [c|].
          -- destruct G2 as (b & G2 & G3). destruct (look IV m t) as [z|]; cbn [option_map] in G3; [|discriminate]. exists (damped (snd c) d), b. split; [exact G2|]. split; [injection G3 as ->; reflexivity|].
             intros n Sc. apply damped_spec. exact Sc.
          -- destruct (look IV m t); [discriminate G2|reflexivity].
      + intros n Nn. rewrite O by exact Nn. unfold s1. cbn [attrs]. apply dget_dset_neq. exact Nn.
    - exists s, IV. assert (SC : inv_cached s C IV d) by (unfold inv_cached; auto). split; [apply (inv_cached_get s C IV d d SC)|]. auto.
  Qed.
End Proofs.
