(** Saving and loading the state; what [clear] leaves registered. *)
From Verif Require Import Py Field Tensor ModelGrad Monad ModelState SpecGrad SpecState GradProofs1 GradProofs2 StateProofs1 StateProofs2 StateProofs3 StateProofs4 StateProofs5 StateProofs6.
Local Open Scope string_scope.
Local Open Scope list_scope.
Local Open Scope nat_scope.

Section Proofs.
  Context {F : Type} `{OField F}.
  Add Field FfS10 : f_theory.
  Notation tensor := (tensor F).
  Notation sval := (@sval F).
  Notation lstate := (@lstate F).
  Notation dten := (@dten F).
  Notation call := (@call F).

  Lemma load_fold (ds : dict string (nd sval)) sv : forall s : lstate, (forall a, In a sv -> dget a ds <> None) ->
    exists s', seach (fun a => match dget a ds with Some x => set_attr a x | None => sfail FileNotFoundError end) sv s = (s', Ok tt) /\
      registries s' = registries s /\ (forall a, In a sv -> dget a (attrs s') = dget a ds) /\ (forall a, ~ In a sv -> dget a (attrs s') = dget a (attrs s)).
  Proof.
    induction sv as [|a sv IH]; intros s P.
    - exists s. split; [reflexivity|]. split; [reflexivity|]. split; [intros a []|reflexivity].
    - cbn [seach]. destruct (dget a ds) as [x|] eqn:Ea; [|exfalso; apply (P a); [left; reflexivity|exact Ea]].
      destruct (IH (with_attrs s (dset a x (attrs s)))) as (s' & E & R & V1 & V2); [intros b Ib; apply P; right; exact Ib|].
      exists s'. split; [unfold sbind, set_attr; exact E|]. split; [rewrite R; reflexivity|]. split.
      + intros b Ib. destruct (in_dec string_dec b sv) as [J|J]; [apply V1; exact J|].
        destruct Ib as [<-|Ib]; [|contradiction]. rewrite V2 by exact J. cbn [attrs with_attrs]. rewrite dget_dset_eq. congruence.
      + intros b Nb. rewrite V2 by (intros J; apply Nb; right; exact J). cbn [attrs with_attrs]. apply dget_dset_neq. intros ->. apply Nb. left. reflexivity.
  Qed.
  Theorem save_load (dk : @sdisk F) s s0 : (forall a, In a (st_save s) -> dget a (attrs s) <> None) ->
    exists dk' s1, save_state dk s = (s, Ok dk') /\ load_state dk' s0 = (s1, Ok tt) /\
      st_sync s1 = st_sync s /\ st_save s1 = st_save s /\ st_norm s1 = st_norm s /\ st_states s1 = st_states s0 /\ st_noclear s1 = st_noclear s0 /\
      (forall a, In a (st_save s) -> dget a (attrs s1) = dget a (attrs s)) /\
      (forall a, ~ In a (st_save s) -> dget a (attrs s1) = dget a (attrs s0)).
  Proof.
    intros P. destruct (save_ok dk s P) as (dk' & E1 & E2 & E3 & E4). exists dk'. unfold load_state. rewrite E2.
    destruct (load_fold (d_states dk') (st_save s) (LState (attrs s0) (st_states s0) (st_sync s) (st_save s) (st_norm s) (st_noclear s0))) as (s1 & L & R & V1 & V2).
    { intros a Ia. rewrite E3 by exact Ia. apply P. exact Ia. }
    exists s1. split; [exact E1|]. split; [exact L|]. unfold registries in R. cbn [st_states st_sync st_save st_norm st_noclear attrs] in *. injection R as R1 R2 R3 R4 R5.
    repeat (split; [assumption|]). split; [|exact V2]. intros a Ia. rewrite V1, E3 by exact Ia. reflexivity.
  Qed.
  Theorem load_missing (dk : @sdisk F) s : d_others dk = None -> load_state dk s = (s, Err FileNotFoundError).
  Proof. intros E. unfold load_state. rewrite E. reflexivity. Qed.

  (** an existing accumulator whose counter is gone *)
  Section Acc.
    Variables (add : dten -> dten -> res dten) (sn cn : string) (zero : nat -> tensor) (contrib : tensor -> tensor).
    Hypothesis N : sn <> cn.
    Variables (b : @binfo F) (module : option mkind) (m t : string) (data : option dten) (offload : bool).
    Lemma accumulate_loaded s x o :
      dget sn (attrs s) = Some x -> dget cn (attrs s) = Some (Node []) -> two x -> get2 x m t = Some (VT o) ->
      match (let* d := get_data b m t data in let* n := size0 (snd d) in let* d2 := make_2d (snd d) module t in Ok (d, n, d2)) with
      | Err e => accumulate add sn cn zero contrib b module m t data offload s = (s, Err e)
      | Ok (d, n, d2) =>
          match acc_add add offload (fst d) o (contrib d2) with
          | Err e => accumulate add sn cn zero contrib b module m t data offload s = (s, Err e)
          | Ok new => accumulate add sn cn zero contrib b module m t data offload s = (with_attrs s (dset sn (put2 x m t (VT new)) (attrs s)), Err TypeError)
          end
      end.
    Proof.
      intros Ex Ec Tx Gx. unfold accumulate.
      cbv [sbind lift attr set_attr sret]. rewrite Ex, Ec. sstep.
      destruct (get_data b m t data) as [d|e]; cbn [bind]; [|reflexivity]. sstep.
      destruct (size0 (snd d)) as [n|e]; cbn [bind]; [|reflexivity]. sstep.
      destruct (make_2d (snd d) module t) as [d2|e]; cbn [bind]; [|reflexivity]. sstep.
      rewrite (nd_item_two x m Tx). sstep. assert (Fx := sub_flat x m Tx).
      rewrite (nd_has_get1 _ t Fx). fold (get2 x m t). rewrite Gx.
      sstep. rewrite Ex. sstep. rewrite (nd_item_two x m Tx). sstep.
      rewrite (nd_item_flat _ t Fx), (sub_get1 _ t Fx). fold (get2 x m t). rewrite Gx. cbn [bind as_dten]. sstep.
      unfold acc_add. destruct offload.
      - destruct (add (fst d, snd o) (fst d, contrib d2)) as [new|e]; cbn [bind]; sstep; [|reflexivity].
        sstep. rewrite (nd_set2_two x m t _ Tx). sstep. rewrite dget_dset_neq by congruence. rewrite Ec. sstep. reflexivity.
      - destruct (add o (fst d, contrib d2)) as [new|e]; cbn [bind]; sstep; [|reflexivity].
        sstep. rewrite (nd_set2_two x m t _ Tx). sstep. rewrite dget_dset_neq by congruence. rewrite Ec. sstep. reflexivity.
    Qed.
  End Acc.

  Lemma norm_loaded x : two x -> (forall m t v, get2 x m t = Some v -> exists o : dten, v = VT o) ->
    (exists x', normalize_nd (F:=F) x (Node []) = (x', Err TypeError)) \/
    (normalize_nd x (Node []) = (x, Ok tt) /\ forall m t, get2 x m t = None).
  Proof.
    destruct x as [|d]; [contradiction|]. intros (Nd & Fd) V. rewrite normalize_node.
    assert (X : (exists l, norm_list (Node []) d = (l, Err TypeError)) \/ (norm_list (Node []) d = (d, Ok tt) /\ forall m t, get2 (Node d) m t = None)).
    { induction d as [|[k y] r IH]; [right; split; reflexivity|]. cbn [norm_list nd_item dget bind]. inversion Fd as [|? ? Fy Fr]; subst. cbn [snd] in Fy.
      cbn [dkeys map fst] in Nd. inversion Nd as [|? ? Nk Nr]; subst.
      destruct y as [|e]; [contradiction|]. rewrite normalize_node. destruct e as [|[k2 w] e].
      - cbn [norm_list]. destruct IH as [(l & El)|(El & G)]; [exact Nr|exact Fr| | |].
        + intros m' t' v' G'. apply (V m' t'). unfold get2. cbn [sub dget]. destruct (eqb_spec m' k) as [->|]; [|exact G'].
          exfalso. unfold get2 in G'. cbn [sub] in G'. rewrite (proj2 (dget_None_keys k r) Nk) in G'. discriminate G'.
        + left. rewrite El. eauto.
        + right. rewrite El. split; [reflexivity|]. intros m t. specialize (G m t). unfold get2 in *. cbn [sub dget] in *. destruct (eqb m k); [reflexivity|exact G].
      - left. destruct Fy as [_ Fe]. inversion Fe as [|? ? Lw _]; subst. destruct w as [w|]; [|contradiction].
        destruct (V k k2 w) as (o & ->). { unfold get2. cbn [sub dget]. rewrite eqb_refl. cbn [get1 dget]. rewrite eqb_refl. reflexivity. }
        cbn [norm_list nd_item dget bind normalize_nd]. destruct o as [dv tt0]. eauto. }
    destruct X as [(l & El)|(El & G)]; rewrite El; [left; eauto|right; auto].
  Qed.
  (** the state after logging and one finalize *)
  Lemma finalized cs s (dk : @sdisk F) s' dk' : run_calls cs state_init = (s, Ok tt) -> Forall call_ok cs -> finalize dk s = (s', Ok dk') ->
    registries s' = registries (@state_init F) /\ dkeys (attrs s') = dkeys (attrs (@state_init F)) /\ save_state dk s' = (s', Ok dk') /\
    (forall st, exists x c, dget (stat_name st) (attrs s') = Some x /\ dget (counter_name st) (attrs s') = Some c /\ paired x c) /\
    forall st m t, calls_for st m t cs <> [] -> exists o, lookup2 s' (stat_name st) m t = Some (VT o).
  Proof.
    intros E O Ef. pose proof (run_inv _ cs _ [] s init_hist O E) as HI. cbn [app] in HI.
    pose proof (run_registries cs (@state_init F)) as R. rewrite E in R. cbn [fst] in R.
    pose proof (run_keeps_keys cs (@state_init F)) as KK. rewrite E in KK. cbn [fst] in KK.
    assert (KK' : dkeys (attrs s) = dkeys (attrs (@state_init F))). { apply KK. intros st. rewrite init_attrs. destruct st; cbn; intuition. } clear KK.
    destruct (init_registries s R) as (En & _).
    destruct (normalize_good s En (hist_pairs _ _ _ HI)) as (s2 & E1 & R1 & K1 & P1 & D1 & _).
    unfold finalize in Ef. rewrite (sbind_run _ _ _ _ _ E1) in Ef.
    assert (s' = s2). { pose proof (save_state_same dk s2) as Q. rewrite Ef in Q. exact Q. } subst s'.
    split; [congruence|]. split; [congruence|]. split; [exact Ef|]. split; [exact P1|].
    intros st m t NE. specialize (D1 st m t). destruct HI as (_ & K). specialize (K st m t).
    destruct K as [(_ & C0 & _)|(dv & Tn & k & _ & L1 & _ & _ & _ & _ & _ & L2)]; [contradiction|]. rewrite D1, L1, L2. cbn [divide]. eauto.
  Qed.
  Theorem resume_raises cs s (dk : @sdisk F) s' dk' s0 s1 : run_calls cs state_init = (s, Ok tt) -> Forall call_ok cs -> finalize dk s = (s', Ok dk') ->
    no_counts s0 -> load_state dk' s0 = (s1, Ok tt) ->
    (forall st m t, lookup2 s1 (stat_name st) m t = lookup2 s' (stat_name st) m t) /\
    (forall c, calls_for (k_stat c) (k_m c) (k_t c) cs <> [] -> exists s2 e, do_call c s1 = (s2, Err e)) /\
    (forall c s3, calls_for (k_stat c) (k_m c) (k_t c) cs <> [] -> do_call c s' = (s3, Ok tt) ->
       exists s2, do_call c s1 = (s2, Err TypeError) /\ forall st m t, lookup2 s2 (stat_name st) m t = lookup2 s3 (stat_name st) m t) /\
    (cs <> [] -> forall dk2, exists s2, finalize dk2 s1 = (s2, Err TypeError)).
  Proof.
    intros E O Ef (C1 & C2) EL. destruct (finalized _ _ _ _ _ E O Ef) as (R & K & Es & P & NE).
    destruct (init_registries s' R) as (En & Esv & _).
    destruct (save_load dk s' s0 (saved_present s' K R)) as (dk'' & s1' & Es' & EL' & Y1 & Y2 & Y3 & Y4 & Y5 & V1 & V2).
    rewrite Es in Es'. injection Es' as <-. rewrite EL in EL'. injection EL' as <-.
    assert (AS : forall st, dget (stat_name st) (attrs s1) = dget (stat_name st) (attrs s')). { intros st. apply V1. rewrite Esv. destruct st; cbn; intuition. }
    assert (AC : forall st, dget (counter_name st) (attrs s1) = Some (Node [])).
    { intros st. rewrite V2; [destruct st; assumption|]. rewrite Esv. destruct st; cbn; intros Q; repeat (destruct Q as [Q|Q]; [discriminate Q|]); exact Q. }
    assert (LK : forall st m t, lookup2 s1 (stat_name st) m t = lookup2 s' (stat_name st) m t). { intros st m t. unfold lookup2. rewrite AS. reflexivity. }
    split; [exact LK|]. split; [|split].
    - intros c Nc. destruct (P (k_stat c)) as (x & cc & Ex & Ec & (Tx & _)). destruct (NE _ _ _ Nc) as (o & Lo).
      rewrite (lookup2_get2 s' _ x _ _ Ex) in Lo. rewrite do_call_acc.
      pose proof (accumulate_loaded (add_of (k_stat c)) (stat_name (k_stat c)) (counter_name (k_stat c)) (zero_of (k_stat c)) (contrib_of (k_stat c)) (names_neq _ _)
                  (k_b c) (k_mod c) (k_m c) (k_t c) (k_data c) (k_off c) s1 x o ltac:(rewrite AS; exact Ex) (AC _) Tx Lo) as A.
      destruct (let* d := _ in _) as [[[d n] d2]|e]; [|rewrite A; eauto]. destruct (acc_add _ _ _ _ _); rewrite A; eauto.
    - intros c s3 Nc Ed. destruct (P (k_stat c)) as (x & cc & Ex & Ec & Pxc). destruct (NE _ _ _ Nc) as (o & Lo).
      rewrite (lookup2_get2 s' _ x _ _ Ex) in Lo. rewrite do_call_acc in Ed |- *. pose proof Pxc as (Tx & _).
      pose proof (accumulate_loaded (add_of (k_stat c)) (stat_name (k_stat c)) (counter_name (k_stat c)) (zero_of (k_stat c)) (contrib_of (k_stat c)) (names_neq _ _)
                  (k_b c) (k_mod c) (k_m c) (k_t c) (k_data c) (k_off c) s1 x o ltac:(rewrite AS; exact Ex) (AC _) Tx Lo) as A.
      pose proof (accumulate_eq (add_of (k_stat c)) (stat_name (k_stat c)) (counter_name (k_stat c)) (zero_of (k_stat c)) (contrib_of (k_stat c)) (names_neq _ _)
                  (k_b c) (k_mod c) (k_m c) (k_t c) (k_data c) (k_off c) s' x cc Ex Ec Pxc) as B.
      destruct (let* d := _ in _) as [[[d n] d2]|e]; [|rewrite B in Ed; discriminate Ed].
      unfold old_of in B. rewrite Lo in B. destruct (acc_add _ _ _ _ _) as [new|e]; [|rewrite B in Ed; discriminate Ed].
      rewrite B in Ed. injection Ed as <-. rewrite A. eexists. split; [reflexivity|]. intros st m t. unfold lookup2, with2. cbn [attrs with_attrs].
      destruct (stat_eqb_spec st (k_stat c)) as [->|Ns].
      + rewrite (dget_dset_neq (stat_name (k_stat c)) (counter_name (k_stat c))) by apply names_neq. rewrite !dget_dset_eq. reflexivity.
      + rewrite !dget_dset_neq; try (apply names_neq || (intros Q; apply stat_name_inj in Q; congruence)). rewrite AS. reflexivity.
    - intros Ncs dk2.
      assert (Z : forall st, exists x, dget (stat_name st) (attrs s1) = Some x /\
        ((exists x', normalize_nd x (Node []) = (x', Err TypeError)) \/ (normalize_nd x (Node []) = (x, Ok tt) /\ forall m t, calls_for st m t cs = []))).
      { intros st. destruct (P st) as (x & cc & Ex & Ec & (Tx & Tc & Pr)). exists x. split; [rewrite AS; exact Ex|].
        destruct (norm_loaded x Tx) as [D|(D & G)]; [|left; exact D|right; split; [exact D|]].
        - intros m t v G. specialize (Pr m t). rewrite G in Pr. destruct v; try contradiction. eauto.
        - intros m t. specialize (NE st m t). rewrite (lookup2_get2 s' _ x _ _ Ex), G in NE. destruct (calls_for st m t cs) as [|c0 l]; [reflexivity|].
          destruct NE as (o & Q); [discriminate|discriminate Q]. }
      destruct (Z SMean) as (xm & Em & Zm). destruct (Z SCov) as (xc & Ecv & Zc). pose proof (AC SMean) as Am. pose proof (AC SCov) as Ac. cbn [stat_name counter_name] in Em, Ecv, Am, Ac.
      assert (NZ : exists s2, normalize s1 = (s2, Err TypeError)).
      { unfold normalize. unfold sbind at 1. cbv [sget]. rewrite Y3, En. unfold base_pairs. cbn [seach fst snd]. cbv [sbind attr lift set_attr sret].
        rewrite Em. cbv iota. rewrite Am. cbv iota. destruct Zm as [(xm' & Zm)|(Zm & Gm)]; rewrite Zm; [eexists; reflexivity|]. cbv beta iota.
        cbn [attrs with_attrs]. rewrite (dset_same "mean_state") by exact Em. rewrite Ecv. cbv iota. rewrite Ac. cbv iota.
        destruct Zc as [(xc' & Zc)|(Zc & Gc)]; rewrite Zc; [eexists; reflexivity|]. exfalso.
        destruct cs as [|c0 cr]; [contradiction|]. pose proof (calls_for_one_eq c0) as Q. pose proof (calls_for_app (k_stat c0) (k_m c0) (k_t c0) [c0] cr) as Q2. rewrite Q in Q2. cbn [app] in Q2.
        destruct (k_stat c0); [rewrite Gm in Q2|rewrite Gc in Q2]; discriminate Q2. }
      destruct NZ as (s2 & NZ). unfold finalize. exists s2. apply sbind_err. exact NZ.
  Qed.

  (** attributes no statistic update touches *)
  Definition frames (n : string) {A} (f : SM lstate A) : Prop := forall s, dget n (attrs (fst (f s))) = dget n (attrs s).
  Lemma frames_bind n {A B} (f : SM lstate A) (g : A -> SM lstate B) : frames n f -> (forall a, frames n (g a)) -> frames n (sbind f g).
  Proof. intros Kf Kg s. unfold sbind. specialize (Kf s). destruct (f s) as [s1 [a|e]]; cbn [fst] in *; [|exact Kf]. rewrite Kg. exact Kf. Qed.
  Lemma frames_set n a x : n <> a -> frames n (set_attr a x).
  Proof. intros N s. cbn [set_attr fst attrs with_attrs]. apply dget_dset_neq. exact N. Qed.
  Lemma frames_acc n ad sn cn z co b mo m t d o : n <> sn -> n <> cn -> frames n (accumulate (F:=F) ad sn cn z co b mo m t d o).
  Proof.
    intros N1 N2. unfold accumulate.
    repeat (first [apply frames_bind; [|intros ?] | apply frames_set; assumption
                  | match goal with |- frames _ (if ?x then _ else _) => destruct x end | intros ?; reflexivity]).
  Qed.
  Lemma frames_run n cs : (forall st, n <> stat_name st /\ n <> counter_name st) -> frames n (run_calls cs).
  Proof.
    intros N. unfold run_calls. induction cs as [|c cs IH]; cbn [seach]; [intros s; reflexivity|]. apply frames_bind; [|intros _; exact IH].
    destruct (N (k_stat c)). intros s. rewrite do_call_acc. apply frames_acc; assumption.
  Qed.

  (** cached decompositions registered before [clear] are returned empty and never recomputed *)
  Theorem stale_after_clear eigh iv os cs s' s2 : let s := fst (run_sops eigh iv os) in
    state_clear s = (s', Ok tt) -> run_calls cs s' = (s2, Ok tt) ->
    (In "covariance_eigval_state" (st_states s) -> In "covariance_eigvec_state" (st_states s) ->
     ~ In "covariance_eigval_state" (st_noclear s) -> ~ In "covariance_eigvec_state" (st_noclear s) ->
     dget "ekfac_eigval_state" (attrs s) = None \/ (In "ekfac_eigval_state" (st_states s) /\ ~ In "ekfac_eigval_state" (st_noclear s)) ->
     get_covariance_svd_state eigh s2 = (s2, Ok (Node [], Node []))) /\
    (In "covariance_inverse_state" (st_states s) -> ~ In "covariance_inverse_state" (st_noclear s) ->
     forall damping, get_covariance_inverse_state iv damping s2 = (s2, Ok (Node []))).
  Proof.
    intros s Ec Er. destruct (reach_inv eigh iv os) as (RI & _). fold s in RI. destruct (clear_reachable eigh iv os) as (s1 & Ec' & _ & Kc & V1 & V2). fold s in Ec', Kc, V1, V2.
    rewrite Ec in Ec'. injection Ec' as <-.
    assert (FR : forall n, (forall st, n <> stat_name st /\ n <> counter_name st) -> dget n (attrs s2) = dget n (attrs s')).
    { intros n N. pose proof (frames_run n cs N s') as Q. rewrite Er in Q. exact Q. }
    assert (NN : forall n, In n ["covariance_eigval_state"; "covariance_eigvec_state"; "ekfac_eigval_state"; "covariance_inverse_state"] -> forall st, n <> stat_name st /\ n <> counter_name st).
    { intros n I st. cbn in I. destruct st; cbn [stat_name counter_name]; repeat (destruct I as [<-|I]; [split; discriminate|]); contradiction. }
    split.
    - intros I1 I2 N1 N2 EK. pose proof (FR _ (NN "covariance_eigval_state" ltac:(cbn; auto))) as A1. pose proof (FR _ (NN "covariance_eigvec_state" ltac:(cbn; auto))) as A2.
      pose proof (FR _ (NN "ekfac_eigval_state" ltac:(cbn; auto))) as A3. rewrite (V1 _ I1 N1) in A1. rewrite (V1 _ I2 N2) in A2.
      unfold get_covariance_svd_state. cbv [sbind sget]. unfold hasattr, dmem. rewrite A1, A2. cbn [andb]. cbv [sret attr]. rewrite A3.
      destruct EK as [EK|(EK1 & EK2)].
      + destruct (dget "ekfac_eigval_state" (attrs s')) as [x|] eqn:Q.
        * exfalso. assert (In "ekfac_eigval_state" (dkeys (attrs s'))) as J by (apply dget_In_keys; eauto). rewrite Kc in J. apply dget_In_keys in J. destruct J as (z & J). rewrite EK in J. discriminate J.
        * cbv iota. rewrite A1, A2. reflexivity.
      + rewrite (V1 _ EK1 EK2). cbv iota. rewrite A3, (V1 _ EK1 EK2), A2. reflexivity.
    - intros I1 N1 damping. pose proof (FR _ (NN "covariance_inverse_state" ltac:(cbn; auto))) as A1. rewrite (V1 _ I1 N1) in A1.
      unfold get_covariance_inverse_state. cbv [sbind sget]. unfold hasattr, dmem. rewrite A1. cbv [sret attr]. rewrite A1. reflexivity.
  Qed.
End Proofs.
