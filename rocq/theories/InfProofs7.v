(** Corrected eigenvalues: every preconditioning adds the damping to them. *)
From Verif Require Import Py PyStr Field Tensor ModelGrad Monad ModelState ModelInfluence SpecGrad SpecState SpecInfluence GradProofs1 GradProofs2 StateProofs1 StateProofs3 StateProofs7 StateProofs10 InfAlg InfProofs1 InfProofs2 InfProofs3 InfProofs4 InfProofs5.
Local Open Scope string_scope.
Local Open Scope list_scope.
Local Open Scope nat_scope.

Section Proofs.
  Context {F : Type} `{OField F}.
  Add Field FfI7 : f_theory.
  Notation tensor := (tensor F).
  Notation sval := (@sval F).
  Notation lstate := (@lstate F).
  Notation dten := (@dten F).
  Notation tlog := (@tlog F).
  Variable eigh : tensor -> res (tensor * tensor).
  Variable inverse : tensor -> res tensor.
  Notation precondition := (precondition eigh inverse).
  Notation EVN := "ekfac_eigval_state".

  Record efit := EFit { e_n : nat; e_a : nat; e_b : nat; e_g : tensor; e_vf : tensor; e_vb : tensor; e_ed : dev; e_e : tensor }.
  Definition efits dv (EC : tlog) (E : dict string dten) (L : tlog) (m : string) (k : efit) : Prop :=
    grad_of L m = Some (dv, e_g k) /\ shape (e_g k) = [e_n k; e_a k; e_b k] /\
    (exists x, look EC m "forward" = Some (x, e_vf k)) /\ (exists x, look EC m "backward" = Some (x, e_vb k)) /\ shape (e_vf k) = [e_b k; e_b k] /\ shape (e_vb k) = [e_a k; e_a k] /\
    dget m E = Some (e_ed k, e_e k) /\ shape (e_e k) = [e_a k; e_b k].
  Definition bump (l : F) (e : tensor) : tensor := tmap (fun x => fadd x l) e.
  Definition eresult dv (l : F) (k : efit) : dten := (dv, core (e_n k) (e_a k) (e_b k) (e_vb k) (e_vf k) (bump l (e_e k)) (e_g k)).
  Definition edamp (k : efit) (d : option F) : F := match d with Some x => x | None => fmul tenth (tmean (e_e k)) end.
  Definition estep dv (l : F) (E : dict string dten) (m : string) (k : efit) : dict string dten :=
    if dev_eqb (e_ed k) dv then dset m (e_ed k, bump l (e_e k)) E else E.
  Definition with_ev (s : lstate) (E : dict string dten) : lstate := with_attrs s (dset EVN (leafs E) (attrs s)).
  Lemma with_ev_same s E : dget EVN (attrs s) = Some (leafs E) -> with_ev s E = s.
  Proof. intros D. unfold with_ev. rewrite dset_same by exact D. destruct s; reflexivity. Qed.
  Lemma with_ev_get s E : dget EVN (attrs (with_ev s E)) = Some (leafs E).
  Proof. unfold with_ev. cbn [with_attrs attrs]. apply dget_dset_eq. Qed.
  Lemma leafs_dset (E : dict string dten) m x : @Node sval (dset m (Leaf (VT x)) (map (fun q => (fst q, Leaf (VT (snd q)))) E)) = leafs (dset m x E).
  Proof.
    unfold leafs. f_equal. induction E as [|[k y] E IH]; [reflexivity|]. cbn [map dset fst snd]. destruct (eqb m k); [reflexivity|]. cbn [map fst snd]. f_equal. exact IH.
  Qed.
  Lemma kfac_module_ek (s : lstate) dv EC E L m k d : dget EVN (attrs s) = Some (leafs E) -> efits dv EC E L m k ->
    kfac_module EVN (log_nd EC) (log_nd L) m d s = (with_ev s (estep dv (edamp k d) E m k), Ok (eresult dv (edamp k d) k, edamp k d)).
  Proof.
    intros HE (G & Sg & (x1 & Cf) & (x2 & Cb) & Sf & Sb & De & Se). unfold kfac_module. cbv [sbind lift attr]. rewrite !log_item_look. unfold grad_of in G. rewrite G, Cf, Cb, HE.
    rewrite leafs_item, De. cbn [snd fst]. fold (edamp k d). cbv [sret].
    pose proof (core_ok (e_n k) (e_a k) (e_b k) (e_vb k) (e_vf k) (bump (edamp k d) (e_e k)) (e_g k) Sb Sf Se Sg) as CO. fold (bump (edamp k d) (e_e k)).
    assert (Q : (if dev_eqb (e_ed k) dv then fun s0 : lstate => match nd_set1 (leafs E) m (VT (e_ed k, bump (edamp k d) (e_e k))) with Ok a => set_attr EVN a s0 | Err e => (s0, Err e) end else fun s0 => (s0, Ok tt)) s =
                (with_ev s (estep dv (edamp k d) E m k), Ok tt)).
    { unfold estep. destruct (dev_eqb (e_ed k) dv).
      - unfold leafs at 1. cbn [nd_set1]. rewrite leafs_dset. reflexivity.
      - rewrite with_ev_same by exact HE. reflexivity. }
    destruct (sandwich (transpose (e_vb k)) (e_g k) (e_vf k)) as [rot|e1]; cbn [bind] in CO; [|discriminate CO].
    destruct (div_each rot _) as [pr|e1] eqn:Ed; cbn [bind] in CO; [|discriminate CO].
    match goal with |- (let (_, _) := ?q in _) = _ => replace q with (with_ev s (estep dv (edamp k d) E m k), @Ok unit tt) end.
    rewrite CO. reflexivity.
  Qed.
  Lemma efits_later dv EC E L m k l x kx : x <> m -> efits dv EC E L x kx -> efits dv EC (estep dv l E m k) L x kx.
  Proof.
    intros N (A1 & A2 & A3 & A4 & A5 & A6 & A7 & A8). unfold efits. repeat (split; [assumption|]). split; [|assumption]. unfold estep. destruct (dev_eqb (e_ed k) dv); [|exact A7]. rewrite dget_dset_neq by (intros ->; apply N; reflexivity). exact A7.
  Qed.
  Lemma kfac_loop_ek dv EC L (ef : string -> efit) d : forall ms dn (s : lstate) E, dget EVN (attrs s) = Some (leafs E) ->
    (forall m, In m ms -> efits dv EC E L m (ef m)) -> NoDup (map fst dn ++ ms) ->
    kfac_loop EVN (log_nd EC) (log_nd L) ms (Some d) (log_nd (plog dn)) s =
      (with_ev s (fold_left (fun E m => estep dv d E m (ef m)) ms E), Ok (log_nd (plog (dn ++ map (fun m => (m, eresult dv d (ef m))) ms)))).
  Proof.
    induction ms as [|m ms IH]; intros dn s E HE K N; [cbn; rewrite app_nil_r, with_ev_same by exact HE; reflexivity|].
    cbn [kfac_loop]. rewrite (sbind_run _ _ _ _ _ (kfac_module_ek s dv EC E L m (ef m) (Some d) HE (K m (or_introl eq_refl)))). cbn [edamp fst snd].
    unfold lift at 1. unfold sbind at 1. rewrite plog_set.
    - rewrite (IH _ _ (estep dv d E m (ef m))).
      + cbn [fold_left map]. rewrite <- app_assoc. f_equal. unfold with_ev. cbn [with_attrs attrs]. rewrite dset_dset. reflexivity.
      + apply with_ev_get.
      + intros x I. apply efits_later; [|apply K; right; exact I]. intros ->. apply NoDup_remove_2 in N. apply N. apply in_or_app. right. exact I.
      + rewrite map_app, <- app_assoc. exact N.
    - intros I. apply NoDup_remove_2 in N. apply N. apply in_or_app. left. exact I.
  Qed.
  (** the fold over modules is [increased] *)
  Lemma estep_map dv l E m k : NoDup (dkeys E) -> dget m E = Some (e_ed k, e_e k) ->
    estep dv l E m k = map (fun q => (fst q, if dev_eqb (fst (snd q)) dv && eqb (fst q) m then (fst (snd q), bump l (snd (snd q))) else snd q)) E.
  Proof.
    intros N D. unfold estep. destruct (dev_eqb (e_ed k) dv) eqn:Ev.
    - revert D N. induction E as [|[x [xd xe]] E IH]; intros D N; [discriminate D|]. cbn [dget dset map fst snd] in *. inversion N as [|? ? Nx N']; subst. destruct (eqb_spec m x) as [->|Ne].
      + injection D as -> ->. rewrite Ev, eqb_refl. cbn [andb]. f_equal. clear - Nx. induction E as [|[y [yd ye]] E IH]; [reflexivity|]. cbn [map fst snd]. rewrite (eqb_neq y x) by (intros ->; apply Nx; left; reflexivity). rewrite andb_false_r. f_equal. apply IH. intros I. apply Nx. right. exact I.
      + rewrite (eqb_neq x m) by (intros ->; apply Ne; reflexivity). rewrite andb_false_r. f_equal. apply IH; assumption.
    - rewrite <- (map_id E) at 1. apply map_ext_in. intros [x [xd xe]] I. cbn [fst snd]. destruct (eqb_spec x m) as [->|]; [|rewrite andb_false_r; reflexivity].
      rewrite (In_dget _ _ _ N I) in D. injection D as -> ->. rewrite Ev. reflexivity.
  Qed.
  Lemma esteps_map dv l (ef : string -> efit) : forall ms E, NoDup (dkeys E) -> NoDup ms -> (forall m, In m ms -> dget m E = Some (e_ed (ef m), e_e (ef m))) ->
    fold_left (fun E m => estep dv l E m (ef m)) ms E = map (fun q => (fst q, if dev_eqb (fst (snd q)) dv && mem (fst q) ms then (fst (snd q), bump l (snd (snd q))) else snd q)) E.
  Proof.
    induction ms as [|m ms IH]; intros E N Nm D; cbn [fold_left].
    - rewrite <- (map_id E) at 1. apply map_ext. intros [x [xd xe]]. cbn [fst snd mem]. rewrite andb_false_r. reflexivity.
    - inversion Nm as [|? ? Nx Nm']; subst. rewrite IH.
      + rewrite (estep_map dv l E m (ef m) N (D m (or_introl eq_refl))). rewrite map_map. apply map_ext. intros [x [xd xe]]. cbn [fst snd mem]. 
        destruct (eqb_spec x m) as [->|Ne]; cbn [orb]; rewrite ?andb_true_r, ?andb_false_r.
        * replace (mem m ms) with false by (symmetry; apply mem_false; exact Nx). rewrite andb_false_r. destruct (dev_eqb xd dv); reflexivity.
        * cbn [fst snd]. destruct (dev_eqb xd dv && mem x ms); reflexivity.
      + rewrite (estep_map dv l E m (ef m) N (D m (or_introl eq_refl))). unfold dkeys. rewrite map_map. exact N.
      + exact Nm'.
      + intros x I. unfold estep. destruct (dev_eqb _ _); [rewrite dget_dset_neq by (intros ->; contradiction)|]; apply D; right; exact I.
  Qed.

  Definition efit_c (EC : tlog) (E : dict string dten) (L : tlog) (m : string) : efit :=
    match grad_of L m, look EC m "forward", look EC m "backward", dget m E with
    | Some (_, g), Some (_, vf), Some (_, vb), Some (ed, e) => EFit (nth 0 (shape g) 0) (nth 1 (shape g) 0) (nth 2 (shape g) 0) g vf vb ed e
    | _, _, _, _ => EFit 0 0 0 (T [] []) (T [] []) (T [] []) Cpu (T [] [])
    end.
  Lemma efit_ok dv EC E L m : ekfac_data dv EC E L m -> efits dv EC E L m (efit_c EC E L m).
  Proof.
    intros (n & a & b & g & [x1 vf] & [x2 vb] & [ed e] & G & Sg & _ & Lf & (Sf & _) & Lb & (Sb & _) & De & Se & _). unfold efit_c. rewrite G, Lf, Lb, De, Sg. cbn [nth]. cbn [snd] in *.
    unfold efits. cbn [e_n e_a e_b e_g e_vf e_vb e_ed e_e]. rewrite G. eauto 15.
  Qed.
  Lemma ek_raw (s : lstate) dv C EC E L d : ekfac_state s C EC E -> NoDup (dkeys L) -> (forall m, In m (dkeys L) -> ekfac_data dv EC E L m) ->
    let l := match d, dkeys L with Some x, _ => x | None, m :: _ => edamp (efit_c EC E L m) None | None, [] => f0 end in
    ModelInfluence.precondition_kfac eigh (log_nd L) d s = (with_ev s (increased l dv L E), Ok (log_nd (plog (map (fun m => (m, eresult dv l (efit_c EC E L m))) (dkeys L))))).
  Proof.
    intros (HC & (HV & _) & NV & HE & NE) N K l. unfold ModelInfluence.precondition_kfac.
    destruct (dget "covariance_eigval_state" (attrs s)) as [ev|] eqn:Ev; [|congruence].
    assert (SV : get_covariance_svd_state eigh s = (s, Ok (leafs E, log_nd EC))).
    { unfold get_covariance_svd_state. cbv [sbind sget]. rewrite (hasattr_some s _ ev Ev), (hasattr_some s _ _ HV). cbn [andb]. cbv [sret attr]. rewrite (hasattr_some s _ _ HE), HE, HV. reflexivity. }
    rewrite (sbind_run _ _ _ _ _ SV). cbv [sbind sget lift]. rewrite (hasattr_some s _ _ HE). rewrite log_nd_keys. cbn [snd].
    assert (KK : forall m, In m (dkeys L) -> efits dv EC E L m (efit_c EC E L m)) by (intros m I; apply efit_ok; auto).
    assert (KE : forall d', kfac_loop EVN (log_nd EC) (log_nd L) (dkeys L) (Some d') (Node []) s =
      (with_ev s (increased d' dv L E), Ok (log_nd (plog (map (fun m => (m, eresult dv d' (efit_c EC E L m))) (dkeys L)))))).
    { intros d'. pose proof (kfac_loop_ek dv EC L (efit_c EC E L) d' (dkeys L) [] s E HE KK N) as KL. cbn [map app plog log_nd] in KL. unfold log_nd at 3 in KL. cbn [map] in KL. rewrite KL. f_equal. f_equal.
      rewrite esteps_map; [reflexivity|exact NE|exact N|]. intros m I. apply (KK m I). }
    destruct d as [d|]; [apply KE|]. unfold l. clear l. destruct (dkeys L) as [|m ms] eqn:DL.
    - cbn [kfac_loop map plog]. unfold sret. f_equal. unfold increased. rewrite DL. symmetry. replace (map _ E) with E; [apply with_ev_same; exact HE|].
      rewrite <- (map_id E) at 1. apply map_ext. intros [x [xd xe]]. cbn [fst snd mem]. rewrite andb_false_r. reflexivity.
    - rewrite <- KE. cbn [kfac_loop]. rewrite (sbind_run _ _ _ _ _ (kfac_module_ek s dv EC E L m _ None HE (KK m (or_introl eq_refl)))).
      rewrite (sbind_run _ _ _ _ _ (kfac_module_ek s dv EC E L m _ (Some (edamp (efit_c EC E L m) None)) HE (KK m (or_introl eq_refl)))). reflexivity.
  Qed.
  Lemma ek_covered dv C EC E L : (forall m, In m (dkeys L) -> ekfac_data dv EC E L m) -> (forall m t x, look EC m t = Some x -> exists y, look C m t = Some y) -> covered C L.
  Proof. intros K S m I. destruct (K m I) as (n & a & b & g & vf & vb & x & _ & _ & _ & Lf & _). destruct (S _ _ _ Lf) as (y & Ly). eapply look_in. exact Ly. Qed.
  Lemma ek_next s C EC E E' : ekfac_state s C EC E -> dkeys E' = dkeys E -> ekfac_state (with_ev s E') C EC E'.
  Proof.
    intros ((A1 & A2) & (B1 & B2) & D & HE & NE) K. unfold ekfac_state, holds. unfold with_ev. cbn [with_attrs attrs]. rewrite dget_dset_eq. rewrite !dget_dset_neq by discriminate.
    rewrite K. auto 10.
  Qed.
  Lemma increased_keys d dv L E : dkeys (increased d dv L E) = dkeys E.
  Proof. unfold increased, dkeys. rewrite map_map. reflexivity. Qed.
  Lemma increased_get d dv L E m : dget m (increased d dv L E) = option_map (fun x => if dev_eqb (fst x) dv && mem m (dkeys L) then (fst x, bump d (snd x)) else x) (dget m E).
  Proof.
    unfold increased. induction E as [|[k x] E IH]; [reflexivity|]. cbn [map dget fst snd]. destruct (eqb_spec m k) as [->|]; [reflexivity|exact IH].
  Qed.
  (** projections of the result *)
  Lemma core_project n a b vb vf Em g q i j : orthogonal a vb -> orthogonal b vf -> shape g = [n; a; b] -> twf g -> q < n -> i < a -> j < b -> mget Em i j <> f0 ->
    fmul (project vb vf i j (slice (core n a b vb vf Em g) q)) (mget Em i j) = project vb vf i j (slice g q).
  Proof.
    intros (Sb & Ob) (Sf & Of) Sg Wg Lq Li Lj NE.
    assert (OB : orth a (mget vb)). { split; intros x y Lx Ly; unfold mm, tr, idm; destruct (Ob x y Lx Ly) as [O1 O2]; [exact O1|exact O2]. }
    assert (OF : orth b (mget vf)). { split; intros x y Lx Ly; unfold mm, tr, idm; destruct (Of x y Lx Ly) as [O1 O2]; [exact O1|exact O2]. }
    assert (PR : forall (t : tensor) (h : nat -> nat -> F), shape t = [n; a; b] -> (forall p r, p < a -> r < b -> tget t [q; p; r] = h p r) ->
      project vb vf i j (slice t q) = mm a (tr (mget vb)) (mm b h (mget vf)) i j).
    { intros t h St Eh. unfold project. destruct t as [st dt]. cbn [shape] in St. subst st. change (shape (slice (T [n; a; b] dt) q)) with [a; b]. cbn [nth]. unfold mm, tr. apply sum_ext. intros p Lp.
      rewrite <- sum_mul_l. apply sum_ext. intros r Lr. unfold mget at 1. rewrite tget_slice by (apply valid2; assumption). rewrite Eh by assumption. ring. }
    rewrite (PR (core n a b vb vf Em g) _ eq_refl (fun p r Lp Lr => core_get n a b vb vf Em g q p r Lq Lp Lr)).
    rewrite (PR g (gmat g q) Sg (fun p r _ _ => eq_refl)).
    transitivity (fmul (kdiv a b (mget vb) (mget vf) (mget Em) (gmat g q) i j) (mget Em i j)).
    - f_equal. unfold kout.
      rewrite (mm_ext a a b (tr (mget vb)) (tr (mget vb)) _ (mm a (mget vb) (kdiv a b (mget vb) (mget vf) (mget Em) (gmat g q))) (meq_refl _ _ _)); [| |exact Li|exact Lj].
      + apply (cancel_l a b (mget vb) _ (proj1 OB) i j Li Lj).
      + eapply meq_trans; [apply mm_assoc|]. apply mm_ext; [apply meq_refl|]. apply cancel_r. apply OF.
    - unfold kdiv, krot. field. exact NE.
  Qed.
  Theorem ekfac_step ids (s : lstate) dv C EC E L d h : ekfac_state s C EC E -> NoDup (dkeys L) -> (forall m, In m (dkeys L) -> ekfac_data dv EC E L m) -> covered C L -> picks_kfac h C L ->
    fle f0 d -> d <> f0 ->
    exists s' P, precondition (ids, Nest (log_nd L)) (Some d) h s = (s', Ok (ids, Nest (log_nd P))) /\ ekfac_state s' C EC (increased d dv L E) /\ dkeys P = dkeys L /\
      (forall n, n <> EVN -> dget n (attrs s') = dget n (attrs s)) /\
      forall m g vf vb x, grad_of L m = Some (dv, g) -> look EC m "forward" = Some vf -> look EC m "backward" = Some vb -> dget m E = Some x ->
        exists p, grad_of P m = Some (dv, p) /\ eig_solution d (snd vb) (snd vf) (snd x) p g.
  Proof.
    intros R N K CV PK P0 Pn. pose proof (ek_raw s dv C EC E L (Some d) R N K) as EK. cbv zeta in EK.
    exists (with_ev s (increased d dv L E)), (plog (map (fun m => (m, eresult dv d (efit_c EC E L m))) (dkeys L))). split; [|split; [|split; [|split]]].
    - apply (prec_kfac eigh inverse ids s _ C L (Some d) h); [apply R|exact CV|exact PK|exact EK].
    - apply (ek_next s C EC E); [exact R|apply increased_keys].
    - rewrite plog_keys, map_map. apply map_id.
    - intros n Nn. unfold with_ev. cbn [with_attrs attrs]. apply dget_dset_neq. intros ->. apply Nn. reflexivity.
    - intros m g vf vb x G Lf Lb De. assert (I : In m (dkeys L)) by (eapply look_in; exact G). unfold grad_of at 1. rewrite plog_look, (dget_keymap (fun m => eresult dv d (efit_c EC E L m)) _ m I).
      eexists. split; [reflexivity|]. destruct (K m I) as (n & a & b & g' & vf' & vb' & x' & G' & Sg & Wg & Lf' & Of & Lb' & Ob & De' & Se & We & Pe).
      rewrite G in G'. injection G' as <-. rewrite Lf in Lf'. injection Lf' as <-. rewrite Lb in Lb'. injection Lb' as <-. rewrite De in De'. injection De' as <-.
      unfold efit_c. rewrite G, Lf, Lb, De. destruct vf as [x1 vf], vb as [x2 vb], x as [ed e]. cbn [snd fst] in *. cbn [e_n e_a e_b e_g e_vf e_vb e_ed e_e]. rewrite Sg. cbn [nth].
      exists n, a, b. split; [exact Sg|]. split; [reflexivity|]. split; [apply core_wf|]. intros k i j Lk Li Lj.
      assert (Q : mget (bump d e) i j = fadd (mget e i j) d) by (unfold bump; apply (tmap_mget (fun x => fadd x d) e a b); assumption).
      rewrite <- Q. apply core_project; try assumption. rewrite Q. apply fadd_pos_neq; auto.
  Qed.
  (** the default damping of EKFAC *)
  Theorem ekfac_default ids (s : lstate) dv C EC E L h m0 r0 x0 : ekfac_state s C EC E -> NoDup (dkeys L) -> (forall m, In m (dkeys L) -> ekfac_data dv EC E L m) -> covered C L -> picks_kfac h C L ->
    dkeys L = m0 :: r0 -> dget m0 E = Some x0 ->
    precondition (ids, Nest (log_nd L)) None h s = precondition (ids, Nest (log_nd L)) (Some (fmul (fdiv f1 (fnat 10)) (fdiv (tsum (snd x0)) (fnat (numel (snd x0)))))) h s.
  Proof.
    intros R N K CV PK E0 D0. pose proof (ek_raw s dv C EC E L None R N K) as EK. cbv zeta in EK.
    rewrite (prec_kfac eigh inverse ids s _ C L None h _ (proj1 R) CV PK EK).
    set (l := fmul (fdiv f1 (fnat 10)) (fdiv (tsum (snd x0)) (fnat (numel (snd x0))))).
    pose proof (ek_raw s dv C EC E L (Some l) R N K) as EL. cbv zeta in EL. rewrite (prec_kfac eigh inverse ids s _ C L (Some l) h _ (proj1 R) CV PK EL).
    assert (Q : edamp (efit_c EC E L m0) None = l).
    { destruct (K m0) as (n & a & b & g' & vf' & vb' & x' & G' & Sg & Wg & Lf' & Of & Lb' & Ob & De' & Se & We & Pe); [rewrite E0; left; reflexivity|].
      rewrite D0 in De'. injection De' as <-. unfold edamp, efit_c. rewrite G', Lf', Lb', D0. destruct vf' as [? ?], vb' as [? ?], x0 as [? ?]. reflexivity. }
    rewrite E0. rewrite Q. reflexivity.
  Qed.
  (** k calls in a row *)
  Lemma bump_twf l e : twf e -> twf (bump l e).
  Proof. intros W. unfold bump, tmap, twf in *. cbn [shape data]. rewrite map_length. exact W. Qed.
  Lemma ek_data_next dv EC E L d m : fle f0 d -> ekfac_data dv EC E L m -> ekfac_data dv EC (increased d dv L E) L m.
  Proof.
    intros P0 (n & a & b & g & vf & vb & x & A1 & A2 & A3 & A4 & A5 & A6 & A7 & De & Se & We & Pe). exists n, a, b, g, vf, vb, (if dev_eqb (fst x) dv && mem m (dkeys L) then (fst x, bump d (snd x)) else x).
    repeat (split; [assumption|]). rewrite increased_get, De. split; [reflexivity|]. destruct (dev_eqb (fst x) dv && mem m (dkeys L)); [|auto]. cbn [snd]. split; [exact Se|]. split; [apply bump_twf; exact We|].
    intros i j Li Lj. unfold bump. rewrite (tmap_mget _ (snd x) a b) by assumption. apply fadd_nonneg; auto.
  Qed.
  Notation after := (after eigh inverse).
  Theorem ekfac_drift k ids (s : lstate) dv C EC E L d h : ekfac_state s C EC E -> NoDup (dkeys L) -> (forall m, In m (dkeys L) -> ekfac_data dv EC E L m) -> covered C L -> picks_kfac h C L ->
    fle f0 d -> d <> f0 ->
    exists s' P, precondition (ids, Nest (log_nd L)) (Some d) h (after k ids L d h s) = (s', Ok (ids, Nest (log_nd P))) /\
      forall m g vf vb e x, grad_of L m = Some (dv, g) -> look EC m "forward" = Some vf -> look EC m "backward" = Some vb -> dget m E = Some (e, x) ->
        exists p, grad_of P m = Some (dv, p) /\ eig_solution (if dev_eqb e dv then fmul (fnat (S k)) d else d) (snd vb) (snd vf) x p g.
  Proof.
    intros R N K CV PK P0 Pn.
    assert (IT : exists Ek, ekfac_state (after k ids L d h s) C EC Ek /\ (forall m, In m (dkeys L) -> ekfac_data dv EC Ek L m) /\
      forall m e x, In m (dkeys L) -> dget m E = Some (e, x) -> exists y, dget m Ek = Some (e, y) /\ shape y = shape x /\
        forall n a i j, shape x = [n; a] -> i < n -> j < a -> twf y /\ mget y i j = fadd (mget x i j) (if dev_eqb e dv then fmul (fnat k) d else f0)).
    { induction k as [|k IH].
      - exists E. split; [exact R|]. split; [exact K|]. intros m e x I De. exists x. split; [exact De|]. split; [reflexivity|]. intros n a i j Sx Li Lj. destruct (K m I) as (? & ? & ? & ? & ? & ? & x' & _ & _ & _ & _ & _ & _ & _ & De' & _ & We & _). rewrite De in De'. injection De' as <-. split; [exact We|].
        cbn [fnat]. destruct (dev_eqb e dv); ring.
      - destruct IH as (Ek & Rk & Kk & Gk). destruct (ekfac_step ids _ dv C EC Ek L d h Rk N Kk CV PK P0 Pn) as (s' & P & Ep & Rs & _). exists (increased d dv L Ek). split; [|split].
        + change (after (S k) ids L d h s) with (fst (precondition (ids, Nest (log_nd L)) (Some d) h (after k ids L d h s))). rewrite Ep. exact Rs.
        + intros m I. apply ek_data_next; auto.
        + intros m e x I De. destruct (Gk m e x I De) as (y & Dy & Sy & Gy). rewrite increased_get, Dy. cbn [option_map fst snd]. replace (mem m (dkeys L)) with true by (symmetry; apply mem_In; exact I). rewrite andb_true_r.
          destruct (dev_eqb e dv) eqn:Ev.
          * eexists. split; [reflexivity|]. split; [exact Sy|]. intros n a i j Sx Li Lj. destruct (Gy n a i j Sx Li Lj) as [Wy My]. split; [apply bump_twf; exact Wy|]. unfold bump. rewrite (tmap_mget _ y n a) by congruence || assumption. rewrite My. cbn [fnat]. ring.
          * exists y. auto. }
    destruct IT as (Ek & Rk & Kk & Gk). destruct (ekfac_step ids _ dv C EC Ek L d h Rk N Kk CV PK P0 Pn) as (s' & P & Ep & _ & _ & _ & Q). exists s', P. split; [exact Ep|].
    intros m g vf vb e x G Lf Lb De. assert (I : In m (dkeys L)) by (eapply look_in; exact G). destruct (Gk m e x I De) as (y & Dy & Sy & Gy). destruct (Q m g vf vb (e, y) G Lf Lb Dy) as (p & Gp & n & a & b & S1 & S2 & Wp & ES). exists p. split; [exact Gp|].
    exists n, a, b. split; [exact S1|]. split; [exact S2|]. split; [exact Wp|]. intros q i j Lq Li Lj. rewrite <- (ES q i j Lq Li Lj). f_equal. cbn [snd].
    destruct (K m I) as (n' & a' & b' & g' & vf' & vb' & x' & G' & Sg' & _ & _ & _ & _ & _ & De' & Se' & _). rewrite G in G'. injection G' as <-. rewrite De in De'. injection De' as <-. rewrite S1 in Sg'. injection Sg' as <- <- <-. cbn [snd] in Se'.
    destruct (Gy a b i j Se' Li Lj) as [_ ->]. destruct (dev_eqb e dv); cbn [fnat]; ring.
  Qed.
End Proofs.
