(** Preconditioning a log that does not fit the statistics. *)
From Verif Require Import Py PyStr Field Tensor ModelGrad Monad ModelState ModelInfluence SpecGrad SpecState SpecInfluence SpecFault GradProofs1 GradProofs2 StateProofs1 StateProofs3 StateProofs7 InfAlg InfProofs1 InfProofs2 InfProofs3 InfProofs4 InfProofs5 InfProofs7.
Local Open Scope string_scope.
Local Open Scope list_scope.
Local Open Scope nat_scope.

Section Proofs.
  Context {F : Type} `{OField F}.
  Notation tensor := (tensor F).
  Notation sval := (@sval F).
  Notation lstate := (@lstate F).
  Notation dten := (@dten F).
  Notation tlog := (@tlog F).
  Notation kfit := (@kfit F).
  Notation rfit := (@rfit F).
  Variable eigh : tensor -> res (tensor * tensor).
  Variable inverse : tensor -> res tensor.
  Notation precondition := (precondition eigh inverse).
  Notation precondition_kfac := (precondition_kfac eigh).
  Notation precondition_raw := (precondition_raw inverse).

  Lemma sbind_e {S A B} (m : SM S A) (k : A -> SM S B) s s' e : m s = (s', Err e) -> sbind m k s = (s', Err e).
  Proof. intros E. unfold sbind. rewrite E. reflexivity. Qed.

  Lemma NoDup_left {A} (a b : list A) : NoDup (a ++ b) -> NoDup a.
  Proof. induction a as [|x a IH]; [constructor|]. cbn. intros N. inversion N as [|? ? N1 N2]; subst. constructor; [|apply IH; exact N2]. intros I. apply N1. apply in_or_app. left. exact I. Qed.

  (** which preconditioner, for failing runs *)
  Lemma prec_kfac_err ids (s s' : lstate) C L d h e : holds s "covariance_state" C -> covered C L -> picks_kfac h C L ->
    precondition_kfac (log_nd L) d s = (s', Err e) -> precondition (ids, Nest (log_nd L)) d h s = (s', Err e).
  Proof.
    intros (HC & _) K P E. unfold ModelInfluence.precondition. destruct P as [->|(-> & N & A)].
    - change (mem "kfac" ["auto"; "kfac"; "raw"]) with true. change (String.eqb "kfac" "raw") with false. change (String.eqb "kfac" "auto") with false. cbv [sbind lift attr sret]. cbn [snd fst]. rewrite HC. rewrite !log_nd_keys. rewrite (covered_forallb C L K).
      rewrite E. reflexivity.
    - change (mem "auto" ["auto"; "kfac"; "raw"]) with true. change (String.eqb "auto" "raw") with false. change (String.eqb "auto" "auto") with true. cbv [sbind lift attr sret]. cbn [snd fst]. rewrite HC. rewrite !log_nd_keys. rewrite (covered_forallb C L K).
      unfold auto_raw in A. destruct L as [|[m x] L]; [congruence|]. cbn [dkeys map fst] in A |- *. pose proof (nd_has_log C m "grad") as Q. destruct (nd_item (log_nd C) m) as [y|]; cbn [bind] in Q; [|discriminate Q].
      injection Q as Q. rewrite Q, A. rewrite E. reflexivity.
  Qed.
  Lemma prec_raw_err ids (s s' : lstate) C L d h e : holds s "covariance_state" C -> covered C L -> picks_raw h C L ->
    precondition_raw (log_nd L) d s = (s', Err e) -> precondition (ids, Nest (log_nd L)) d h s = (s', Err e).
  Proof.
    intros (HC & _) K P E. unfold ModelInfluence.precondition. destruct P as [->|(-> & N & A)].
    - change (mem "raw" ["auto"; "kfac"; "raw"]) with true. change (String.eqb "raw" "raw") with true. change (String.eqb "raw" "auto") with false. cbv [sbind lift attr sret]. cbn [snd fst]. rewrite HC. rewrite !log_nd_keys. rewrite (covered_forallb C L K).
      rewrite E. reflexivity.
    - change (mem "auto" ["auto"; "kfac"; "raw"]) with true. change (String.eqb "auto" "raw") with false. change (String.eqb "auto" "auto") with true. cbv [sbind lift attr sret]. cbn [snd fst]. rewrite HC. rewrite !log_nd_keys. rewrite (covered_forallb C L K).
      unfold auto_raw in A. destruct L as [|[m x] L]; [congruence|]. cbn [dkeys map fst] in A |- *. pose proof (nd_has_log C m "grad") as Q. destruct (nd_item (log_nd C) m) as [y|]; cbn [bind] in Q; [|discriminate Q].
      injection Q as Q. rewrite Q, A. rewrite E. reflexivity.
  Qed.

  (** KFAC *)
  Lemma kfac_loop_prefix (s : lstate) evn EV EC L (kf : string -> kfit) rest : holds s evn EV ->
    forall ms dn d, (forall m, In m ms -> kfits EV EC L m (kf m)) -> NoDup (map fst dn ++ ms) ->
    exists d' dn', kfac_loop evn (log_nd EC) (log_nd L) (ms ++ rest) d (log_nd (plog dn)) s = kfac_loop evn (log_nd EC) (log_nd L) rest d' (log_nd (plog dn')) s.
  Proof.
    intros HE. induction ms as [|m ms IH]; intros dn d K N; [exists d, dn; reflexivity|].
    cbn [kfac_loop app]. rewrite (sbind_run _ _ _ _ _ (kfac_module_plain s evn EV EC L m (kf m) d HE (K m (or_introl eq_refl)))). cbn [fst snd].
    unfold lift at 1. unfold sbind at 1. rewrite plog_set.
    - apply IH; [intros m' I; apply K; right; exact I|]. rewrite map_app, <- app_assoc. exact N.
    - intros I. apply NoDup_remove_2 in N. apply N. apply in_or_app. left. exact I.
  Qed.
  Lemma sandwich_bad (u g v : tensor) a b : shape u = [a; a] -> shape v = [b; b] -> unfit (shape g) a b -> sandwich (transpose u) g v = Err RuntimeError.
  Proof.
    intros Su Sv N. unfold sandwich, transpose. rewrite shape_mgen, Su, Sv. cbn [nth]. destruct (shape g) as [|n [|x [|y [|z r]]]] eqn:Sg; try reflexivity.
    cbn in N. unfold esize. destruct (Nat.eqb_spec a x), (Nat.eqb_spec a 1), (Nat.eqb_spec x 1), (Nat.eqb_spec y b), (Nat.eqb_spec y 1), (Nat.eqb_spec b 1); cbn [bind]; try reflexivity; exfalso; intuition congruence.
  Qed.
  Lemma dev_eqb_neq a b : a <> b -> dev_eqb a b = false.
  Proof. destruct a, b; intros N; try reflexivity; exfalso; apply N; reflexivity. Qed.
  Lemma kfac_module_fault (s : lstate) C EV EC L m d e : eigh_contract eigh -> svd_cached eigh s C EV EC -> kfac_fault C L m e ->
    kfac_module "covariance_eigval_state" (log_nd EC) (log_nd L) m d s = (s, Err e).
  Proof.
    intros CT (_ & _ & (HE & _) & _ & D) KF. unfold kfac_module. cbv [sbind lift attr]. rewrite !log_item_look.
    destruct KF as [G|N|g cf cb a b G Lf Lb Yf Yb N|g cf cb a b G Lf Lb Yf Yb N]; unfold grad_of in *.
    - rewrite G. reflexivity.
    - destruct (look L m "grad") as [g|]; [|reflexivity]. destruct (look EC m "forward") as [vf|] eqn:Vf; [|reflexivity]. destruct (look EC m "backward") as [vb|] eqn:Vb; [|reflexivity].
      exfalso. destruct N as [N|N]; [pose proof (D m "forward") as Dm|pose proof (D m "backward") as Dm]; rewrite N in Dm; destruct Dm as [_ Dm]; congruence.
    - pose proof (D m "forward") as Df. rewrite Lf in Df. destruct Df as (wf & vf & Ef & Vf & Wf). pose proof (D m "backward") as Db. rewrite Lb in Db. destruct Db as (wb & vb & Eb & Vb & Wb).
      rewrite G, Wf, Wb, HE. destruct (nd_item (log_nd EV) m) as [y|er] eqn:Ey; [|rewrite log_nd_item in Ey; discriminate Ey].
      destruct (nd_has_look EV m "forward" _ _ Ey Vf) as [F1 F2]. destruct (nd_has_look EV m "backward" _ _ Ey Vb) as [B1 B2].
      assert (Ny : exists e, y = Node e). { rewrite log_nd_item in Ey. injection Ey as <-. unfold leafs. eauto. } destruct Ny as (ye & ->).
      rewrite F1, B1. cbn [andb]. rewrite F2, B2. cbn [bind]. unfold outer. cbn [fst snd]. destruct (CT _ _ _ _ Yf Ef) as (Sf & _). destruct (CT _ _ _ _ Yb Eb) as (Sb & _).
      rewrite Sf, Sb. rewrite (dev_eqb_neq (fst cb) (fst cf)) by congruence. reflexivity.
    - pose proof (D m "forward") as Df. rewrite Lf in Df. destruct Df as (wf & vf & Ef & Vf & Wf). pose proof (D m "backward") as Db. rewrite Lb in Db. destruct Db as (wb & vb & Eb & Vb & Wb).
      rewrite G, Wf, Wb, HE. destruct (nd_item (log_nd EV) m) as [y|er] eqn:Ey; [|rewrite log_nd_item in Ey; discriminate Ey].
      destruct (nd_has_look EV m "forward" _ _ Ey Vf) as [F1 F2]. destruct (nd_has_look EV m "backward" _ _ Ey Vb) as [B1 B2].
      assert (Ny : exists e, y = Node e). { rewrite log_nd_item in Ey. injection Ey as <-. unfold leafs. eauto. } destruct Ny as (ye & ->).
      rewrite F1, B1. cbn [andb]. rewrite F2, B2. cbn [bind]. unfold outer. cbn [fst snd]. destruct (CT _ _ _ _ Yf Ef) as (Sf & Sf' & _). destruct (CT _ _ _ _ Yb Eb) as (Sb & Sb' & _).
      rewrite Sf, Sb. destruct (dev_eqb (fst cb) (fst cf)); [|reflexivity]. cbv [sret]. rewrite (sandwich_bad vb (snd g) vf a b) by assumption. reflexivity.
  Qed.
  Theorem kfac_misfit ids s C L d h l1 m l2 e : eigh_contract eigh -> kfac_ready eigh s C -> solvable eigh C -> covered C L -> NoDup (dkeys L) -> picks_kfac h C L ->
    dkeys L = l1 ++ m :: l2 -> (forall x, In x l1 -> kfac_data C L x) -> kfac_fault C L m e ->
    exists s', precondition (ids, Nest (log_nd L)) d h s = (s', Err e) /\ kfac_ready eigh s' C /\
      (forall n, n <> "covariance_eigval_state" -> n <> "covariance_eigvec_state" -> dget n (attrs s') = dget n (attrs s)).
  Proof.
    intros CT R SO CV N PK DL K KF. destruct (ready_get_total eigh s C R SO) as (s' & vw & E). destruct (ready_get eigh s C s' vw R E) as (EV & EC & -> & SC & FR). exists s'.
    split; [|split; [eapply cached_ready; exact SC|exact FR]]. apply (prec_kfac_err ids s s' C L d h e); [apply R|exact CV|exact PK|].
    unfold ModelInfluence.precondition_kfac. rewrite (sbind_run _ _ _ _ _ E). cbv [sget lift]. unfold sbind at 1. unfold sbind at 1. rewrite (hasattr_none s' _ (proj1 (proj2 SC))). rewrite log_nd_keys. cbn [snd]. rewrite DL.
    rewrite DL in N.
    destruct (kfac_loop_prefix s' "covariance_eigval_state" EV EC L (kfit_c eigh C L) (m :: l2) (proj1 (proj2 (proj2 SC))) l1 [] d) as (d' & dn' & Q).
    - intros x I. apply kfull_fits; [apply SC|]. apply kfull_ok; auto.
    - cbn [map app]. exact (NoDup_left _ _ N).
    - change (log_nd (plog [])) with (@Node sval []) in Q. rewrite Q. cbn [kfac_loop]. apply sbind_e. exact (kfac_module_fault s' C EV EC L m d' e CT SC KF).
  Qed.

  (** corrected eigenvalues *)
  Lemma kfac_loop_ek_prefix dv EC L (ef : string -> efit) d rest : forall ms dn (s : lstate) E, dget "ekfac_eigval_state" (attrs s) = Some (leafs E) ->
    (forall m, In m ms -> efits dv EC E L m (ef m)) -> NoDup (map fst dn ++ ms) ->
    exists dn', kfac_loop "ekfac_eigval_state" (log_nd EC) (log_nd L) (ms ++ rest) (Some d) (log_nd (plog dn)) s =
      kfac_loop "ekfac_eigval_state" (log_nd EC) (log_nd L) rest (Some d) (log_nd (plog dn')) (with_ev s (fold_left (fun E m => estep dv d E m (ef m)) ms E)).
  Proof.
    induction ms as [|m ms IH]; intros dn s E HE K N; [exists dn; cbn [fold_left app]; rewrite with_ev_same by exact HE; reflexivity|].
    cbn [kfac_loop app]. rewrite (sbind_run _ _ _ _ _ (kfac_module_ek s dv EC E L m (ef m) (Some d) HE (K m (or_introl eq_refl)))). cbn [edamp fst snd].
    unfold lift at 1. unfold sbind at 1. rewrite plog_set.
    - destruct (IH (dn ++ [(m, eresult dv d (ef m))]) (with_ev s (estep dv d E m (ef m))) (estep dv d E m (ef m))) as (dn' & Q).
      + apply with_ev_get.
      + intros x I. apply efits_later; [|apply K; right; exact I]. intros ->. apply NoDup_remove_2 in N. apply N. apply in_or_app. right. exact I.
      + rewrite map_app, <- app_assoc. exact N.
      + exists dn'. rewrite Q. f_equal. cbn [fold_left]. unfold with_ev. cbn [with_attrs attrs]. rewrite dset_dset. reflexivity.
    - intros I. apply NoDup_remove_2 in N. apply N. apply in_or_app. left. exact I.
  Qed.
  Lemma kfac_module_ek_fault (s : lstate) EC E L m d e : dget "ekfac_eigval_state" (attrs s) = Some (leafs E) -> ekfac_fault EC E L m e ->
    kfac_module "ekfac_eigval_state" (log_nd EC) (log_nd L) m d s = (s, Err e).
  Proof.
    intros HE KF. unfold kfac_module. cbv [sbind lift attr]. rewrite !log_item_look.
    destruct KF as [G|N|g vf vb G Lf Lb De]; unfold grad_of in *.
    - rewrite G. reflexivity.
    - destruct (look L m "grad") as [g|]; [|reflexivity]. destruct (look EC m "forward") as [vf|]; [|reflexivity]. destruct (look EC m "backward") as [vb|]; [|reflexivity]. destruct N; discriminate.
    - rewrite G, Lf, Lb, HE, leafs_item, De. reflexivity.
  Qed.
  Lemma ek_svd s C EC E : ekfac_state s C EC E -> get_covariance_svd_state eigh s = (s, Ok (leafs E, log_nd EC)).
  Proof.
    intros (HC & (HV & _) & NV & HE & NE). destruct (dget "covariance_eigval_state" (attrs s)) as [ev|] eqn:Ev; [|congruence].
    unfold get_covariance_svd_state. cbv [sbind sget]. rewrite (hasattr_some s _ ev Ev), (hasattr_some s _ _ HV). cbn [andb]. cbv [sret attr]. rewrite (hasattr_some s _ _ HE), HE, HV. reflexivity.
  Qed.
  Lemma only_keys (ms : list string) (L : tlog) m : mem m (dkeys (only ms L)) = mem m ms && mem m (dkeys L).
  Proof.
    unfold only. induction L as [|[k x] L IH]; [cbn; rewrite andb_false_r; reflexivity|]. cbn [filter fst]. cbn [dkeys map mem fst]. destruct (mem k ms) eqn:Ek.
    - cbn [dkeys map mem fst]. fold (dkeys (filter (fun p : string * dict string dten => mem (fst p) ms) L)). rewrite IH. destruct (eqb_spec m k) as [E|E]; [subst; rewrite Ek; reflexivity|reflexivity].
    - rewrite IH. destruct (eqb_spec m k) as [E|E]; [subst; rewrite Ek; reflexivity|reflexivity].
  Qed.
  Theorem ekfac_misfit ids (s : lstate) dv C EC E L d h l1 m l2 e : ekfac_state s C EC E -> covered C L -> NoDup (dkeys L) -> picks_kfac h C L ->
    dkeys L = l1 ++ m :: l2 -> (forall x, In x l1 -> ekfac_data dv EC E L x) -> ekfac_fault EC E L m e ->
    exists s', precondition (ids, Nest (log_nd L)) (Some d) h s = (s', Err e) /\ ekfac_state s' C EC (increased d dv (only l1 L) E) /\
      (forall n, n <> "ekfac_eigval_state" -> dget n (attrs s') = dget n (attrs s)).
  Proof.
    intros R CV N PK DL K KF. pose proof R as (HC & (HV & _) & NV & HE & NE). change (dget "ekfac_eigval_state" (attrs s) = Some (leafs E)) in HE. exists (with_ev s (increased d dv (only l1 L) E)). split; [|split].
    - apply (prec_kfac_err ids s _ C L (Some d) h e); [exact HC|exact CV|exact PK|].
      unfold ModelInfluence.precondition_kfac. rewrite (sbind_run _ _ _ _ _ (ek_svd s C EC E R)). cbv [sget lift]. unfold sbind at 1. unfold sbind at 1. rewrite (hasattr_some s _ _ HE). rewrite log_nd_keys. cbn [snd]. rewrite DL.
      assert (N' := N). rewrite DL in N'. assert (KK : forall x, In x l1 -> efits dv EC E L x (efit_c EC E L x)) by (intros x I; apply efit_ok; auto).
      assert (FE : fold_left (fun E0 x => estep dv d E0 x (efit_c EC E L x)) l1 E = increased d dv (only l1 L) E).
      { etransitivity; [exact (esteps_map dv d (efit_c EC E L) l1 E NE (NoDup_left _ _ N') (fun x I => proj1 (proj2 (proj2 (proj2 (proj2 (proj2 (proj2 (KK x I)))))))))|]. unfold increased. apply map_ext. intros [x [xd xe]]. cbn [fst snd]. rewrite only_keys.
        destruct (mem x l1) eqn:Ex; [|reflexivity]. replace (mem x (dkeys L)) with true; [reflexivity|]. symmetry. apply mem_In. rewrite DL. apply in_or_app. left. apply mem_In. exact Ex. }
      destruct (kfac_loop_ek_prefix dv EC L (efit_c EC E L) d (m :: l2) l1 [] s E HE KK) as (dn' & Q); [cbn [map app]; exact (NoDup_left _ _ N')|].
      change (log_nd (plog [])) with (@Node sval []) in Q. rewrite Q, FE. cbn [kfac_loop]. apply sbind_e. apply (kfac_module_ek_fault _ EC (increased d dv (only l1 L) E)); [apply with_ev_get|].
      destruct KF as [G|G|g vf vb G Lf Lb De]; [apply ef_grad; exact G|apply ef_vec; exact G|]. eapply ef_val; try eassumption. rewrite increased_get, De. reflexivity.
    - apply (ek_next s C EC E); [exact R|apply increased_keys].
    - intros n Nn. unfold with_ev. cbn [with_attrs attrs]. apply dget_dset_neq. intros ->. apply Nn. reflexivity.
  Qed.

  (** the raw preconditioner *)
  Lemma raw_fold_prefix IV L (rf : string -> rfit) rest : forall ms dn, (forall m, In m ms -> rfits IV L m (rf m)) -> NoDup (map fst dn ++ ms) ->
    exists dn', foldM (fun out m => let* p := raw_module (log_nd IV) (log_nd L) m in nd_set2 out m "grad" (VT p)) (ms ++ rest) (log_nd (plog dn)) =
      foldM (fun out m => let* p := raw_module (log_nd IV) (log_nd L) m in nd_set2 out m "grad" (VT p)) rest (log_nd (plog dn')).
  Proof.
    induction ms as [|m ms IH]; intros dn K N; [exists dn; reflexivity|].
    cbn [foldM app]. rewrite (raw_module_ok IV L m (rf m)) by (apply K; left; reflexivity). cbn [bind]. rewrite plog_set.
    - cbn [bind]. apply IH; [intros m' I; apply K; right; exact I|]. rewrite map_app, <- app_assoc. exact N.
    - intros I. apply NoDup_remove_2 in N. apply N. apply in_or_app. left. exact I.
  Qed.
  Lemma raw_module_fault C IV L m d e : inverse_contract inverse -> inverted inverse d C IV -> raw_fault C L m e -> raw_module (log_nd IV) (log_nd L) m = Err e.
  Proof.
    intros CT D KF. unfold raw_module. rewrite !log_item_look. unfold grad_of in KF. destruct KF as [G|G|g n rest c k G Sg Lc Sc Nk]; unfold grad_of in *.
    - rewrite G. reflexivity.
    - destruct (look L m "grad"); [|reflexivity]. pose proof (D m "grad") as Dm. rewrite G in Dm. rewrite Dm. reflexivity.
    - pose proof (D m "grad") as Dm. rewrite Lc in Dm. destruct Dm as (a & b & Ib & Lb & Q). destruct (Q k Sc) as (Sa & Wa & _). destruct (CT k a b Sa Wa Ib) as (Sb & _).
      rewrite G, Lb. cbn [bind fst snd]. unfold make_2d. rewrite Sg. destruct (Nat.eq_dec n 0) as [->|En].
      + unfold reshape_infer. reflexivity.
      + rewrite (reshape_infer_ok (snd g) [n] [] (prod rest)).
        * cbn [app bind]. unfold matmul. cbn [shape]. rewrite Sb. replace (prod rest =? k) with false; [reflexivity|]. symmetry. apply Nat.eqb_neq. congruence.
        * change (prod [n] * prod []) with (n * 1 * 1). lia.
        * rewrite Sg, prod_cons. change (prod [n]) with (n * 1). change (prod []) with 1. lia.
  Qed.
  Definition rfit_c (IV L : tlog) (m : string) : rfit :=
    match grad_of L m, look IV m "grad" with
    | Some (dv, g), Some (e, iv) => RFit dv (nth 0 (shape g) 0) (tl (shape g)) g e iv
    | _, _ => RFit Cpu 0 [] (T [] []) Cpu (T [] [])
    end.
  Lemma rfit_ok C IV L m d : inverse_contract inverse -> inverted inverse d C IV -> raw_data C L m -> rfits IV L m (rfit_c IV L m).
  Proof.
    intros CT D (dv & n & rest & g & e & c & G & Sg & Wg & Nz & Lc & Sc). pose proof (D m "grad") as Dm. rewrite Lc in Dm. destruct Dm as (a & b & Ib & Lb & Q). destruct (Q _ Sc) as (Sa & Wa & _). destruct (CT _ a b Sa Wa Ib) as (Sb & _).
    unfold rfit_c. rewrite G, Lb, Sg. unfold rfits. cbn [r_dv r_g r_n r_rest r_e r_iv nth tl fst]. rewrite G. auto 10.
  Qed.
  Theorem raw_misfit ids s C L d h l1 m l2 e : inverse_contract inverse -> raw_ready inverse s C d -> invertible inverse d C -> covered C L -> NoDup (dkeys L) -> picks_raw h C L ->
    dkeys L = l1 ++ m :: l2 -> (forall x, In x l1 -> raw_data C L x) -> raw_fault C L m e ->
    exists s', precondition (ids, Nest (log_nd L)) d h s = (s', Err e) /\ raw_ready inverse s' C d /\ (forall n, n <> "covariance_inverse_state" -> dget n (attrs s') = dget n (attrs s)).
  Proof.
    intros CT R IN CV N PK DL K KF.
    destruct (inv_ready_get eigh inverse s C d R) as (s' & IV & E & SC & FR).
    { intros m0 t c Lc. destruct (IN m0 t c Lc) as (n & Sc & Q). destruct (damped_spec (snd c) d n Sc) as (A1 & A2 & A3). exact (Q _ A1 A2 A3). }
    exists s'. split; [|split; [eapply inv_cached_ready; exact SC|exact FR]]. apply (prec_raw_err ids s s' C L d h e); [apply R|exact CV|exact PK|].
    unfold ModelInfluence.precondition_raw. rewrite (sbind_run _ _ _ _ _ E). cbv [sbind lift]. rewrite log_nd_keys, DL. f_equal. rewrite DL in N.
    destruct (raw_fold_prefix IV L (rfit_c IV L) (m :: l2) l1 []) as (dn' & Q).
    - intros x I. apply (rfit_ok C IV L x d CT); [apply SC|apply K; exact I].
    - cbn [map app]. exact (NoDup_left _ _ N).
    - change (log_nd (plog [])) with (@Node sval []) in Q. rewrite Q. cbn [foldM]. rewrite (raw_module_fault C IV L m d e CT); [reflexivity|apply SC|exact KF].
  Qed.

  (** no module at all; a flattened log *)
  Theorem prec_empty ids s (C : tlog) d : holds s "covariance_state" C -> precondition (ids, Nest (log_nd [])) d "auto" s = (s, Err IndexError).
  Proof. intros (HC & _). unfold ModelInfluence.precondition. change (mem "auto" ["auto"; "kfac"; "raw"]) with true. change (String.eqb "auto" "raw") with false. change (String.eqb "auto" "auto") with true. cbv [sbind lift attr sret]. cbn [snd]. rewrite HC, log_nd_keys, log_nd_keys. reflexivity. Qed.
  Theorem prec_flat ids s (C : tlog) t d h : In h ["auto"; "kfac"; "raw"] -> holds s "covariance_state" C -> precondition (ids, Flat t) d h s = (s, Err AttributeError).
  Proof.
    intros I (HC & _). unfold ModelInfluence.precondition. apply mem_In in I. rewrite I. cbv [sbind lift attr sret]. cbn [snd]. rewrite HC. reflexivity.
  Qed.
End Proofs.
