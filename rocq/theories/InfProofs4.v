(** Preconditioning of a whole log. *)
From Verif Require Import Py PyStr Field Tensor ModelGrad Monad ModelState ModelInfluence SpecGrad SpecState SpecInfluence GradProofs1 GradProofs2 StateProofs1 StateProofs3 StateProofs7 InfAlg InfProofs1 InfProofs2 InfProofs3.
Local Open Scope string_scope.
Local Open Scope list_scope.
Local Open Scope nat_scope.

Section Proofs.
  Context {F : Type} `{OField F}.
  Add Field FfI4 : f_theory.
  Notation tensor := (tensor F).
  Notation sval := (@sval F).
  Notation lstate := (@lstate F).
  Notation dten := (@dten F).
  Notation tlog := (@tlog F).
  Variable eigh : tensor -> res (tensor * tensor).
  Variable inverse : tensor -> res tensor.
  Notation precondition := (precondition eigh inverse).
  Notation precondition_kfac := (precondition_kfac eigh).
  Notation precondition_raw := (precondition_raw inverse).

  (** rotate, divide by the matrix E, rotate back *)
  Definition gmat (g : tensor) (k : nat) : nat -> nat -> F := fun p q => tget g [k; p; q].
  Definition core (n a b : nat) (vb vf E g : tensor) : tensor :=
    tgen [n; a; b] (fun x => kout a b (mget vb) (mget vf) (mget E) (gmat g (ix 0 x)) (ix 1 x) (ix 2 x)).
  Lemma shape_tgen sh (f : list nat -> F) : shape (tgen sh f) = sh.
  Proof. reflexivity. Qed.
  Lemma shape_mgen n m (f : nat -> nat -> F) : shape (mgen n m f) = [n; m].
  Proof. reflexivity. Qed.
  Lemma core_ok n a b (vb vf E g : tensor) : shape vb = [a; a] -> shape vf = [b; b] -> shape E = [a; b] -> shape g = [n; a; b] ->
    (let* rot := sandwich (transpose vb) g vf in let* prec := div_each rot E in sandwich vb prec (transpose vf)) = Ok (core n a b vb vf E g).
  Proof.
    intros Sb Sf SE Sg. unfold transpose. rewrite Sb, Sf. cbn [nth]. rewrite (sandwich_same _ g vf n a a b b) by (assumption || apply shape_mgen). cbn [bind].
    unfold div_each. rewrite shape_tgen, SE, !Nat.eqb_refl. cbn [andb bind]. rewrite (sandwich_same vb _ _ n a a b b) by (assumption || apply shape_mgen || reflexivity).
    f_equal. unfold core. apply tgen_ext. intros idx V. apply valid3_inv in V. destruct V as (k & i & j & -> & Lk & Li & Lj). unfold ix. cbn [nth]. unfold kout, mm at 1. apply sum_ext. intros p Lp. f_equal.
    unfold mm at 1. apply sum_ext. intros q Lq. f_equal.
    - rewrite tget_tgen by (apply valid3; assumption). rewrite tget_tgen by (apply valid3; assumption). cbn [nth]. unfold kdiv. f_equal. unfold krot, mm at 1. 
      apply sum_ext. intros r Lr. f_equal. unfold tr. rewrite mget_mgen by assumption; reflexivity.
    - unfold tr. rewrite mget_mgen by assumption; reflexivity.
  Qed.
  Lemma core_wf n a b vb vf E g : twf (core n a b vb vf E g).
  Proof. apply tgen_wf. Qed.
  Lemma core_get n a b vb vf E g k i j : k < n -> i < a -> j < b -> tget (core n a b vb vf E g) [k; i; j] = kout a b (mget vb) (mget vf) (mget E) (gmat g k) i j.
  Proof. intros Lk Li Lj. unfold core. rewrite tget_tgen by (apply valid3; assumption). reflexivity. Qed.

  (** What a module needs for KFAC: a 3-dimensional gradient and decompositions of matching sizes. *)
  Record kfit := KFit { k_dv : dev; k_n : nat; k_a : nat; k_b : nat; k_g : tensor; k_e : dev; k_wf : tensor; k_vf : tensor; k_wb : tensor; k_vb : tensor }.
  Definition kfits (EV EC L : tlog) (m : string) (k : kfit) : Prop :=
    grad_of L m = Some (k_dv k, k_g k) /\ shape (k_g k) = [k_n k; k_a k; k_b k] /\
    look EC m "forward" = Some (k_e k, k_vf k) /\ look EC m "backward" = Some (k_e k, k_vb k) /\ shape (k_vf k) = [k_b k; k_b k] /\ shape (k_vb k) = [k_a k; k_a k] /\
    look EV m "forward" = Some (k_e k, k_wf k) /\ look EV m "backward" = Some (k_e k, k_wb k) /\ shape (k_wf k) = [k_b k] /\ shape (k_wb k) = [k_a k].
  Definition kouter (k : kfit) : tensor := mgen (k_a k) (k_b k) (fun i j => fmul (tget (k_wb k) [i]) (tget (k_wf k) [j])).
  Definition kdamp (k : kfit) (d : option F) : F := match d with Some x => x | None => fmul tenth (tmean (kouter k)) end.
  Definition kresult (l : F) (k : kfit) : dten :=
    (k_dv k, core (k_n k) (k_a k) (k_b k) (k_vb k) (k_vf k) (tmap (fun e => fadd e l) (kouter k)) (k_g k)).
  Lemma nd_has_look (L : tlog) m t x y : nd_item (log_nd L) m = Ok y -> look L m t = Some x -> nd_has y t = true /\ (let* z := nd_item y t in as_dten z) = Ok x.
  Proof.
    rewrite log_nd_item. intros [= <-] E. unfold look in E. destruct (dget m L) as [e|]; [|discriminate E]. split.
    - unfold leafs, nd_has, dmem. rewrite (dget_map (fun x : dten => Leaf (VT x))), E. reflexivity.
    - rewrite leafs_item, E. reflexivity.
  Qed.
  Lemma kfac_module_plain (s : lstate) evn EV EC L m k d : holds s evn EV -> kfits EV EC L m k ->
    kfac_module evn (log_nd EC) (log_nd L) m d s = (s, Ok (kresult (kdamp k d) k, kdamp k d)).
  Proof.
    intros (HE & _) (G & Sg & Cf & Cb & Sf & Sb & Ef & Eb & Swf & Swb). unfold kfac_module. cbv [sbind lift attr]. rewrite !log_item_look. unfold grad_of in G. rewrite G, Cf, Cb, HE.
    destruct (nd_item (log_nd EV) m) as [y|e] eqn:Ey; [|rewrite log_nd_item in Ey; discriminate Ey].
    destruct (nd_has_look EV m "forward" _ _ Ey Ef) as [F1 F2]. destruct (nd_has_look EV m "backward" _ _ Ey Eb) as [B1 B2].
    assert (Ny : exists e, y = Node e). { rewrite log_nd_item in Ey. injection Ey as <-. unfold leafs. eauto. } destruct Ny as (ye & ->).
    rewrite F1, B1. cbn [andb]. rewrite F2, B2. cbn [bind]. unfold outer. cbn [fst snd]. rewrite Swf, Swb, dev_eqb_refl.
    change (mgen (k_a k) (k_b k) (fun i j : nat => fmul (tget (k_wb k) [i]) (tget (k_wf k) [j]))) with (kouter k). cbv [sret].
    pose proof (core_ok (k_n k) (k_a k) (k_b k) (k_vb k) (k_vf k) (tmap (fun e => fadd e (kdamp k d)) (kouter k)) (k_g k) Sb Sf eq_refl Sg) as CO.
    fold (kdamp k d). destruct (sandwich (transpose (k_vb k)) (k_g k) (k_vf k)) as [rot|e1]; cbn [bind] in CO; [|discriminate CO].
    destruct (div_each rot _) as [pr|e1]; cbn [bind] in CO; [|discriminate CO]. rewrite CO. reflexivity.
  Qed.

  (** the log of the preconditioned gradients *)
  Definition plog (l : list (string * dten)) : tlog := map (fun q => (fst q, [("grad", snd q)])) l.
  Lemma plog_keys l : dkeys (plog l) = map fst l.
  Proof. unfold dkeys, plog. rewrite map_map. reflexivity. Qed.
  Lemma plog_ok l : NoDup (map fst l) -> ok_log (plog l).
  Proof.
    intros N. split; [rewrite plog_keys; exact N|]. apply Forall_forall. intros p I. apply in_map_iff in I. destruct I as (q & <- & _). cbn. repeat constructor. intros [].
  Qed.
  Lemma plog_look l m : look (plog l) m "grad" = dget m l.
  Proof. unfold look, plog. rewrite (dget_map (fun x : dten => [("grad", x)])). destruct (dget m l); reflexivity. Qed.
  Lemma plog_other l m t : t <> "grad" -> look (plog l) m t = None.
  Proof. intros N. unfold look, plog. rewrite (dget_map (fun x : dten => [("grad", x)])). destruct (dget m l); [|reflexivity]. cbn [option_map dget]. rewrite eqb_neq by exact N. reflexivity. Qed.
  Lemma plog_set l m p : ~ In m (map fst l) -> nd_set2 (log_nd (plog l)) m "grad" (VT p) = Ok (log_nd (plog (l ++ [(m, p)]))).
  Proof.
    intros N. assert (Q : nd_item (log_nd (plog l)) m = Ok (Node [])).
    { rewrite log_nd_item. replace (dget m (plog l)) with (@None (dict string dten)); [reflexivity|]. symmetry. apply dget_None_keys. rewrite plog_keys. exact N. }
    unfold nd_set2. change (log_nd (plog l)) with (Node (map (fun p : string * dict string dten => (fst p, leafs (snd p))) (plog l))) in *. rewrite Q. cbn [bind nd_set1 dset].
    f_equal. unfold log_nd. f_equal. rewrite dset_notin.
    - unfold plog. rewrite !map_app. reflexivity.
    - rewrite (dkeys_map (fun e : dict string dten => leafs e)), plog_keys. exact N.
  Qed.
  Lemma kfac_loop_plain (s : lstate) evn EV EC L (kf : string -> kfit) d : holds s evn EV ->
    forall ms done, (forall m, In m ms -> kfits EV EC L m (kf m)) -> NoDup (map fst done ++ ms) ->
    kfac_loop evn (log_nd EC) (log_nd L) ms (Some d) (log_nd (plog done)) s = (s, Ok (log_nd (plog (done ++ map (fun m => (m, kresult d (kf m))) ms)))).
  Proof.
    intros HE. induction ms as [|m ms IH]; intros dn K N; [cbn; rewrite app_nil_r; reflexivity|].
    cbn [kfac_loop]. rewrite (sbind_run _ _ _ _ _ (kfac_module_plain s evn EV EC L m (kf m) (Some d) HE (K m (or_introl eq_refl)))). cbn [kdamp fst snd].
    unfold lift at 1. unfold sbind at 1. rewrite plog_set.
    - rewrite IH; [|intros m' I; apply K; right; exact I|].
      + rewrite <- app_assoc. reflexivity.
      + rewrite map_app, <- app_assoc. exact N.
    - intros I. apply NoDup_remove_2 in N. apply N. apply in_or_app. left. exact I.
  Qed.
  Lemma kfac_loop_default (s : lstate) evn EV EC L (kf : string -> kfit) m ms : holds s evn EV ->
    (forall x, In x (m :: ms) -> kfits EV EC L x (kf x)) -> NoDup (m :: ms) ->
    kfac_loop evn (log_nd EC) (log_nd L) (m :: ms) None (Node []) s = kfac_loop evn (log_nd EC) (log_nd L) (m :: ms) (Some (kdamp (kf m) None)) (Node []) s.
  Proof.
    intros HE K N. cbn [kfac_loop]. rewrite (sbind_run _ _ _ _ _ (kfac_module_plain s evn EV EC L m (kf m) None HE (K m (or_introl eq_refl)))).
    rewrite (sbind_run _ _ _ _ _ (kfac_module_plain s evn EV EC L m (kf m) (Some (kdamp (kf m) None)) HE (K m (or_introl eq_refl)))). reflexivity.
  Qed.
  Lemma kfac_plain (s s' : lstate) C EV EC L (kf : string -> kfit) d : kfac_ready eigh s C -> get_covariance_svd_state eigh s = (s', Ok (log_nd EV, log_nd EC)) ->
    NoDup (dkeys L) -> (forall m, In m (dkeys L) -> kfits EV EC L m (kf m)) ->
    let l := match d, dkeys L with Some x, _ => x | None, m :: _ => kdamp (kf m) None | None, [] => f0 end in
    precondition_kfac (log_nd L) d s = (s', Ok (log_nd (plog (map (fun m => (m, kresult l (kf m))) (dkeys L))))).
  Proof.
    intros R E N K l. destruct (ready_get eigh s C s' _ R E) as (EV' & EC' & Q & (A & B & HE & HC & D) & _). injection Q as Q1 Q2. apply (f_equal Node) in Q1. apply (f_equal Node) in Q2.
    apply (log_inj EV EV') in Q1. apply (log_inj EC EC') in Q2. subst EV' EC'. unfold ModelInfluence.precondition_kfac.
    rewrite (sbind_run _ _ _ _ _ E). cbv [sbind sget lift]. rewrite (hasattr_none s' _ B). rewrite log_nd_keys. cbn [snd].
    pose proof (kfac_loop_plain s' "covariance_eigval_state" EV EC L kf) as KL. unfold l. clear l. destruct d as [d|].
    - specialize (KL d HE (dkeys L) []). cbn [map app plog] in KL. apply KL; assumption.
    - destruct (dkeys L) as [|m ms] eqn:DL; [reflexivity|]. rewrite (kfac_loop_default s' _ EV EC L kf m ms HE K N). specialize (KL (kdamp (kf m) None) HE (m :: ms) []). cbn [map app plog] in KL. apply KL; assumption.
  Qed.

  (** raw *)
  Record rfit := RFit { r_dv : dev; r_n : nat; r_rest : list nat; r_g : tensor; r_e : dev; r_iv : tensor }.
  Definition rfits (IV L : tlog) (m : string) (r : rfit) : Prop :=
    grad_of L m = Some (r_dv r, r_g r) /\ shape (r_g r) = r_n r :: r_rest r /\ twf (r_g r) /\ r_n r <> 0 /\
    look IV m "grad" = Some (r_e r, r_iv r) /\ shape (r_iv r) = [prod (r_rest r); prod (r_rest r)].
  Definition rresult (r : rfit) : dten :=
    (r_dv r, T (r_n r :: r_rest r) (data (mgen (r_n r) (prod (r_rest r)) (fun i j => sum (prod (r_rest r)) (fun p =>
        fmul (mget (T [r_n r; prod (r_rest r)] (data (r_g r))) i p) (mget (r_iv r) p j)))))).
  Lemma raw_module_ok IV L m r : rfits IV L m r -> raw_module (log_nd IV) (log_nd L) m = Ok (rresult r).
  Proof.
    intros (G & Sg & Wg & Nz & Ei & Si). unfold raw_module. rewrite !log_item_look. unfold grad_of in G. rewrite G, Ei. cbn [bind fst snd]. unfold make_2d. rewrite Sg.
    rewrite (reshape_infer_ok (r_g r) [r_n r] [] (prod (r_rest r))).
    - cbn [app bind]. unfold matmul. cbn [shape]. rewrite Si, Nat.eqb_refl. cbn [bind]. unfold reshape. rewrite shape_mgen. change (prod [r_n r; prod (r_rest r)]) with (r_n r * (prod (r_rest r) * 1)).
      rewrite prod_cons. replace (prod (r_rest r) * 1) with (prod (r_rest r)) by lia. rewrite Nat.eqb_refl. reflexivity.
    - change (prod [r_n r] * prod []) with (r_n r * 1 * 1). lia.
    - rewrite Sg, prod_cons. change (prod [r_n r]) with (r_n r * 1). change (prod []) with 1. lia.
  Qed.
  Lemma raw_fold IV L (rf : string -> rfit) : forall ms done, (forall m, In m ms -> rfits IV L m (rf m)) -> NoDup (map fst done ++ ms) ->
    foldM (fun out m => let* p := raw_module (log_nd IV) (log_nd L) m in nd_set2 out m "grad" (VT p)) ms (log_nd (plog done)) =
    Ok (log_nd (plog (done ++ map (fun m => (m, rresult (rf m))) ms))).
  Proof.
    induction ms as [|m ms IH]; intros dn K N; [cbn; rewrite app_nil_r; reflexivity|].
    cbn [foldM]. rewrite (raw_module_ok IV L m (rf m)) by (apply K; left; reflexivity). cbn [bind]. rewrite plog_set.
    - cbn [bind]. rewrite IH; [|intros m' I; apply K; right; exact I|].
      + rewrite <- app_assoc. reflexivity.
      + rewrite map_app, <- app_assoc. exact N.
    - intros I. apply NoDup_remove_2 in N. apply N. apply in_or_app. left. exact I.
  Qed.
  Lemma raw_plain (s s' : lstate) IV L (rf : string -> rfit) d : get_covariance_inverse_state inverse d s = (s', Ok (log_nd IV)) ->
    NoDup (dkeys L) -> (forall m, In m (dkeys L) -> rfits IV L m (rf m)) ->
    precondition_raw (log_nd L) d s = (s', Ok (log_nd (plog (map (fun m => (m, rresult (rf m))) (dkeys L))))).
  Proof.
    intros E N K. unfold ModelInfluence.precondition_raw. rewrite (sbind_run _ _ _ _ _ E). cbv [sbind lift]. rewrite log_nd_keys. f_equal.
    apply (raw_fold IV L rf (dkeys L) []); [exact K|exact N].
  Qed.

  (** choosing the method *)
  Lemma covered_forallb (C L : tlog) : covered C L -> forallb (fun m => mem m (dkeys C)) (dkeys L) = true.
  Proof. intros K. apply forallb_forall. intros m I. apply mem_In. apply K. exact I. Qed.
  Lemma nd_has_log (C : tlog) m t : (let* y := nd_item (log_nd C) m in Ok (nd_has y t)) = Ok (match look C m t with Some _ => true | None => false end).
  Proof.
    rewrite log_nd_item. cbn [bind]. unfold look, leafs, nd_has, dmem. destruct (dget m C) as [e|]; [|reflexivity]. rewrite (dget_map (fun x : dten => Leaf (VT x))). destruct (dget t e); reflexivity.
  Qed.
  Lemma prec_kfac ids (s s' : lstate) C L d h out : holds s "covariance_state" C -> covered C L -> picks_kfac h C L ->
    precondition_kfac (log_nd L) d s = (s', Ok out) -> precondition (ids, Nest (log_nd L)) d h s = (s', Ok (ids, Nest out)).
  Proof.
    intros (HC & _) K P E. unfold ModelInfluence.precondition. destruct P as [->|(-> & N & A)].
    - change (mem "kfac" ["auto"; "kfac"; "raw"]) with true. change (String.eqb "kfac" "raw") with false. change (String.eqb "kfac" "auto") with false. cbv [sbind lift attr sret]. cbn [snd fst]. rewrite HC. rewrite !log_nd_keys. rewrite (covered_forallb C L K).
      rewrite E. reflexivity.
    - change (mem "auto" ["auto"; "kfac"; "raw"]) with true. change (String.eqb "auto" "raw") with false. change (String.eqb "auto" "auto") with true. cbv [sbind lift attr sret]. cbn [snd fst]. rewrite HC. rewrite !log_nd_keys. rewrite (covered_forallb C L K).
      unfold auto_raw in A. destruct L as [|[m e] L]; [congruence|]. cbn [dkeys map fst] in A |- *. pose proof (nd_has_log C m "grad") as Q. destruct (nd_item (log_nd C) m) as [y|]; cbn [bind] in Q; [|discriminate Q].
      injection Q as Q. rewrite Q, A. rewrite E. reflexivity.
  Qed.
  Lemma prec_raw ids (s s' : lstate) C L d h out : holds s "covariance_state" C -> covered C L -> picks_raw h C L ->
    precondition_raw (log_nd L) d s = (s', Ok out) -> precondition (ids, Nest (log_nd L)) d h s = (s', Ok (ids, Nest out)).
  Proof.
    intros (HC & _) K P E. unfold ModelInfluence.precondition. destruct P as [->|(-> & N & A)].
    - change (mem "raw" ["auto"; "kfac"; "raw"]) with true. change (String.eqb "raw" "raw") with true. change (String.eqb "raw" "auto") with false. cbv [sbind lift attr sret]. cbn [snd fst]. rewrite HC. rewrite !log_nd_keys. rewrite (covered_forallb C L K).
      rewrite E. reflexivity.
    - change (mem "auto" ["auto"; "kfac"; "raw"]) with true. change (String.eqb "auto" "raw") with false. change (String.eqb "auto" "auto") with true. cbv [sbind lift attr sret]. cbn [snd fst]. rewrite HC. rewrite !log_nd_keys. rewrite (covered_forallb C L K).
      unfold auto_raw in A. destruct L as [|[m e] L]; [congruence|]. cbn [dkeys map fst] in A |- *. pose proof (nd_has_log C m "grad") as Q. destruct (nd_item (log_nd C) m) as [y|]; cbn [bind] in Q; [|discriminate Q].
      injection Q as Q. rewrite Q, A. rewrite E. reflexivity.
  Qed.
End Proofs.
