(** Without corrected eigenvalues, influence calls can be repeated. *)
From Verif Require Import Py PyStr Field Tensor ModelGrad Monad ModelState ModelInfluence SpecGrad SpecState SpecInfluence SpecRows GradProofs1 GradProofs2 StateProofs1 InfProofs1 InfProofs2 InfProofs10 InfProofs16.
Local Open Scope string_scope.
Local Open Scope list_scope.
Local Open Scope nat_scope.

Section Proofs.
  Context {F : Type} `{OField F}.
  Notation tensor := (tensor F).
  Notation sval := (@sval F).
  Notation lstate := (@lstate F).
  Notation dten := (@dten F).
  Notation stable := (stable (F:=F)).
  Notation plain_state := (plain_state (F:=F)).
  Notation extends := (extends (F:=F)).
  Variable eigh : tensor -> res (tensor * tensor).
  Variable inverse : tensor -> res tensor.
  Variable fsqrt : F -> F.
  Notation precondition := (precondition eigh inverse).
  Notation compute_influence := (compute_influence eigh inverse fsqrt).
  Notation influence_all := (influence_all eigh inverse fsqrt).
  Notation influence_loop := (influence_loop eigh inverse fsqrt).

  Lemma extends_refl s : extends s s.
  Proof. intros a. auto. Qed.
  Lemma hasattr_get a (s : lstate) : hasattr a s = true -> exists x, dget a (attrs s) = Some x.
  Proof. unfold hasattr, dmem. destruct (dget a (attrs s)); [eauto|discriminate]. Qed.
  Lemma hasattr_some a (s : lstate) x : dget a (attrs s) = Some x -> hasattr a s = true.
  Proof. unfold hasattr, dmem. intros ->. reflexivity. Qed.
  Lemma extends_has s s1 a : extends s s1 -> hasattr a s = true -> hasattr a s1 = true.
  Proof. intros X E. unfold hasattr, dmem in *. rewrite (proj1 (X a) E). exact E. Qed.
  Lemma extends_trans s s1 s2 : extends s s1 -> extends s1 s2 -> extends s s2.
  Proof.
    intros X Y a. split; intros E.
    - rewrite (proj1 (Y a) (extends_has _ _ _ X E)). exact (proj1 (X a) E).
    - rewrite (proj2 (Y a) E). exact (proj2 (X a) E).
  Qed.

  Lemma stable_ret {A} (a : A) : stable (sret a).
  Proof. intros s s1 r P [= <- <-]. split; [exact P|]. split; [apply extends_refl|]. intros y [= <-] s2 _. reflexivity. Qed.
  Lemma stable_lift {A} (a : res A) : stable (lift a).
  Proof. intros s s1 r P [= <- <-]. split; [exact P|]. split; [apply extends_refl|]. intros y -> s2 _. reflexivity. Qed.
  Lemma stable_fail {A} e : stable (sfail e : SM lstate A).
  Proof. intros s s1 r P [= <- <-]. split; [exact P|]. split; [apply extends_refl|]. discriminate. Qed.
  Lemma stable_attr a : stable (attr a).
  Proof.
    intros s s1 r P [= <- <-]. split; [exact P|]. split; [apply extends_refl|]. intros y E s2 X. unfold attr. destruct (dget a (attrs s)) as [x|] eqn:G; [|discriminate E]. injection E as <-. rewrite (proj1 (X a) (hasattr_some _ _ _ G)), G. reflexivity.
  Qed.
  Lemma stable_bind {A B} (m : SM lstate A) (f : A -> SM lstate B) : stable m -> (forall a, stable (f a)) -> stable (let! x := m in f x).
  Proof.
    intros M N s s1 r P E. unfold sbind in E. destruct (m s) as [s2 [a|e]] eqn:E1.
    - destruct (M _ _ _ P E1) as (P2 & X2 & R2). destruct (N a _ _ _ P2 E) as (P1 & X1 & R1). split; [exact P1|]. split; [exact (extends_trans _ _ _ X2 X1)|]. intros y Ey s3 X. unfold sbind. rewrite (R2 a eq_refl s3 (extends_trans _ _ _ X1 X)). apply (R1 y Ey s3 X).
    - injection E as <- <-. destruct (M _ _ _ P E1) as (P2 & X2 & _). split; [exact P2|]. split; [exact X2|]. discriminate.
  Qed.

  (** attributes added by a computation *)
  Definition caches := ["covariance_inverse_state"; "covariance_eigval_state"; "covariance_eigvec_state"].
  Lemma inverse_loop d : forall l (s : lstate) s1 r,
    seach (fun p => let '((m, k), d0) := p in let! iv := lift (inverse (damped (snd d0) d)) in let! s := attr "covariance_inverse_state" in let! s' := lift (nd_set2 s m k (VT (fst d0, iv))) in set_attr "covariance_inverse_state" s') l s = (s1, r) ->
    st_states s1 = st_states s /\ (forall a, a <> "covariance_inverse_state" -> dget a (attrs s1) = dget a (attrs s)) /\ (hasattr "covariance_inverse_state" s = true -> hasattr "covariance_inverse_state" s1 = true).
  Proof.
    induction l as [|[[m k] x] l IH]; intros s s1 r E; cbn [seach] in E; [injection E as <- <-; auto|]. unfold sbind at 1 in E.
    match type of E with context [match ?b s with _ => _ end] => destruct (b s) as [s2 r2] eqn:E2 end.
    assert (Q : st_states s2 = st_states s /\ (forall a, a <> "covariance_inverse_state" -> dget a (attrs s2) = dget a (attrs s)) /\ (hasattr "covariance_inverse_state" s = true -> hasattr "covariance_inverse_state" s2 = true)).
    { unfold sbind, lift, attr, set_attr in E2. destruct (inverse (damped (snd x) d)); [|injection E2 as <- <-; auto]. destruct (dget "covariance_inverse_state" (attrs s)) as [c|]; [|injection E2 as <- <-; auto]. destruct (nd_set2 c m k _) as [c'|]; [|injection E2 as <- <-; auto]. injection E2 as <- <-. split; [reflexivity|]. cbn [attrs with_attrs]. split; [intros b N; apply dget_dset_neq; exact N|]. intros _. unfold hasattr, dmem. cbn [attrs with_attrs]. rewrite dget_dset_eq. reflexivity. }
    destruct r2 as [u|e]; [|injection E as <- <-; exact Q]. destruct Q as (Q1 & Q2 & Q3). destruct (IH _ _ _ E) as (R1 & R2 & R3). split; [congruence|]. split; [intros a N; rewrite (R2 a N); apply Q2; exact N|auto].
  Qed.
  Lemma neq_mem (a b : string) l : mem a l = false -> mem b l = true -> a <> b.
  Proof. intros E1 E2 ->. congruence. Qed.
  Lemma plain_transfer s s1 : plain_state s -> (forall a, mem a (st_states s1) = true -> hasattr a s1 = true) ->
    (forall a, a <> "covariance_inverse_state" -> dget a (attrs s1) = dget a (attrs s)) -> plain_state s1.
  Proof.
    intros [P1 P2 P3 P4] R G. constructor; unfold hasattr, dmem in *; rewrite ?G by discriminate; auto.
  Qed.
  Lemma stable_inverse d : stable (get_covariance_inverse_state inverse d).
  Proof.
    intros s s1 r P E. unfold get_covariance_inverse_state in *. unfold sbind at 1, sget at 1 in E. destruct (hasattr "covariance_inverse_state" s) eqn:Ha.
    - unfold sbind, sret in E. destruct (stable_attr _ _ _ _ P E) as (P1 & X & R). split; [exact P1|]. split; [exact X|]. intros y Ey s2 X2. unfold sbind, sget, sret. assert (Es : s1 = s) by (injection E as <- _; reflexivity). subst s1. rewrite (extends_has _ _ _ X2 Ha). apply (R y Ey s2 X2).
    - unfold sbind at 1 in E. destruct (covariance_inverse inverse d s) as [s2 r2] eqn:E2.
      assert (Q : plain_state s2 /\ extends s s2).
      { unfold covariance_inverse in E2. unfold sbind at 1 in E2. destruct (register_state "covariance_inverse_state" false true false s) as [s3 r3] eqn:E3. unfold register_state in E3. destruct (mem "covariance_inverse_state" (st_states s)) eqn:Em.
        { apply (pl_reg s P) in Em. congruence. }
        injection E3 as <- <-. set (s3 := LState _ _ _ _ _ _) in E2.
        assert (G3 : forall a, a <> "covariance_inverse_state" -> dget a (attrs s3) = dget a (attrs s)) by (intros a N; apply dget_dset_neq; exact N).
        assert (H3 : hasattr "covariance_inverse_state" s3 = true) by (unfold hasattr, dmem; cbn [attrs s3]; rewrite dget_dset_eq; reflexivity).
        assert (Q : st_states s2 = st_states s3 /\ (forall a, a <> "covariance_inverse_state" -> dget a (attrs s2) = dget a (attrs s3)) /\ hasattr "covariance_inverse_state" s2 = true).
        { unfold sbind at 1, attr at 1 in E2. destruct (dget "covariance_state" (attrs s3)) as [cs|]; [|injection E2 as <- <-; auto]. unfold sbind at 1, lift at 1 in E2. destruct (items2 cs) as [l|]; [|injection E2 as <- <-; auto]. destruct (inverse_loop _ _ _ _ _ E2) as (R1 & R2 & R3). auto. }
        destruct Q as (Q1 & Q2 & Q3). assert (G2 : forall a, a <> "covariance_inverse_state" -> dget a (attrs s2) = dget a (attrs s)) by (intros a N; rewrite Q2, G3 by exact N; reflexivity). split.
        - apply (plain_transfer s); [exact P| |exact G2]. intros a Ea. destruct (String.eqb_spec a "covariance_inverse_state") as [->|N]; [exact Q3|]. unfold hasattr, dmem. rewrite G2 by exact N. apply (pl_reg s P). rewrite Q1 in Ea. cbn [st_states s3 mem existsb] in Ea. unfold mem in Ea. cbn [existsb] in Ea. apply orb_true_iff in Ea. destruct Ea as [Ea|Ea]; [|exact Ea]. apply String.eqb_eq in Ea. contradiction.
        - intros a. split; intros Ea; apply G2; [intros ->; congruence|]. apply (neq_mem a _ _ Ea). reflexivity. }
      destruct Q as (P2 & X2). destruct r2 as [u|e].
      + destruct (stable_attr _ _ _ _ P2 E) as (P1 & X1 & R1). split; [exact P1|]. split; [exact (extends_trans _ _ _ X2 X1)|]. intros y Ey s4 X4. assert (Es : s1 = s2) by (injection E as <- _; reflexivity). subst s1. unfold sbind, sget, sret. replace (hasattr "covariance_inverse_state" s4) with true; [apply (R1 y Ey s4 X4)|]. symmetry. apply (extends_has _ _ _ X4). subst r. injection E as E. destruct (dget "covariance_inverse_state" (attrs s2)) eqn:G; [|discriminate E]. exact (hasattr_some _ _ _ G).
      + injection E as <- <-. split; [exact P2|]. split; [exact X2|]. discriminate.
  Qed.

  Notation svd_step := (fun p => let '((m, k), d) := p in
      let! vw := lift (eigh (snd d)) in
      let! ev := attr "covariance_eigval_state" in
      let! ev' := lift (nd_set2 ev m k (VT (fst d, fst vw))) in
      set_attr "covariance_eigval_state" ev' ;;
      let! ec := attr "covariance_eigvec_state" in
      let! ec' := lift (nd_set2 ec m k (VT (fst d, snd vw))) in
      set_attr "covariance_eigvec_state" ec').
  (** what the loop keeps: the entries of the eigenvalues are dictionaries *)
  Definition kept (s s1 : lstate) : Prop :=
    st_states s1 = st_states s /\ (forall a, a <> "covariance_eigval_state" -> a <> "covariance_eigvec_state" -> dget a (attrs s1) = dget a (attrs s)) /\
    (hasattr "covariance_eigval_state" s = true -> hasattr "covariance_eigval_state" s1 = true) /\ (hasattr "covariance_eigvec_state" s = true -> hasattr "covariance_eigvec_state" s1 = true) /\
    ((forall ev m t, dget "covariance_eigval_state" (attrs s) = Some ev -> nd_item ev m <> Ok (Leaf (VT t))) -> forall ev m t, dget "covariance_eigval_state" (attrs s1) = Some ev -> nd_item ev m <> Ok (Leaf (VT t))).
  Lemma kept_refl s : kept s s.
  Proof. repeat split; auto. Qed.
  Lemma kept_trans s s1 s2 : kept s s1 -> kept s1 s2 -> kept s s2.
  Proof. intros (A1 & A2 & A3 & A4 & A5) (B1 & B2 & B3 & B4 & B5). split; [congruence|]. split; [intros a N N'; rewrite B2, A2 by assumption; reflexivity|]. auto. Qed.
  Lemma set2_item (x y : nd sval) m k v m' t : nd_set2 x m k v = Ok y -> (forall m t, nd_item x m <> Ok (Leaf (VT t))) -> nd_item y m' <> Ok (Leaf (VT t)).
  Proof.
    unfold nd_set2. destruct x as [w|d]; cbn [nd_item bind]; [discriminate|]. intros E N. destruct (nd_set1 (match dget m d with Some y => y | None => Node [] end) k v) as [z|] eqn:E1; [|cbn [bind] in E; discriminate E]. cbn [bind] in E. injection E as <-. cbn [nd_item].
    destruct (String.eqb_spec m' m) as [->|Nm]; [rewrite dget_dset_eq|rewrite dget_dset_neq by exact Nm; exact (N m' t)]. unfold nd_set1 in E1. destruct (match dget m d with Some y => y | None => Node [] end); [discriminate E1|]. injection E1 as <-. discriminate.
  Qed.
  Lemma svd_loop : forall l (s : lstate) s1 r, seach svd_step l s = (s1, r) -> kept s s1.
  Proof.
    induction l as [|[[m k] x] l IH]; intros s s1 r E; cbn [seach] in E; [injection E as <- <-; apply kept_refl|]. unfold sbind at 1 in E.
    match type of E with context [match ?b s with _ => _ end] => destruct (b s) as [s2 r2] eqn:E2 end.
    assert (Q : kept s s2).
    { unfold sbind, lift, attr, set_attr in E2. destruct (eigh (snd x)) as [[v w]|]; [|injection E2 as <- <-; apply kept_refl]. destruct (dget "covariance_eigval_state" (attrs s)) as [c|] eqn:G; [|injection E2 as <- <-; apply kept_refl]. destruct (nd_set2 c m k _) as [c'|] eqn:Ec; [|injection E2 as <- <-; apply kept_refl].
      assert (K : kept s (with_attrs s (dset "covariance_eigval_state" c' (attrs s)))).
      { split; [reflexivity|]. unfold hasattr, dmem. cbn [attrs with_attrs]. split; [intros a N _; apply dget_dset_neq; exact N|]. split; [intros _; rewrite dget_dset_eq; reflexivity|]. split; [rewrite dget_dset_neq by discriminate; auto|]. intros N ev m' t. rewrite dget_dset_eq. intros [= <-]. apply (set2_item _ _ _ _ _ m' t Ec). intros m0 t0. apply N. exact G. }
      cbn [attrs with_attrs] in E2. rewrite dget_dset_neq in E2 by discriminate. destruct (dget "covariance_eigvec_state" (attrs s)) as [e|] eqn:Ge; [|injection E2 as <- <-; exact K]. destruct (nd_set2 e m k _) as [e'|]; [|injection E2 as <- <-; exact K]. injection E2 as <- <-. apply (kept_trans _ _ _ K).
      split; [reflexivity|]. unfold hasattr, dmem. cbn [attrs with_attrs]. split; [intros a _ N; apply dget_dset_neq; exact N|]. split; [rewrite (dget_dset_neq "covariance_eigval_state" "covariance_eigvec_state") by discriminate; auto|]. split; [intros _; rewrite dget_dset_eq; reflexivity|]. rewrite (dget_dset_neq "covariance_eigval_state" "covariance_eigvec_state") by discriminate. auto. }
    destruct r2 as [u|e]; [|injection E as <- <-; exact Q]. exact (kept_trans _ _ _ Q (IH _ _ _ E)).
  Qed.
  Lemma svd_run s s1 r : plain_state s -> hasattr "covariance_eigval_state" s = false -> covariance_svd eigh s = (s1, r) ->
    plain_state s1 /\ extends s s1 /\ hasattr "covariance_eigval_state" s1 = true /\ hasattr "covariance_eigvec_state" s1 = true.
  Proof.
    intros P Hv E. assert (Hw : hasattr "covariance_eigvec_state" s = false) by (rewrite <- (pl_pair s P); exact Hv). unfold covariance_svd in E. unfold sbind at 1 in E. unfold register_state at 1 in E. destruct (mem "covariance_eigval_state" (st_states s)) eqn:Em; [apply (pl_reg s P) in Em; congruence|].
    set (s2 := LState _ _ _ _ _ _) in E. unfold sbind at 1 in E. unfold register_state at 1 in E. assert (Em2 : mem "covariance_eigvec_state" (st_states s2) = mem "covariance_eigvec_state" (st_states s)) by reflexivity. rewrite Em2 in E. clear Em2. destruct (mem "covariance_eigvec_state" (st_states s)) eqn:Ew; [apply (pl_reg s P) in Ew; congruence|]. set (s3 := LState _ _ _ _ _ _) in E.
    assert (G3 : forall a, a <> "covariance_eigval_state" -> a <> "covariance_eigvec_state" -> dget a (attrs s3) = dget a (attrs s)) by (intros a N N'; cbn [attrs s3 s2]; rewrite !dget_dset_neq by assumption; reflexivity).
    assert (V3 : dget "covariance_eigval_state" (attrs s3) = Some (Node [])) by (cbn [attrs s3 s2]; rewrite dget_dset_neq by discriminate; apply dget_dset_eq).
    assert (W3 : dget "covariance_eigvec_state" (attrs s3) = Some (Node [])) by (cbn [attrs s3 s2]; apply dget_dset_eq).
    assert (K : kept s3 s1).
    { unfold sbind at 1, attr at 1 in E. destruct (dget "covariance_state" (attrs s3)) as [cs|]; [|injection E as <- <-; apply kept_refl]. unfold sbind at 1, lift at 1 in E. destruct (items2 cs) as [l|]; [|injection E as <- <-; apply kept_refl]. exact (svd_loop _ _ _ _ E). }
    destruct K as (K1 & K2 & K3 & K4 & K5). specialize (K3 (hasattr_some _ _ _ V3)). specialize (K4 (hasattr_some _ _ _ W3)).
    assert (G1 : forall a, a <> "covariance_eigval_state" -> a <> "covariance_eigvec_state" -> dget a (attrs s1) = dget a (attrs s)) by (intros a N N'; rewrite K2, G3 by assumption; reflexivity).
    split; [|split; [|split; assumption]].
    - constructor.
      + unfold hasattr, dmem. rewrite G1 by discriminate. exact (pl_noek s P).
      + congruence.
      + intros a Ea. destruct (String.eqb_spec a "covariance_eigval_state") as [->|N]; [exact K3|]. destruct (String.eqb_spec a "covariance_eigvec_state") as [->|N']; [exact K4|]. unfold hasattr, dmem. rewrite G1 by assumption. apply (pl_reg s P). rewrite K1 in Ea. unfold mem in Ea. cbn [st_states s3 s2 existsb] in Ea. apply orb_true_iff in Ea. destruct Ea as [Ea|Ea]; [apply String.eqb_eq in Ea; contradiction|]. apply orb_true_iff in Ea. destruct Ea as [Ea|Ea]; [apply String.eqb_eq in Ea; contradiction|exact Ea].
      + apply K5. intros ev m t Ev. rewrite V3 in Ev. injection Ev as <-. discriminate.
    - intros a. split; intros Ea.
      + apply G1; intros ->; congruence.
      + apply G1; apply (neq_mem a _ _ Ea); reflexivity.
  Qed.
  (** the decomposition and the name of the eigenvalues *)
  Notation svd_and_name := (let! vw := get_covariance_svd_state eigh in let! s := sget in
    sret (vw, (if hasattr "ekfac_eigval_state" s then "ekfac_eigval_state" else "covariance_eigval_state")%string)).
  Lemma stable_svd s s1 r : plain_state s -> get_covariance_svd_state eigh s = (s1, r) ->
    plain_state s1 /\ extends s s1 /\ (forall y, r = Ok y -> forall s2, extends s1 s2 -> get_covariance_svd_state eigh s2 = (s2, Ok y)).
  Proof.
    intros P E. unfold get_covariance_svd_state in E. unfold sbind at 1, sget at 1 in E.
    assert (Q : exists s2 r2, (if hasattr "covariance_eigval_state" s && hasattr "covariance_eigvec_state" s then sret tt else covariance_svd eigh) s = (s2, r2) /\ plain_state s2 /\ extends s s2 /\ (hasattr "covariance_eigval_state" s2 && hasattr "covariance_eigvec_state" s2 = true)%bool).
    { destruct (hasattr "covariance_eigval_state" s) eqn:Hv.
      - rewrite <- (pl_pair s P), Hv. cbn [andb]. exists s, (Ok tt). split; [reflexivity|]. split; [exact P|]. split; [apply extends_refl|]. rewrite <- (pl_pair s P), Hv. reflexivity.
      - cbn [andb]. destruct (covariance_svd eigh s) as [s2 r2] eqn:E2. exists s2, r2. split; [reflexivity|]. destruct (svd_run _ _ _ P Hv E2) as (A & B & C & D). rewrite C, D. auto. }
    destruct Q as (s2 & r2 & E2 & P2 & X2 & B2). unfold sbind at 1 in E. rewrite E2 in E. destruct r2 as [u|e]; [|injection E as <- <-; split; [exact P2|]; split; [exact X2|discriminate]].
    unfold sbind at 1, sget at 1 in E. rewrite (pl_noek s2 P2) in E. apply andb_true_iff in B2. destruct B2 as (Bv & Bw). destruct (hasattr_get _ _ Bv) as (v & Gv). destruct (hasattr_get _ _ Bw) as (w & Gw). unfold sbind, attr, sret in E. rewrite Gv, Gw in E. injection E as <- <-. split; [exact P2|]. split; [exact X2|]. intros y [= <-] s3 X3.
    assert (Nk : hasattr "ekfac_eigval_state" s3 = false). { unfold hasattr, dmem. rewrite (proj2 (X3 "ekfac_eigval_state") eq_refl). exact (pl_noek s2 P2). }
    unfold get_covariance_svd_state, sbind, sget, attr, sret. rewrite (extends_has _ _ _ X3 Bv), (extends_has _ _ _ X3 Bw). cbn [andb]. rewrite Nk, (proj1 (X3 _) Bv), (proj1 (X3 _) Bw), Gv, Gw. reflexivity.
  Qed.
  Lemma plain_noek_ext s s2 : plain_state s -> extends s s2 -> hasattr "ekfac_eigval_state" s2 = false.
  Proof. intros P X. unfold hasattr, dmem. rewrite (proj2 (X "ekfac_eigval_state") eq_refl). exact (pl_noek s P). Qed.
  Lemma stable_kfac_module ec src m d : stable (kfac_module "covariance_eigval_state" ec src m d).
  Proof.
    unfold kfac_module. apply stable_bind; [apply stable_lift|intros g]. apply stable_bind; [apply stable_lift|intros fw]. apply stable_bind; [apply stable_lift|intros bw].
    intros s s1 r P E. unfold sbind at 1, attr at 1 in E. destruct (dget "covariance_eigval_state" (attrs s)) as [ev|] eqn:G; [|injection E as <- <-; split; [exact P|]; split; [apply extends_refl|discriminate]].
    unfold sbind at 1, lift at 1 in E. destruct (nd_item ev m) as [y|e] eqn:Ey; [|injection E as <- <-; split; [exact P|]; split; [apply extends_refl|discriminate]].
    assert (Ny : forall t, y <> Leaf (VT t)) by (intros t ->; exact (pl_two s P ev m t G Ey)).
    match type of E with ?body s = _ => assert (S : stable body) end.
    { apply stable_bind; [apply stable_lift|intros full]. apply stable_bind; [|intros _; apply stable_bind; [apply stable_lift|intros rot]; apply stable_bind; [apply stable_lift|intros pr]; apply stable_bind; [apply stable_lift|intros out]; apply stable_ret].
      destruct y as [[]|]; try apply stable_ret. exfalso. eapply Ny. reflexivity. }
    destruct (S _ _ _ P E) as (P1 & X1 & R1). split; [exact P1|]. split; [exact X1|]. intros z Ez s2 X2. unfold sbind at 1, attr at 1. rewrite (proj1 (extends_trans _ _ _ X1 X2 _) (hasattr_some _ _ _ G)), G. unfold sbind at 1, lift at 1. rewrite Ey. apply (R1 z Ez s2 X2).
  Qed.
  Lemma stable_kfac_loop ec src : forall ms d out, stable (kfac_loop "covariance_eigval_state" ec src ms d out).
  Proof.
    induction ms as [|m ms IH]; intros d out; cbn [kfac_loop]; [apply stable_ret|]. apply stable_bind; [apply stable_kfac_module|intros pl]. apply stable_bind; [apply stable_lift|intros o]. apply IH.
  Qed.
  Lemma stable_kfac src d : stable (precondition_kfac eigh src d).
  Proof.
    intros s s1 r P E. unfold precondition_kfac in E. unfold sbind at 1 in E. destruct (get_covariance_svd_state eigh s) as [s2 r2] eqn:E2. destruct (stable_svd _ _ _ P E2) as (P2 & X2 & R2). destruct r2 as [vw|e]; [|injection E as <- <-; split; [exact P2|]; split; [exact X2|discriminate]].
    unfold sbind at 1, sget at 1 in E. cbv zeta in E. rewrite (pl_noek s2 P2) in E.
    match type of E with ?body s2 = _ => assert (S : stable body) end.
    { apply stable_bind; [apply stable_lift|intros ms]. apply stable_kfac_loop. }
    destruct (S _ _ _ P2 E) as (P1 & X1 & R1). split; [exact P1|]. split; [exact (extends_trans _ _ _ X2 X1)|]. intros y Ey s3 X3. unfold precondition_kfac. unfold sbind at 1. rewrite (R2 vw eq_refl s3 (extends_trans _ _ _ X1 X3)). unfold sbind at 1, sget at 1. cbv zeta. rewrite (plain_noek_ext _ _ P1 X3). apply (R1 y Ey s3 X3).
  Qed.
  Lemma stable_precondition log d h : stable (precondition log d h).
  Proof.
    unfold ModelInfluence.precondition. destruct (mem h ["auto"; "kfac"; "raw"]); [|apply stable_fail]. apply stable_bind; [apply stable_attr|intros cs]. destruct (snd log) as [src|t]; [|apply stable_fail]. apply stable_bind; [apply stable_lift|intros ms]. apply stable_bind; [apply stable_lift|intros cms]. destruct (forallb _ ms); [|apply stable_ret].
    apply stable_bind.
    - destruct (String.eqb h "raw"); [apply stable_ret|]. destruct (String.eqb h "auto"); [|apply stable_ret]. destruct ms; [apply stable_fail|]. apply stable_bind; [apply stable_lift|intros y; apply stable_ret].
    - intros raw. apply stable_bind; [|intros p; apply stable_ret]. destruct raw; [|apply stable_kfac]. unfold precondition_raw. apply stable_bind; [apply stable_inverse|intros ci]. apply stable_bind; [apply stable_lift|intros ms']. apply stable_lift.
  Qed.
  Lemma stable_self log prec h groups d : stable (compute_self_influence eigh inverse log prec h groups d).
  Proof.
    unfold compute_self_influence. destruct (snd log) as [src|t]; [|apply stable_fail]. apply stable_bind; [destruct prec; [apply stable_precondition|apply stable_ret]|intros tl]. repeat (apply stable_bind; [apply stable_lift|intros ?]). apply stable_ret.
  Qed.
  Lemma stable_influence src tgt mode prec h groups d : stable (compute_influence src tgt mode prec h groups d).
  Proof.
    unfold ModelInfluence.compute_influence. destruct (mem mode ["dot"; "l2"; "cosine"]); [|apply stable_fail]. apply stable_bind; [destruct prec; [apply stable_precondition|apply stable_ret]|intros sl]. cbv zeta. apply stable_bind.
    - destruct (snd tgt) as [t|t]; [|apply stable_bind; [apply stable_attr|intros mm]]; repeat (apply stable_bind; [apply stable_lift|intros ?]); apply stable_ret.
    - intros pr. apply stable_bind; [|intros tot; repeat (apply stable_bind; [apply stable_lift|intros ?]); apply stable_ret]. destruct (String.eqb mode "cosine"); [|destruct (String.eqb mode "l2"); [|apply stable_ret]]; (apply stable_bind; [apply stable_self|intros nv; apply stable_lift]).
  Qed.
  Lemma stable_loop sl mode h groups d : forall loader acc, stable (influence_loop sl loader mode h groups d acc).
  Proof.
    induction loader as [|b l IH]; intros acc; cbn [ModelInfluence.influence_loop]; [apply stable_ret|]. apply stable_bind; [apply stable_influence|intros x]. apply stable_bind; [apply stable_lift|intros acc']. apply IH.
  Qed.
  Lemma stable_all src loader mode prec h groups d : stable (influence_all src loader mode prec h groups d).
  Proof. unfold ModelInfluence.influence_all. apply stable_bind; [destruct prec; [apply stable_precondition|apply stable_ret]|intros sl]. apply stable_loop. Qed.
End Proofs.
