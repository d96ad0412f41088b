(** Reachable states, the variance plugin, clear, and CPU offloading. *)
From Coq Require Import ZArith Permutation.
From Verif Require Import Py Field Tensor ModelGrad Monad ModelState SpecGrad SpecState GradProofs1 GradProofs2 StateProofs1 StateProofs2 StateProofs3 StateProofs4 StateProofs5.
Local Open Scope nat_scope.

Section Proofs.
  Context {F : Type} `{OField F}.
  Add Field FfS6 : f_theory.
  Notation tensor := (tensor F).
  Notation sval := (@sval F).
  Notation lstate := (@lstate F).
  Notation dten := (@dten F).
  Notation binfo := (@binfo F).
  Notation call := (@call F).

  Definition nv : string := "variance_state".
  Definition rinv (s : lstate) : Prop :=
    ~ In nv (dkeys (attrs s)) /\ ~ In nv (st_save s) /\ (forall a, In a (st_states s) -> In a (dkeys (attrs s))).
  Definition dinv (dk : @sdisk F) : Prop := match d_others dk with Some (_, sv, _) => ~ In nv sv | None => True end.
  Definition pres {A} (f : SM lstate A) : Prop := forall s, rinv s -> rinv (fst (f s)).

  Lemma pres_bind {A B} (f : SM lstate A) (g : A -> SM lstate B) : pres f -> (forall a, pres (g a)) -> pres (sbind f g).
  Proof. intros Pf Pg s I. unfold sbind. specialize (Pf s I). destruct (f s) as [s1 [a|e]]; cbn [fst] in *; [apply Pg|]; exact Pf. Qed.
  Lemma pres_id {A} (f : SM lstate A) : (forall s, fst (f s) = s) -> pres f.
  Proof. intros E s I. rewrite E. exact I. Qed.
  Lemma pres_set a x : a <> nv -> pres (set_attr (F:=F) a x).
  Proof.
    intros N s (I1 & I2 & I3). cbn [set_attr fst]. split; [|split; [exact I2|]]; cbn [attrs with_attrs st_states].
    - rewrite In_dkeys_dset. intros [Q|Q]; [congruence|contradiction].
    - intros b Ib. apply In_dkeys_dset. right. apply I3. exact Ib.
  Qed.
  Lemma pres_seach {A} (f : A -> SM lstate unit) l : (forall a, In a l -> pres (f a)) -> pres (seach f l).
  Proof.
    induction l as [|a l IH]; intros P; [apply pres_id; reflexivity|]. cbn [seach]. apply pres_bind; [apply P; left; reflexivity|].
    intros _. apply IH. intros b I. apply P. right. exact I.
  Qed.
  Lemma pres_register n sy sv nc : n <> nv -> pres (register_state (F:=F) n sy sv nc).
  Proof.
    intros N s (I1 & I2 & I3). unfold register_state. destruct (mem n (st_states s)); [split; auto|]. cbn [fst].
    split; [|split]; cbn [attrs st_save st_states].
    - rewrite In_dkeys_dset. intros [Q|Q]; [congruence|contradiction].
    - destruct sv; [|exact I2]. rewrite in_app_iff. intros [Q|[Q|[]]]; [contradiction|congruence].
    - intros b [<-|Ib]; apply In_dkeys_dset; [left; reflexivity|right; apply I3; exact Ib].
  Qed.
  Lemma pres_pair a c : pres (register_normalize_pair (F:=F) a c).
  Proof. intros s I. unfold register_normalize_pair. destruct (mem _ _); [exact I|]. exact I. Qed.
  Lemma pres_if {A} (b : bool) (f g : SM lstate A) : pres f -> pres g -> pres (if b then f else g).
  Proof. destruct b; auto. Qed.
  (** an attribute that was read exists *)
  Lemma pres_attr_set {B} a (k : nd sval -> SM lstate B) (kk : nd sval -> nd sval) (after : nd sval -> SM lstate B) :
    (forall x, k x = (set_attr a (kk x) ;; after x)) -> (forall x, pres (after x)) -> pres (sbind (attr a) k).
  Proof.
    intros E Pa s I. unfold sbind at 1, attr. destruct (dget a (attrs s)) as [x|] eqn:G; cbn [fst]; [|exact I]. rewrite E.
    apply pres_bind; [|intros _; apply Pa|exact I]. apply pres_set. intros Q. destruct I as (I1 & _). apply I1. rewrite <- Q. apply dget_In_keys. eauto.
  Qed.

  Ltac pr := repeat first [ apply pres_bind; [|intros ?] | apply pres_if | apply pres_set; discriminate | apply pres_register; discriminate
    | apply pres_pair | (apply pres_seach; intros ? ?) | (apply pres_id; reflexivity)
    | match goal with |- pres (match ?x with _ => _ end) => destruct x end ].

  Lemma pres_acc ad sn cn z co b mo m t d o : sn <> nv -> cn <> nv -> pres (accumulate (F:=F) ad sn cn z co b mo m t d o).
  Proof.
    intros N1 N2. unfold accumulate.
    repeat first [ apply pres_bind; [|intros ?] | apply pres_if | (apply pres_set; assumption) | (apply pres_id; reflexivity) ].
  Qed.
  Lemma pres_call c : pres (do_call (F:=F) c).
  Proof. rewrite do_call_acc. destruct (k_stat c); apply pres_acc; discriminate. Qed.
  Lemma variance_raises (s : lstate) b mo m t d o : ~ In nv (dkeys (attrs s)) -> variance_update b mo m t d o s = (s, Err AttributeError).
  Proof.
    intros N. unfold variance_update, accumulate. apply dget_None_keys in N. unfold sbind, attr. unfold nv in N. rewrite N. reflexivity.
  Qed.
  Lemma pres_variance b mo m t d o : pres (variance_update (F:=F) b mo m t d o).
  Proof. intros s I. rewrite variance_raises by apply I. exact I. Qed.
  Lemma pres_svd eigh : pres (covariance_svd (F:=F) eigh).
  Proof.
    unfold covariance_svd. pr.
  Qed.
  Lemma pres_inverse iv dm : pres (covariance_inverse (F:=F) iv dm).
  Proof. unfold covariance_inverse. pr. Qed.
  Lemma pres_eigval eigh b m d o : pres (corrected_eigval_update (F:=F) eigh b m d o).
  Proof.
    unfold corrected_eigval_update.
    repeat first [ apply pres_svd | apply pres_bind; [|intros ?] | apply pres_if | apply pres_set; discriminate | apply pres_register; discriminate
    | apply pres_pair | (apply pres_id; reflexivity)
    | match goal with |- pres (match ?x with _ => _ end) => destruct x end ].
  Qed.
  Lemma pres_get_inverse iv dm : pres (get_covariance_inverse_state (F:=F) iv dm).
  Proof. unfold get_covariance_inverse_state. repeat first [apply pres_inverse | apply pres_bind; [|intros ?] | apply pres_if | (apply pres_id; reflexivity)]. Qed.
  Lemma pres_get_svd eigh : pres (get_covariance_svd_state (F:=F) eigh).
  Proof. unfold get_covariance_svd_state. repeat first [apply pres_svd | apply pres_bind; [|intros ?] | apply pres_if | (apply pres_id; reflexivity)]. Qed.
  Lemma pres_set_state n k v : pres (set_state (F:=F) n k v).
  Proof.
    unfold set_state. intros s I. unfold sbind at 1, sget. destruct (mem n (st_states s)); [|exact I].
    unfold sbind, attr, lift, set_attr. destruct (dget n (attrs s)) as [x|] eqn:G; [|exact I]. destruct (nd_set1 x k v); [|exact I].
    apply (pres_set n a); [|exact I]. intros Q. destruct I as (I1 & _). apply I1. rewrite <- Q. apply dget_In_keys. eauto.
  Qed.
  Lemma pres_normalize : pres (normalize (F:=F)).
  Proof.
    unfold normalize. apply pres_bind; [apply pres_id; reflexivity|]. intros s0. apply pres_seach. intros p _ s I. unfold sbind, attr, lift, set_attr.
    destruct (dget (fst p) (attrs s)) as [x|] eqn:G; [|exact I]. destruct (dget (snd p) (attrs s)) as [c|]; [|exact I].
    destruct (normalize_nd x c) as [x' o]. cbn. apply (pres_set (fst p) x'); [|exact I].
    intros Q. destruct I as (I1 & _). apply I1. rewrite <- Q. apply dget_In_keys. eauto.
  Qed.
  Lemma pres_clear : pres (state_clear (F:=F)).
  Proof.
    unfold state_clear. apply pres_bind; [apply pres_id; reflexivity|]. intros s0. apply pres_seach. intros a _. apply pres_if; [apply pres_id; reflexivity|].
    apply (pres_attr_set a _ (fun _ => Node []) (fun _ => sret tt)); [|intros _; apply pres_id; reflexivity].
    intros x. unfold sbind, set_attr, sret. reflexivity.
  Qed.
  Lemma pres_load dk : dinv dk -> pres (load_state (F:=F) dk).
  Proof.
    unfold dinv, load_state. destruct (d_others dk) as [[[sy sv] no]|]; [|intros _; apply pres_id; reflexivity]. intros D.
    apply pres_bind.
    - intros s (I1 & I2 & I3). split; [exact I1|]. split; [exact D|exact I3].
    - intros _. apply pres_seach. intros a Ia. destruct (dget a (d_states dk)); [|apply pres_id; reflexivity].
      apply pres_set. intros Q. apply D. rewrite <- Q. exact Ia.
  Qed.
  Lemma save_others dk s s' dk' : save_state (F:=F) dk s = (s', Ok dk') -> s' = s /\ d_others dk' = Some (st_sync s, st_save s, st_norm s).
  Proof.
    unfold save_state, sbind, sget, lift, sret. destruct (foldM _ (st_save s) dk) as [d|e]; [|discriminate]. intros [= <- <-]. auto.
  Qed.
  Lemma save_state_same dk s : fst (save_state (F:=F) dk s) = s.
  Proof. unfold save_state, sbind, sget, lift, sret. destruct (foldM _ (st_save s) dk); reflexivity. Qed.
  Lemma run_sop_inv eigh iv o p : rinv (fst p) -> dinv (snd p) -> rinv (fst (run_sop eigh iv o p)) /\ dinv (snd (run_sop eigh iv o p)).
  Proof.
    destruct p as [s dk]. cbn [fst snd]. intros I D.
    destruct o; cbn [run_sop fst snd]; try (split; [|exact D]).
    - apply pres_call; exact I.
    - apply pres_variance; exact I.
    - apply pres_eigval; exact I.
    - apply pres_svd; exact I.
    - apply pres_inverse; exact I.
    - apply pres_get_inverse; exact I.
    - apply pres_get_svd; exact I.
    - apply pres_set_state; exact I.
    - destruct (save_state dk s) as [s' [dk'|e]] eqn:E.
      + apply save_others in E. destruct E as (-> & E). split; [exact I|]. cbn [snd]. unfold dinv. rewrite E. apply I.
      + pose proof (save_state_same dk s) as Q. rewrite E in Q. cbn in Q. subst s'. split; [exact I|exact D].
    - apply pres_load; assumption.
    - unfold finalize. pose proof (pres_normalize s I) as I'. unfold sbind. destruct (normalize s) as [s1 [u|e]]; cbn [fst] in I'; [|split; assumption].
      destruct (save_state dk s1) as [s' [dk'|e]] eqn:E.
      + apply save_others in E. destruct E as (-> & E). split; [exact I'|]. cbn [snd]. unfold dinv. rewrite E. apply I'.
      + pose proof (save_state_same dk s1) as Q. rewrite E in Q. cbn in Q. subst s'. split; [exact I'|exact D].
    - apply pres_clear; exact I.
  Qed.
  Lemma rinv_init : rinv (@state_init F).
  Proof.
    destruct (init_registries (@state_init F) eq_refl) as (_ & Es & Est & _).
    split; [|split].
    - rewrite init_attrs. cbn. unfold nv. intros Q. repeat (destruct Q as [Q|Q]; [discriminate Q|]). exact Q.
    - rewrite Es. cbn. unfold nv. intros Q. repeat (destruct Q as [Q|Q]; [discriminate Q|]). exact Q.
    - intros a. rewrite Est, init_attrs. cbn. intuition.
  Qed.
  Lemma reach_inv eigh iv os : rinv (fst (run_sops eigh iv os)) /\ dinv (snd (run_sops eigh iv os)).
  Proof.
    unfold run_sops. assert (G : forall p, rinv (fst p) -> dinv (snd p) ->
      rinv (fst (fold_left (fun p o => run_sop eigh iv o p) os p)) /\ dinv (snd (fold_left (fun p o => run_sop eigh iv o p) os p))).
    { induction os as [|o os IH]; intros p I D; [auto|]. cbn [fold_left]. destruct (run_sop_inv eigh iv o p I D). apply IH; assumption. }
    apply G; [apply rinv_init|exact Logic.I].
  Qed.
  Theorem variance_always_raises eigh iv os b mo m t d o :
    let s := fst (run_sops eigh iv os) in variance_update b mo m t d o s = (s, Err AttributeError).
  Proof. intros s. apply variance_raises. apply reach_inv. Qed.

  (** clear *)
  Lemma clear_loop nc l : forall s : lstate, (forall a, In a l -> In a (dkeys (attrs s))) ->
    exists s', seach (fun a => if mem a nc then sret tt else let! _ := attr a in set_attr a (Node [])) l s = (s', Ok tt) /\
      registries s' = registries s /\ dkeys (attrs s') = dkeys (attrs s) /\
      (forall a, In a l -> ~ In a nc -> dget a (attrs s') = Some (Node [])) /\
      (forall a, ~ In a l \/ In a nc -> dget a (attrs s') = dget a (attrs s)).
  Proof.
    induction l as [|a l IH]; intros s P.
    - exists s. cbn. repeat split; intros; contradiction.
    - cbn [seach]. destruct (mem a nc) eqn:M.
      + destruct (IH s (fun b I => P b (or_intror I))) as (s' & E & R & K & V & O). exists s'. split; [exact E|]. split; [exact R|]. split; [exact K|]. split.
        * intros b [<-|I] N; [apply mem_In in M; contradiction|apply V; assumption].
        * intros b [N|N]; [apply O; left; intros Q; apply N; right; exact Q|apply O; right; exact N].
      + destruct (proj2 (dget_In_keys a (attrs s)) (P a (or_introl eq_refl))) as (x & Ex).
        set (s1 := with_attrs s (dset a (Node []) (attrs s))).
        assert (Ka : dkeys (attrs s1) = dkeys (attrs s)) by (cbn [s1 attrs with_attrs]; apply dkeys_dset_in; apply P; left; reflexivity).
        destruct (IH s1) as (s' & E & R & K & V & O); [intros b Ib; rewrite Ka; apply P; right; exact Ib|].
        exists s'. split; [unfold sbind at 1; unfold sbind, attr, set_attr; rewrite Ex; exact E|]. split; [rewrite R; reflexivity|]. split; [congruence|]. split.
        * intros b I N. destruct (in_dec string_dec b l) as [Ib|Nb]; [apply V; assumption|]. destruct I as [<-|I]; [|contradiction].
          rewrite O by (left; exact Nb). cbn [s1 attrs with_attrs]. apply dget_dset_eq.
        * intros b N. apply mem_false in M. assert (b <> a) by (intros ->; destruct N as [N|N]; [apply N; left; reflexivity|contradiction]).
          rewrite O; [|destruct N as [N|N]; [left; intros Q; apply N; right; exact Q|right; exact N]].
          cbn [s1 attrs with_attrs]. apply dget_dset_neq. assumption.
  Qed.
  Theorem clear_ok (s : lstate) : (forall a, In a (st_states s) -> In a (dkeys (attrs s))) ->
    exists s', state_clear s = (s', Ok tt) /\ registries s' = registries s /\ dkeys (attrs s') = dkeys (attrs s) /\
      (forall a, In a (st_states s) -> ~ In a (st_noclear s) -> dget a (attrs s') = Some (Node [])) /\
      (forall a, ~ In a (st_states s) \/ In a (st_noclear s) -> dget a (attrs s') = dget a (attrs s)).
  Proof. intros P. unfold state_clear, sbind at 1, sget. apply (clear_loop (st_noclear s) (st_states s) s P). Qed.
  Theorem clear_reachable eigh iv os : let s := fst (run_sops eigh iv os) in
    exists s', state_clear s = (s', Ok tt) /\ registries s' = registries s /\ dkeys (attrs s') = dkeys (attrs s) /\
      (forall a, In a (st_states s) -> ~ In a (st_noclear s) -> dget a (attrs s') = Some (Node [])) /\
      (forall a, ~ In a (st_states s) \/ In a (st_noclear s) -> dget a (attrs s') = dget a (attrs s)).
  Proof. intros s. apply clear_ok. apply reach_inv. Qed.

  (** CPU offloading *)
  Lemma nd_map_node f d : nd_map f (Node d) = Node (map (fun p => (fst p, nd_map (F:=F) f (snd p))) d).
  Proof. cbn [nd_map]. f_equal. induction d as [|[k y] r IH]; [reflexivity|]. cbn [map fst snd]. rewrite IH. reflexivity. Qed.
  Lemma dget_nd_map f (d : dict string (nd sval)) (k : string) : dget k (map (fun p => (fst p, nd_map (F:=F) f (snd p))) d) = match dget k d with Some x => Some (nd_map f x) | None => None end.
  Proof. apply (dget_map (fun _ x => nd_map f x)). Qed.
  Lemma dset_nd_map f (d : dict string (nd sval)) (k : string) x : map (fun p => (fst p, nd_map (F:=F) f (snd p))) (dset k x d) = dset k (nd_map f x) (map (fun p => (fst p, nd_map f (snd p))) d).
  Proof.
    induction d as [|[k' y] r IH]; [reflexivity|]. cbn [dset map fst snd]. destruct (eqb_spec k k') as [->|]; cbn [map fst snd]; [reflexivity|]. rewrite IH. reflexivity.
  Qed.
  Lemma get1_map f (y : nd sval) t : get1 (nd_map f y) t = option_map f (get1 y t).
  Proof. destruct y as [v|d]; [reflexivity|]. rewrite nd_map_node. cbn [get1]. rewrite dget_nd_map. destruct (dget t d) as [[v|e]|]; reflexivity. Qed.
  Lemma sub_map f (x : nd sval) m : sub (nd_map f x) m = nd_map (F:=F) f (sub x m).
  Proof. destruct x as [v|d]; [reflexivity|]. rewrite nd_map_node. cbn [sub]. rewrite dget_nd_map. destruct (dget m d); reflexivity. Qed.
  Lemma get2_map f (x : nd sval) m t : get2 (nd_map f x) m t = option_map f (get2 x m t).
  Proof. unfold get2. rewrite sub_map. apply get1_map. Qed.
  Lemma put1_map f (y : nd sval) t v : flat y -> nd_map (F:=F) f (put1 y t v) = put1 (nd_map f y) t (f v).
  Proof. destruct y as [w|d]; [contradiction|]. intros _. cbn [put1]. rewrite !nd_map_node. cbn [put1]. rewrite dset_nd_map. reflexivity. Qed.
  Lemma put2_map f (x : nd sval) m t v : two x -> nd_map (F:=F) f (put2 x m t v) = put2 (nd_map f x) m t (f v).
  Proof.
    intros T. assert (Fs := sub_flat x m T). destruct x as [w|d]; [contradiction|]. cbn [put2]. rewrite !nd_map_node. cbn [put2].
    rewrite dset_nd_map. rewrite put1_map by exact Fs. rewrite <- nd_map_node, sub_map. reflexivity.
  Qed.
  Lemma flat_map_nd f (y : nd sval) : flat y -> flat (nd_map (F:=F) f y).
  Proof.
    destruct y as [v|d]; [contradiction|]. rewrite nd_map_node. intros (Nd & Fa). split.
    - unfold dkeys. rewrite map_map. exact Nd.
    - apply Forall_forall. intros q I. apply in_map_iff in I. destruct I as (p & <- & I). cbn [snd]. pose proof (proj1 (Forall_forall _ _) Fa p I) as L.
      cbn beta in L. destruct (snd p) as [w|e]; [exact Logic.I|cbn in L; contradiction].
  Qed.
  Lemma two_map f (x : nd sval) : two x -> two (nd_map (F:=F) f x).
  Proof.
    destruct x as [v|d]; [contradiction|]. rewrite nd_map_node. intros (Nd & Fa). split.
    - unfold dkeys. rewrite map_map. exact Nd.
    - apply Forall_forall. intros q I. apply in_map_iff in I. destruct I as (p & <- & I). cbn [snd]. apply flat_map_nd.
      exact (proj1 (Forall_forall _ _) Fa p I).
  Qed.
  Lemma paired_map (x c : nd sval) : paired x c -> paired (nd_map (F:=F) on_cpu x) (nd_map on_cpu c).
  Proof.
    intros (Tx & Tc & P). split; [apply two_map; exact Tx|]. split; [apply two_map; exact Tc|]. intros m t. rewrite !get2_map. specialize (P m t).
    destruct (get2 x m t) as [[[dv u]| | |]|], (get2 c m t) as [[[dv' u']| | |]|]; cbn in *; tauto.
  Qed.
  Lemma paired_put (x c : nd sval) m t d v : paired x c -> paired (put2 (F:=F) x m t (VT d)) (put2 c m t (VN v)).
  Proof.
    intros (Tx & Tc & P). split; [apply put2_two; exact Tx|]. split; [apply put2_two; exact Tc|]. intros m' t'.
    destruct (String.eqb_spec m' m) as [->|Nm]; [destruct (String.eqb_spec t' t) as [->|Nt]|].
    - rewrite !get2_put2_eq by assumption. exact Logic.I.
    - rewrite !get2_put2_neq by (assumption || congruence). apply P.
    - rewrite !get2_put2_neq by (assumption || congruence). apply P.
  Qed.
  Definition pairs_ok (s : lstate) : Prop := forall st, exists x c,
    dget (stat_name st) (attrs s) = Some x /\ dget (counter_name st) (attrs s) = Some c /\ paired x c.

  Lemma attrs_cpu (s : lstate) a : dget a (attrs (cpu_state s)) = match dget a (attrs s) with Some x => Some (nd_map on_cpu x) | None => None end.
  Proof. unfold cpu_state. cbn [attrs with_attrs]. apply dget_nd_map. Qed.
  Lemma cpu_with2 (s : lstate) a1 x1 a2 x2 : cpu_state (with2 (F:=F) s a1 x1 a2 x2) = with2 (cpu_state s) a1 (nd_map on_cpu x1) a2 (nd_map on_cpu x2).
  Proof. unfold cpu_state, with2. cbn [attrs with_attrs]. rewrite !dset_nd_map. reflexivity. Qed.
  Lemma pairs_ok_step c s s' o : pairs_ok s -> do_call c s = (s', o) -> pairs_ok s'.
  Proof.
    intros P E. destruct (P (k_stat c)) as (x & cc & Ex & Ec & Pxc). rewrite do_call_acc in E.
    pose proof (accumulate_eq (add_of (k_stat c)) (stat_name (k_stat c)) (counter_name (k_stat c)) (zero_of (k_stat c)) (contrib_of (k_stat c)) (names_neq _ _)
                  (k_b c) (k_mod c) (k_m c) (k_t c) (k_data c) (k_off c) s x cc Ex Ec Pxc) as A.
    assert (W : forall d v, pairs_ok (with2 s (stat_name (k_stat c)) (put2 x (k_m c) (k_t c) (VT d)) (counter_name (k_stat c)) (put2 cc (k_m c) (k_t c) (VN v)))).
    { intros d v st. destruct (stat_eqb_spec st (k_stat c)) as [->|Ns].
      - exists (put2 x (k_m c) (k_t c) (VT d)), (put2 cc (k_m c) (k_t c) (VN v)). unfold with2. cbn [attrs with_attrs].
        rewrite dget_dset_eq, dget_dset_neq by apply names_neq. rewrite dget_dset_eq. split; [reflexivity|]. split; [reflexivity|]. apply paired_put. exact Pxc.
      - destruct (P st) as (x' & c' & Ex' & Ec' & P'). exists x', c'. unfold with2. cbn [attrs with_attrs].
        rewrite !dget_dset_neq; try (apply names_neq || (intros Q; symmetry in Q; revert Q; apply names_neq) ||
          (intros Q; apply stat_name_inj in Q; congruence) || (intros Q; apply counter_name_inj in Q; congruence)). auto. }
    destruct (let* d := _ in _) as [[[d n] d2]|e]; [|rewrite A in E; injection E as <- <-; exact P].
    destruct (acc_add _ _ _ _ _); rewrite A in E; injection E as <- <-; apply W.
  Qed.
  Lemma offload_step c s s' : pairs_ok s -> do_call c s = (s', Ok tt) ->
    do_call (with_offload true c) (cpu_state s) = (cpu_state s', Ok tt).
  Proof.
    intros P E. destruct (P (k_stat c)) as (x & cc & Ex & Ec & Pxc). rewrite do_call_acc in E |- *. cbn [with_offload k_stat k_b k_mod k_m k_t k_data k_off].
    pose proof (accumulate_eq (add_of (k_stat c)) (stat_name (k_stat c)) (counter_name (k_stat c)) (zero_of (k_stat c)) (contrib_of (k_stat c)) (names_neq _ _)
                  (k_b c) (k_mod c) (k_m c) (k_t c) (k_data c) (k_off c) s x cc Ex Ec Pxc) as A.
    pose proof (accumulate_eq (add_of (k_stat c)) (stat_name (k_stat c)) (counter_name (k_stat c)) (zero_of (k_stat c)) (contrib_of (k_stat c)) (names_neq _ _)
                  (k_b c) (k_mod c) (k_m c) (k_t c) (k_data c) true (cpu_state s) (nd_map on_cpu x) (nd_map on_cpu cc)
                  ltac:(rewrite attrs_cpu, Ex; reflexivity) ltac:(rewrite attrs_cpu, Ec; reflexivity) (paired_map _ _ Pxc)) as B.
    destruct (let* d := _ in _) as [[[d n] d2]|e]; [|rewrite A in E; discriminate E].
    assert (OO : snd (old_of (zero_of (k_stat c)) (k_m c) (k_t c) true (nd_map on_cpu x) d d2) = snd (old_of (zero_of (k_stat c)) (k_m c) (k_t c) (k_off c) x d d2)).
    { unfold old_of. rewrite get2_map. destruct (get2 x (k_m c) (k_t c)) as [[[dv u]| | |]|]; reflexivity. }
    assert (OC : oldc_of (k_m c) (k_t c) (nd_map on_cpu cc) = oldc_of (F:=F) (k_m c) (k_t c) cc).
    { unfold oldc_of. rewrite get2_map. destruct (get2 cc (k_m c) (k_t c)) as [[[dv u]| | |]|]; reflexivity. }
    destruct (acc_add _ (k_off c) _ _ _) as [new|e] eqn:EA; rewrite A in E; [|discriminate E]. injection E as <-.
    destruct Pxc as (Tx & Tc & _).
    assert (EB : acc_add (add_of (k_stat c)) true (fst d) (old_of (zero_of (k_stat c)) (k_m c) (k_t c) true (nd_map on_cpu x) d d2) (contrib_of (k_stat c) d2) = Ok (Cpu, snd new)).
    { unfold acc_add in *. rewrite OO. destruct (k_off c).
      - destruct (add_of _ _ _) as [w|]; cbn [bind] in *; [|discriminate]. injection EA as <-. reflexivity.
      - rewrite add_of_eq in *. cbn [fst snd] in *. destruct (dev_eqb _ _) in EA; [|discriminate].
        replace (dev_eqb (fst d) (fst d)) with true by (destruct (fst d); reflexivity).
        destruct (val_add _ _ _) as [w|]; cbn [bind] in *; [|discriminate]. injection EA as <-. reflexivity. }
    rewrite EB in B. rewrite B, cpu_with2, !put2_map by assumption. rewrite OC. destruct new; reflexivity.
  Qed.
  Theorem offload_run cs : forall s s', pairs_ok s -> run_calls cs s = (s', Ok tt) ->
    run_calls (map (with_offload true) cs) (cpu_state s) = (cpu_state s', Ok tt).
  Proof.
    induction cs as [|c cs IH]; intros s s' P E.
    - cbn in E. injection E as <-. reflexivity.
    - unfold run_calls in *. cbn [seach map] in *. apply sbind_ok in E. destruct E as (s1 & [] & E1 & E2).
      rewrite (sbind_run _ _ _ _ _ (offload_step c s s1 P E1)). apply IH; [|exact E2]. exact (pairs_ok_step c s s1 _ P E1).
  Qed.
  Lemma pairs_init : pairs_ok (@state_init F).
  Proof. exact (hist_pairs _ _ _ init_hist). Qed.
  Lemma cpu_init : cpu_state (@state_init F) = state_init.
  Proof. vm_compute. reflexivity. Qed.

  (** single device: offloading is not needed for success *)
  Definition on_dev (dv : dev) (s : lstate) : Prop := forall st m t d, lookup2 s (stat_name st) m t = Some (VT d) -> fst d = dv.
  Lemma onload_step dv c s s' : pairs_ok s -> on_dev dv s -> (forall d, get_data (k_b c) (k_m c) (k_t c) (k_data c) = Ok d -> fst d = dv) ->
    do_call (with_offload true c) (cpu_state s) = (s', Ok tt) ->
    exists s1, do_call (with_offload false c) s = (s1, Ok tt) /\ cpu_state s1 = s' /\ on_dev dv s1.
  Proof.
    intros P D G E. destruct (P (k_stat c)) as (x & cc & Ex & Ec & Pxc). rewrite do_call_acc in E |- *. cbn [with_offload k_stat k_b k_mod k_m k_t k_data k_off] in *.
    pose proof (accumulate_eq (add_of (k_stat c)) (stat_name (k_stat c)) (counter_name (k_stat c)) (zero_of (k_stat c)) (contrib_of (k_stat c)) (names_neq _ _)
                  (k_b c) (k_mod c) (k_m c) (k_t c) (k_data c) false s x cc Ex Ec Pxc) as A.
    pose proof (accumulate_eq (add_of (k_stat c)) (stat_name (k_stat c)) (counter_name (k_stat c)) (zero_of (k_stat c)) (contrib_of (k_stat c)) (names_neq _ _)
                  (k_b c) (k_mod c) (k_m c) (k_t c) (k_data c) true (cpu_state s) (nd_map on_cpu x) (nd_map on_cpu cc)
                  ltac:(rewrite attrs_cpu, Ex; reflexivity) ltac:(rewrite attrs_cpu, Ec; reflexivity) (paired_map _ _ Pxc)) as B.
    destruct (get_data (k_b c) (k_m c) (k_t c) (k_data c)) as [d|e]; cbn [bind] in A, B; [|rewrite B in E; discriminate E].
    specialize (G d eq_refl).
    destruct (size0 (snd d)) as [n|e]; cbn [bind] in A, B; [|rewrite B in E; discriminate E].
    destruct (make_2d (snd d) (k_mod c) (k_t c)) as [d2|e]; cbn [bind] in A, B; [|rewrite B in E; discriminate E].
    assert (OO : snd (old_of (zero_of (k_stat c)) (k_m c) (k_t c) true (nd_map on_cpu x) d d2) = snd (old_of (zero_of (k_stat c)) (k_m c) (k_t c) false x d d2)).
    { unfold old_of. rewrite get2_map. destruct (get2 x (k_m c) (k_t c)) as [[[dv' u]| | |]|]; reflexivity. }
    assert (OD : fst (old_of (zero_of (k_stat c)) (k_m c) (k_t c) false x d d2) = dv).
    { unfold old_of. pose proof (lookup2_get2 s _ x (k_m c) (k_t c) Ex) as L. destruct (get2 x (k_m c) (k_t c)) as [[d'| | |]|]; try exact G.
      apply (D _ _ _ _ L). }
    assert (OC : oldc_of (k_m c) (k_t c) (nd_map on_cpu cc) = oldc_of (F:=F) (k_m c) (k_t c) cc).
    { unfold oldc_of. rewrite get2_map. destruct (get2 cc (k_m c) (k_t c)) as [[[dv' u]| | |]|]; reflexivity. }
    destruct (acc_add _ true _ _ _) as [new|e] eqn:EA; rewrite B in E; [|discriminate E]. injection E as <-.
    destruct Pxc as (Tx & Tc & _).
    assert (EB : acc_add (add_of (k_stat c)) false (fst d) (old_of (zero_of (k_stat c)) (k_m c) (k_t c) false x d d2) (contrib_of (k_stat c) d2) = Ok (dv, snd new)).
    { unfold acc_add in *. rewrite OO in EA. rewrite add_of_eq in *. cbn [fst snd] in *. rewrite OD, G in *.
      replace (dev_eqb dv dv) with true in * by (destruct dv; reflexivity).
      destruct (val_add _ _ _) as [w|]; cbn [bind] in *; [|discriminate]. injection EA as <-. reflexivity. }
    assert (NC : fst new = Cpu).
    { unfold acc_add in EA. destruct (add_of _ _ _); cbn [bind] in EA; [|discriminate]. injection EA as <-. reflexivity. }
    rewrite EB in A. eexists. split; [exact A|]. split.
    - rewrite cpu_with2, !put2_map by assumption. rewrite OC. destruct new as [dn w]. cbn in NC. subst dn. reflexivity.
    - intros st m t d' L.
      destruct (stat_eqb_spec st (k_stat c)) as [->|Ns].
      + rewrite (lookup2_get2 _ _ (put2 x (k_m c) (k_t c) (VT (dv, snd new)))) in L
          by (unfold with2; cbn [attrs with_attrs]; rewrite dget_dset_neq by apply names_neq; apply dget_dset_eq).
        destruct (String.eqb_spec m (k_m c)) as [->|Nm]; [destruct (String.eqb_spec t (k_t c)) as [->|Nt]|].
        * rewrite get2_put2_eq in L by exact Tx. injection L as <-. reflexivity.
        * rewrite get2_put2_neq in L by (assumption || congruence). rewrite <- (lookup2_get2 s _ x _ _ Ex) in L. exact (D _ _ _ _ L).
        * rewrite get2_put2_neq in L by (assumption || congruence). rewrite <- (lookup2_get2 s _ x _ _ Ex) in L. exact (D _ _ _ _ L).
      + apply (D st m t). rewrite <- L. unfold lookup2, with2. cbn [attrs with_attrs]. rewrite !dget_dset_neq; [reflexivity| |apply names_neq].
        intros Q. apply stat_name_inj in Q. congruence.
  Qed.
  Theorem onload_run dv cs : forall s s', pairs_ok s -> on_dev dv s ->
    Forall (fun c => forall d, get_data (k_b c) (k_m c) (k_t c) (k_data c) = Ok d -> fst d = dv) cs ->
    run_calls (map (with_offload true) cs) (cpu_state s) = (s', Ok tt) ->
    exists s1, run_calls (map (with_offload false) cs) s = (s1, Ok tt) /\ cpu_state s1 = s'.
  Proof.
    induction cs as [|c cs IH]; intros s s' P D G E.
    - cbn in E. injection E as <-. exists s. auto.
    - unfold run_calls in *. cbn [seach map] in *. apply sbind_ok in E. destruct E as (s1 & [] & E1 & E2). inversion G as [|? ? G1 G2]; subst.
      destruct (onload_step dv c s s1 P D G1 E1) as (s2 & A & B & C). subst s1.
      destruct (IH s2 s' (pairs_ok_step _ _ _ _ P A) C G2 E2) as (s3 & A3 & B3). exists s3. rewrite (sbind_run _ _ _ _ _ A). auto.
  Qed.
  Lemma on_dev_init dv : on_dev dv (@state_init F).
  Proof. intros st m t d. unfold lookup2. rewrite init_attrs. destruct st; discriminate. Qed.

  (** finalize commutes with moving the values *)
  Lemma divide_map (v c : option sval) : divide (option_map (on_cpu (F:=F)) v) (option_map on_cpu c) = option_map on_cpu (divide v c).
  Proof. destruct v as [[[dv u]| | |]|], c as [[[dv' u']| | |]|]; reflexivity. Qed.
  Lemma nd_item_map f (c : nd sval) k : nd_item (nd_map (F:=F) f c) k = match nd_item c k with Ok y => Ok (nd_map f y) | Err e => Err e end.
  Proof. destruct c as [v|d]; [reflexivity|]. rewrite nd_map_node. cbn [nd_item]. rewrite dget_nd_map. destruct (dget k d); reflexivity. Qed.
  Lemma normalize_nd_cpu (x : nd sval) : forall c, normalize_nd (nd_map on_cpu x) (nd_map on_cpu c) =
    let (x', o) := normalize_nd x c in (nd_map (F:=F) on_cpu x', o).
  Proof.
    induction x as [v|d IH] using nd_ind'; intros c.
    - destruct v as [[dv u]| | |]; [|reflexivity..]. cbn. destruct c as [[[dv' u']| | |]|d]; reflexivity.
    - rewrite nd_map_node, !normalize_node.
      assert (G : norm_list (nd_map on_cpu c) (map (fun p => (fst p, nd_map on_cpu (snd p))) d) =
        let (l', o) := norm_list c d in (map (fun p => (fst p, nd_map on_cpu (snd p))) l', o)).
      { induction d as [|[k y] r IHr]; [reflexivity|]. inversion IH as [|? ? Hy Hr]; subst. cbn [map fst snd norm_list]. rewrite nd_item_map.
        destruct (nd_item c k) as [ck|e]; [|reflexivity]. cbn [snd] in Hy. rewrite Hy. destruct (normalize_nd y ck) as [y' [u|e]]; [|reflexivity].
        rewrite (IHr Hr). destruct (norm_list c r) as [r' o]. reflexivity. }
      rewrite G. destruct (norm_list c d) as [d' o]. rewrite nd_map_node. reflexivity.
  Qed.
  Lemma normalize_cpu (s : lstate) : normalize (cpu_state s) = let (s', o) := normalize s in (cpu_state s', o).
  Proof.
    rewrite !normalize_eq. change (st_norm (cpu_state s)) with (st_norm s). generalize (st_norm s) as l.
    intros l. revert s.
    assert (N1 : forall p s, norm_step p (cpu_state s) = let (s', o) := norm_step p s in (cpu_state s', o)).
    { intros p s. unfold norm_step. cbv [sbind lift attr set_attr]. rewrite !attrs_cpu. destruct (dget (fst p) (attrs s)) as [x|]; [|reflexivity].
      destruct (dget (snd p) (attrs s)) as [c|]; [|reflexivity]. rewrite normalize_nd_cpu. destruct (normalize_nd x c) as [x' o].
      unfold cpu_state. cbn [attrs with_attrs]. rewrite dset_nd_map. reflexivity. }
    induction l as [|p l IH]; intros s; [reflexivity|]. cbn [seach]. unfold sbind. rewrite N1. destruct (norm_step p s) as [s1 [u|e]]; [apply IH|reflexivity].
  Qed.
End Proofs.
