(** Corrected eigenvalues of a module that lacks a factor (C104). *)
From Coq Require Import ZArith Permutation.
From Verif Require Import Py Field Tensor ModelGrad Monad ModelState ModelMmap SpecGrad SpecState SpecFactor StateProofs1 StateProofs2 StateProofs3 StateProofs4 StateProofs5 StateProofs7 StateProofs10.
Local Open Scope nat_scope.
Local Open Scope string_scope.

Section P.
  Context {F : Type} `{OField F}.
  Notation tensor := (tensor F).
  Notation dten := (@dten F).
  Notation lstate := (@lstate F).
  Variable eigh : tensor -> res (tensor * tensor).

  (** the gradient of [m] in the batch *)
  Definition kind_fwd (off : bool) : exn := if off then AttributeError else TypeError.
  Lemma grad_get (b : @binfo F) m L G (d : dten) : b_log b = Node L -> dget m L = Some (Node G) -> dget "grad" G = Some (Leaf (VT d)) -> get_data b m "grad" None = Ok d.
  Proof. intros E1 E2 E3. unfold get_data. rewrite E1. cbn. rewrite E2. cbn. rewrite E3. reflexivity. Qed.
  Lemma operand_missing (ec : nd (@sval F)) m k e : two ec -> get2 ec m k = None -> eig_operand ec m k e = Err e.
  Proof.
    intros T G. destruct ec as [v|E]; [destruct T|]. unfold eig_operand. cbn [nd_item bind]. unfold get2, sub in G. cbn [nd_item] in *.
    assert (Fl : flat (match dget m E with Some y => y | None => Node [] end)) by exact (sub_flat (Node E) m T).
    destruct (match dget m E with Some y => y | None => Node [] end) as [v|e']; [destruct Fl|]. cbn [nd_item bind]. unfold get1 in G.
    destruct (dget k e') as [[v|d']|]; [discriminate G| |reflexivity]. reflexivity.
  Qed.
  Lemma operand_there (ec : nd (@sval F)) m k e t : two ec -> get2 ec m k = Some (VT t) -> eig_operand ec m k e = Ok t.
  Proof.
    intros T G. destruct ec as [v|E]; [destruct T|]. unfold eig_operand. cbn [nd_item bind]. unfold get2, sub in G. cbn [nd_item] in *.
    destruct (match dget m E with Some y => y | None => Node [] end) as [v|e']; [discriminate G|]. cbn [nd_item bind]. unfold get1 in G.
    destruct (dget k e') as [[v|d']|]; [|discriminate G|discriminate G]. injection G as ->. reflexivity.
  Qed.

  (** the state after the entries of [m] have been made *)
  Definition begun (m : string) (z : dten) (K N : dict string (nd (@sval F))) (s : lstate) : lstate :=
    if dmem m K then s
    else let s1 := with_attrs s (dset "ekfac_eigval_state" (Node (dset m (Leaf (VT z)) K)) (attrs s)) in
         with_attrs s1 (dset "ekfac_counter" (Node (dset m (Leaf (VN f0)) N)) (attrs s1)).
  Lemma ebody_missing b m off (s : lstate) ec ev K N d i j n : dget "covariance_eigvec_state" (attrs s) = Some ec -> dget "covariance_eigval_state" (attrs s) = Some ev ->
    dget "ekfac_eigval_state" (attrs s) = Some (Node K) -> dget "ekfac_counter" (attrs s) = Some (Node N) -> two ec -> get_data b m "grad" None = Ok d -> shape (snd d) = [n; i; j] ->
    (get2 ec m "forward" = None -> ebody b m off s = (begun m (if off then Cpu else fst d, tzeros [i; j]) K N s, Err (kind_fwd off))) /\
    (forall t, get2 ec m "forward" = Some (VT t) -> get2 ec m "backward" = None -> ebody b m off s = (begun m (if off then Cpu else fst d, tzeros [i; j]) K N s, Err AttributeError)).
  Proof.
    intros E1 E2 E3 E4 T G Sh.
    set (tl := fun s1 : lstate => (let! fwd := lift (eig_operand ec m "forward" (if off then AttributeError else TypeError)) in let! bwd := lift (eig_operand ec m "backward" AttributeError) in
       @sret lstate unit tt) s1).
    split.
    - intros Nf. unfold ebody. cbv [sbind attr lift]. rewrite E1, E2, E3, E4, G. rewrite (operand_missing _ _ _ _ T Nf). cbn [nd_has nd_set1]. unfold begun. destruct (dmem m K); [reflexivity|]. unfold sret, set_attr.
      rewrite Sh. cbn [nth]. reflexivity.
    - intros t Hf Nb. unfold ebody. cbv [sbind attr lift]. rewrite E1, E2, E3, E4, G. rewrite (operand_missing _ _ _ _ T Nb), (operand_there _ _ _ _ _ T Hf). cbn [nd_has nd_set1]. unfold begun. destruct (dmem m K); [reflexivity|]. unfold sret, set_attr.
      rewrite Sh. cbn [nth]. reflexivity.
  Qed.
  Lemma begun_other m z K N (s : lstate) a : a <> "ekfac_eigval_state" -> a <> "ekfac_counter" -> dget a (attrs (begun m z K N s)) = dget a (attrs s).
  Proof. intros N1 N2. unfold begun. destruct (dmem m K); [reflexivity|]. cbn [attrs with_attrs]. rewrite !dget_dset_neq by assumption. reflexivity. Qed.

  (** a module without factors stays without *)
  Lemma lacking_again b m off (s : lstate) ec ev K N d i j n : dget "covariance_eigvec_state" (attrs s) = Some ec -> dget "covariance_eigval_state" (attrs s) = Some ev ->
    dget "ekfac_eigval_state" (attrs s) = Some (Node K) -> dget "ekfac_counter" (attrs s) = Some (Node N) -> two ec -> get_data b m "grad" None = Ok d -> shape (snd d) = [n; i; j] -> dmem m K = true ->
    (get2 ec m "forward" = None -> corrected_eigval_update eigh b m None off s = (s, Err (kind_fwd off))) /\
    (forall t, get2 ec m "forward" = Some (VT t) -> get2 ec m "backward" = None -> corrected_eigval_update eigh b m None off s = (s, Err AttributeError)).
  Proof.
    intros E1 E2 E3 E4 T G Sh D. destruct (ebody_missing b m off s ec ev K N d i j n E1 E2 E3 E4 T G Sh) as [A B].
    assert (HA : hasattr "covariance_eigvec_state" s = true) by (unfold hasattr, dmem; rewrite E1; reflexivity).
    rewrite corrected_eq, HA. rewrite (sbind_run _ _ s s tt) by reflexivity.
    assert (X : begun m (if off then Cpu else fst d, tzeros [i; j]) K N s = s) by (unfold begun; rewrite D; reflexivity). rewrite X in A, B. split; [exact A|exact B].
  Qed.

  Lemma lacking_first (dk0 : @sdisk F) ps (s : lstate) b m d off n i j e : run_phases dk0 ps state_init = (s, Ok tt) -> Forall (Forall call_ok) ps -> snd (covariance_svd eigh s) = Ok tt ->
    grad_in b m d -> shape (snd d) = [n; i; j] ->
    (lookup2 s "covariance_state" m "forward" = None /\ e = kind_fwd off) \/
    ((exists t, lookup2 s "covariance_state" m "forward" = Some (VT t)) /\ lookup2 s "covariance_state" m "backward" = None /\ e = AttributeError) ->
    exists s', corrected_eigval_update eigh b m None off s = (s', Err e) /\
      (forall a, In a (dkeys (attrs s)) -> dget a (attrs s') = dget a (attrs s)) /\
      dget "ekfac_eigval_state" (attrs s') = Some (Node [(m, Leaf (VT (if off then Cpu else fst d, tzeros [i; j])))]) /\
      dget "ekfac_counter" (attrs s') = Some (Node [(m, Leaf (VN f0))]) /\
      forall cs s2 o b2 d2 n2 i2 j2, run_calls cs s' = (s2, o) -> grad_in b2 m d2 -> shape (snd d2) = [n2; i2; j2] -> corrected_eigval_update eigh b2 m None off s2 = (s2, Err e).
  Proof.
    intros E O Ev (L & G & G1 & G2 & G3) Sh Miss. pose proof (grad_get _ _ _ _ _ G1 G2 G3) as Gd. destruct (phases_ok dk0 ps _ inv5_init s E O) as (I & _).
    assert (KK : dkeys (attrs s) = dkeys (attrs (@state_init F))) by (destruct I as (_ & KK & _); exact KK).
    assert (HA : hasattr "covariance_eigvec_state" s = false).
    { unfold hasattr. destruct (dmem _ _) eqn:D; [|reflexivity]. apply dmem_In in D. rewrite KK in D. clear - D. vm_compute in D. intuition discriminate. }
    destruct ((covariance_svd eigh ;; register_state "ekfac_eigval_state" true true false ;;
          register_state "ekfac_counter" true false false ;; register_normalize_pair "ekfac_eigval_state" "ekfac_counter") s) as [s1 r] eqn:Es.
    assert (Er : r = Ok tt).
    { revert Es. unfold sbind at 1. destruct (covariance_svd eigh s) as [s3 r1]. cbn [snd] in Ev. subst r1. unfold sbind, register_state, register_normalize_pair.
      repeat match goal with |- context [if ?b then _ else _] => destruct b; cbv iota beta end; intros [= _ <-]; reflexivity. }
    subst r. destruct (einv_start eigh s s1 I Es) as (ev & ec & Gc & Gv & Tc & (_ & _ & X & C & Ex & Ec & FX & FC & K) & _ & _ & Old & V).
    assert (Emp : forall Y : nd (@sval F), flat Y -> (forall k, get1 Y k = None) -> Y = Node []).
    { intros [v|[|[k v] r]] Fl Q; [destruct Fl|reflexivity|]. exfalso. specialize (Q k). unfold get1 in Q. cbn [dget] in Q. rewrite eqb_refl in Q. destruct Fl as (_ & Fl). apply Forall_inv in Fl. cbn [snd] in Fl. destruct v; [discriminate Q|destruct Fl]. }
    assert (K0 : forall k, get1 X k = None /\ get1 C k = None).
    { intros k. specialize (K k). cbv zeta in K. destruct K as [(_ & K1 & K2)|(? & ? & ? & ? & ? & ? & ? & ? & K1 & _)]; [split; assumption|]. exfalso. apply K1. reflexivity. }
    rewrite (Emp X FX (fun k => proj1 (K0 k))) in Ex. rewrite (Emp C FC (fun k => proj2 (K0 k))) in Ec. change StateProofs7.es with "ekfac_eigval_state" in Ex. change StateProofs7.en with "ekfac_counter" in Ec. clear K K0 Emp FX FC X C.
    destruct (ebody_missing b m off s1 ec ev [] [] d i j n Gc Gv Ex Ec Tc Gd Sh) as [A B].
    set (z := (if off then Cpu else fst d, tzeros [i; j])) in *. set (s' := begun m z [] [] s1) in *.
    assert (Me : (get2 ec m "forward" = None /\ e = kind_fwd off) \/ ((exists t, get2 ec m "forward" = Some (VT t)) /\ get2 ec m "backward" = None /\ e = AttributeError)).
    { destruct Miss as [(M1 & ->)|((t & M1) & M2 & ->)].
      - left. split; [|reflexivity]. specialize (V m "forward"). rewrite M1 in V. tauto.
      - right. split; [|split; [|reflexivity]].
        + specialize (V m "forward"). rewrite M1 in V. destruct V as (v & w & _ & _ & V). eauto.
        + specialize (V m "backward"). rewrite M2 in V. tauto. }
    assert (At : forall a, a <> "ekfac_eigval_state" -> a <> "ekfac_counter" -> dget a (attrs s') = dget a (attrs s1)) by (intros a N1 N2; apply begun_other; assumption).
    assert (Z1 : dget "ekfac_eigval_state" (attrs s') = Some (Node [(m, Leaf (VT z))])).
    { unfold s', begun. cbn [dmem dget attrs with_attrs dset]. rewrite dget_dset_neq by discriminate. apply dget_dset_eq. }
    assert (Z2 : dget "ekfac_counter" (attrs s') = Some (Node [(m, Leaf (VN f0))])).
    { unfold s', begun. cbn [dmem dget attrs with_attrs dset]. apply dget_dset_eq. }
    exists s'. split; [|split; [|split; [exact Z1|split; [exact Z2|]]]].
    - rewrite corrected_eq. rewrite HA. rewrite (sbind_run _ _ _ _ _ Es). destruct Me as [(M1 & ->)|((t & M1) & M2 & ->)]; [exact (A M1)|exact (B t M1 M2)].
    - intros a Ia. rewrite At; [exact (Old a Ia)| |]; intros ->; rewrite KK in Ia; clear - Ia; vm_compute in Ia; intuition discriminate.
    - intros cs s2 o b2 d2 n2 i2 j2 Ecs (L2 & G2' & H1 & H2 & H3) Sh2. pose proof (grad_get _ _ _ _ _ H1 H2 H3) as Gd2.
      assert (FR : forall a, (forall st, a <> stat_name st /\ a <> counter_name st) -> dget a (attrs s2) = dget a (attrs s')).
      { intros a Na. pose proof (frames_run a cs Na s') as Q. rewrite Ecs in Q. exact Q. }
      assert (A1 : dget "covariance_eigvec_state" (attrs s2) = Some ec) by (rewrite FR; [rewrite At by discriminate; exact Gc|intros []; split; discriminate]).
      assert (A2 : dget "covariance_eigval_state" (attrs s2) = Some ev) by (rewrite FR; [rewrite At by discriminate; exact Gv|intros []; split; discriminate]).
      assert (A3 : dget "ekfac_eigval_state" (attrs s2) = Some (Node [(m, Leaf (VT z))])) by (rewrite FR; [exact Z1|intros []; split; discriminate]).
      assert (A4 : dget "ekfac_counter" (attrs s2) = Some (Node [(m, Leaf (VN f0))])) by (rewrite FR; [exact Z2|intros []; split; discriminate]).
      destruct (lacking_again b2 m off s2 ec ev _ _ d2 i2 j2 n2 A1 A2 A3 A4 Tc Gd2 Sh2) as [P Q]; [unfold dmem; cbn [dget]; rewrite eqb_refl; reflexivity|].
      destruct Me as [(M1 & ->)|((t & M1) & M2 & ->)]; [exact (P M1)|exact (Q t M1 M2)].
  Qed.
  Lemma lacking_backward (dk0 : @sdisk F) ps (s : lstate) b m d off n i j (t : dten) : run_phases dk0 ps state_init = (s, Ok tt) -> Forall (Forall call_ok) ps -> snd (covariance_svd eigh s) = Ok tt ->
    grad_in b m d -> shape (snd d) = [n; i; j] -> lookup2 s "covariance_state" m "forward" = Some (VT t) -> lookup2 s "covariance_state" m "backward" = None -> usable eigh off t d n j ->
    exists s', corrected_eigval_update eigh b m None off s = (s', Err AttributeError) /\
      (forall a, In a (dkeys (attrs s)) -> dget a (attrs s') = dget a (attrs s)) /\
      dget "ekfac_eigval_state" (attrs s') = Some (Node [(m, Leaf (VT (if off then Cpu else fst d, tzeros [i; j])))]) /\
      dget "ekfac_counter" (attrs s') = Some (Node [(m, Leaf (VN f0))]) /\
      forall cs s2 o b2 d2 n2 i2 j2, run_calls cs s' = (s2, o) -> grad_in b2 m d2 -> shape (snd d2) = [n2; i2; j2] -> usable eigh off t d2 n2 j2 -> corrected_eigval_update eigh b2 m None off s2 = (s2, Err AttributeError).
  Proof.
    intros E O Ev G Sh Hf Hb _. destruct (lacking_first dk0 ps s b m d off n i j AttributeError E O Ev G Sh) as (s' & A & B & C & D & X); [right; split; [eauto|auto]|].
    exists s'. do 4 (split; [assumption|]). intros cs s2 o b2 d2 n2 i2 j2 E2 G2 S2 _. exact (X cs s2 o b2 d2 n2 i2 j2 E2 G2 S2).
  Qed.
End P.
