(** Normalisation, finalize and the exact moments. *)
From Coq Require Import ZArith Permutation.
From Verif Require Import Py Field Tensor ModelGrad Monad ModelState SpecGrad SpecState GradProofs1 GradProofs2 StateProofs1 StateProofs2 StateProofs3.
Local Open Scope nat_scope.

Section Proofs.
  Context {F : Type} `{OField F}.
  Add Field FfS4 : f_theory.
  Notation tensor := (tensor F).
  Notation sval := (@sval F).
  Notation lstate := (@lstate F).
  Notation dten := (@dten F).
  Notation binfo := (@binfo F).
  Notation call := (@call F).

  Lemma init_attrs : attrs (@state_init F) =
    [("mean_state", Node []); ("mean_counter", Node []); ("covariance_state", Node []); ("covariance_counter", Node []); ("model_module", Node [])]%string.
  Proof. vm_compute. reflexivity. Qed.
  Fixpoint norm_list (c : nd sval) (l : list (string * nd sval)) : list (string * nd sval) * res unit :=
    match l with
    | [] => ([], Ok tt)
    | (k, y) :: r =>
        match nd_item c k with
        | Err e => (l, Err e)
        | Ok ck => match normalize_nd y ck with
                   | (y', Err e) => ((k, y') :: r, Err e)
                   | (y', Ok _) => let (r', o) := norm_list c r in ((k, y') :: r', o)
                   end
        end
    end.
  Lemma normalize_node d c : normalize_nd (Node d) c = (let (d', o) := norm_list c d in (Node d', o)).
  Proof.
    cbn [normalize_nd]. match goal with |- (let (_, _) := ?g d in _) = _ => assert (E : forall l, g l = norm_list c l) end.
    { induction l as [|[k y] r IH]; [reflexivity|]. cbn. destruct (nd_item c k); [|reflexivity].
      destruct (normalize_nd y a) as [y' [u|e]]; [|reflexivity]. rewrite IH. reflexivity. }
    rewrite E. reflexivity.
  Qed.
  Lemma dget_map {V} (f : string -> V -> V) (d : dict string V) k :
    dget k (map (fun p => (fst p, f (fst p) (snd p))) d) = match dget k d with Some v => Some (f k v) | None => None end.
  Proof.
    induction d as [|[k' v] r IH]; [reflexivity|]. cbn [map fst snd dget].
    destruct (eqb_spec k k') as [->|]; [reflexivity|exact IH].
  Qed.
  Lemma dkeys_map {V} (f : string -> V -> V) (d : dict string V) : dkeys (map (fun p => (fst p, f (fst p) (snd p))) d) = dkeys d.
  Proof. unfold dkeys. rewrite map_map. reflexivity. Qed.

  Definition compat (v c : option sval) : Prop :=
    match v, c with None, None => True | Some (VT _), Some (VN _) => True | _, _ => False end.
  Definition divide (v c : option sval) : option sval :=
    match v, c with Some (VT (dv, t)), Some (VN n) => Some (VT (dv, tmap (fun e => fdiv e n) t)) | _, _ => None end.
  Definition compat1 (y cy : nd sval) : Prop := flat y /\ flat cy /\ forall t, compat (get1 y t) (get1 cy t).

  Lemma norm_list_all (c : nd sval) (f : string -> nd sval -> nd sval) l :
    (forall k y, In (k, y) l -> exists ck, nd_item c k = Ok ck /\ normalize_nd y ck = (f k y, Ok tt)) ->
    norm_list c l = (map (fun p => (fst p, f (fst p) (snd p))) l, Ok tt).
  Proof.
    induction l as [|[k y] r IH]; intros A; [reflexivity|]. cbn [norm_list map fst snd].
    destruct (A k y (or_introl eq_refl)) as (ck & -> & ->). rewrite IH; [reflexivity|]. intros k' y' I. apply A. right. exact I.
  Qed.

  Definition f1d (cy : nd sval) (t : string) (y : nd sval) : nd sval :=
    match y, get1 cy t with Leaf (VT (dv, Tn)), Some (VN n) => Leaf (VT (dv, tmap (fun e => fdiv e n) Tn)) | _, _ => y end.
  Lemma normalize_flat y cy : compat1 y cy -> exists y', normalize_nd y cy = (y', Ok tt) /\ flat y' /\
    forall t, get1 y' t = divide (get1 y t) (get1 cy t).
  Proof.
    intros (Fy & Fc & C). destruct y as [|e]; [contradiction|]. destruct Fy as [Nd Fa].
    assert (P : forall t x, In (t, x) e -> exists dv Tn n, x = Leaf (VT (dv, Tn)) /\ get1 cy t = Some (VN n)).
    { intros t x I. specialize (C t). apply In_dget in I; [|exact Nd]. pose proof (Forall_dget is_leaf t e x Fa I) as L.
      cbn [get1] in C. rewrite I in C. destruct x as [v|]; [|contradiction]. cbn [compat] in C. destruct v as [[dv Tn]| | |]; try contradiction.
      destruct (get1 cy t) as [[ |n| |]|]; try contradiction. eauto. }
    rewrite normalize_node. rewrite (norm_list_all cy (f1d cy)).
    - eexists. split; [reflexivity|]. split.
      + split; [rewrite dkeys_map; exact Nd|]. apply Forall_forall. intros q I. apply in_map_iff in I. destruct I as ([t x] & <- & I).
        cbn [fst snd]. destruct (P t x I) as (dv & Tn & n & -> & E). unfold f1d. rewrite E. exact Logic.I.
      + intros t. cbn [get1]. rewrite dget_map. destruct (dget t e) as [x|] eqn:G; [|reflexivity].
        destruct (P t x (dget_In _ _ _ G)) as (dv & Tn & n & -> & E). unfold f1d. rewrite E. reflexivity.
    - intros t x I. destruct (P t x I) as (dv & Tn & n & -> & E). exists (sub cy t). split; [apply nd_item_flat; exact Fc|].
      rewrite (sub_get1 cy t Fc), E. cbn [normalize_nd]. unfold f1d. rewrite E. reflexivity.
  Qed.

  Lemma paired_compat x c : paired x c <-> two x /\ two c /\ forall m t, compat (get2 x m t) (get2 c m t).
  Proof. unfold paired, compat. tauto. Qed.
  Lemma normalize_two x c : paired x c -> exists x', normalize_nd x c = (x', Ok tt) /\ two x' /\
    forall m t, get2 x' m t = divide (get2 x m t) (get2 c m t).
  Proof.
    intros P. apply paired_compat in P. destruct P as (Tx & Tc & C). destruct x as [|d]; [contradiction|]. destruct Tx as [Nd Fa].
    assert (C1 : forall m y, In (m, y) d -> compat1 y (sub c m)).
    { intros m y I. apply In_dget in I; [|exact Nd]. split; [exact (Forall_dget flat m d y Fa I)|]. split; [apply sub_flat; exact Tc|].
      intros t. specialize (C m t). unfold get2 in C. cbn [sub] in C. rewrite I in C. exact C. }
    rewrite normalize_node. rewrite (norm_list_all c (fun m y => fst (normalize_nd y (sub c m)))).
    - eexists. split; [reflexivity|]. split.
      + split; [rewrite (dkeys_map (fun m y => fst (normalize_nd y (sub c m)))); exact Nd|]. apply Forall_forall. intros q I. apply in_map_iff in I. destruct I as ([m y] & <- & I).
        cbn [fst snd]. destruct (normalize_flat y (sub c m) (C1 m y I)) as (y' & -> & Fy' & _). exact Fy'.
      + intros m t. unfold get2. cbn [sub]. rewrite (dget_map (fun m y => fst (normalize_nd y (sub c m)))). destruct (dget m d) as [y|] eqn:G; [|reflexivity].
        destruct (normalize_flat y (sub c m) (C1 m y (dget_In _ _ _ G))) as (y' & -> & _ & E). cbn [fst]. apply E.
    - intros m y I. exists (sub c m). split; [apply nd_item_two; exact Tc|].
      destruct (normalize_flat y (sub c m) (C1 m y I)) as (y' & -> & _ & _). reflexivity.
  Qed.

  (** all registered pairs *)
  Definition norm_step (p : string * string) : SM lstate unit :=
    let! x := attr (fst p) in let! c := attr (snd p) in let (x', o) := normalize_nd x c in set_attr (fst p) x' ;; lift o.
  Lemma normalize_pairs l : NoDup (map fst l) -> (forall a b, In a l -> In b l -> fst a <> snd b) ->
    forall s, (forall a, In a l -> exists x c x', dget (fst a) (attrs s) = Some x /\ dget (snd a) (attrs s) = Some c /\ normalize_nd x c = (x', Ok tt)) ->
    exists s', seach norm_step l s = (s', Ok tt) /\ registries s' = registries s /\
      (forall a x c, In a l -> dget (fst a) (attrs s) = Some x -> dget (snd a) (attrs s) = Some c ->
         dget (fst a) (attrs s') = Some (fst (normalize_nd x c))) /\
      (forall n, ~ In n (map fst l) -> dget n (attrs s') = dget n (attrs s)).
  Proof.
    induction l as [|a l IH]; intros Nd Ne s A.
    - exists s. cbn. repeat split; intros; try contradiction; reflexivity.
    - cbn [map] in Nd. inversion Nd as [|? ? Na Nl]; subst. destruct (A a (or_introl eq_refl)) as (x & c & x' & Ex & Ec & En).
      set (s1 := with_attrs s (dset (fst a) x' (attrs s))).
      assert (S1 : norm_step a s = (s1, Ok tt)).
      { unfold norm_step. cbv [sbind lift attr set_attr]. rewrite Ex, Ec, En. reflexivity. }
      destruct (IH Nl (fun u v U V => Ne u v (or_intror U) (or_intror V)) s1) as (s' & E & R & V & O).
      { intros u U. destruct (A u (or_intror U)) as (xu & cu & xu' & Exu & Ecu & Enu). exists xu, cu, xu'. unfold s1. cbn [attrs with_attrs].
        rewrite !dget_dset_neq; [auto| |].
        - intros Q. apply (Ne a u (or_introl eq_refl) (or_intror U)). congruence.
        - intros Q. apply Na. rewrite <- Q. apply in_map. exact U. }
      exists s'. cbn [seach]. rewrite (sbind_run _ _ _ _ _ S1). split; [exact E|]. split; [rewrite R; reflexivity|]. split.
      + intros u xu cu [<-|U] Exu Ecu.
        * rewrite O by exact Na. unfold s1. cbn [attrs with_attrs]. rewrite dget_dset_eq. rewrite Ex in Exu. rewrite Ec in Ecu.
          injection Exu as <-. injection Ecu as <-. rewrite En. reflexivity.
        * apply V; [exact U| |]; unfold s1; cbn [attrs with_attrs]; rewrite dget_dset_neq; try assumption.
          -- intros Q. apply Na. rewrite <- Q. apply in_map. exact U.
          -- intros Q. apply (Ne a u (or_introl eq_refl) (or_intror U)). congruence.
      + intros n Nn. cbn [map In] in Nn. rewrite O by tauto. unfold s1. cbn [attrs with_attrs]. apply dget_dset_neq. intros Q. apply Nn. left. congruence.
  Qed.
  Lemma normalize_eq s : normalize s = seach norm_step (st_norm s) s.
  Proof. reflexivity. Qed.

  Definition base_pairs : list (string * string) := [("mean_state", "mean_counter"); ("covariance_state", "covariance_counter")]%string.
  Lemma save_fold (dk : @sdisk F) s l : (forall a, In a l -> dget a (attrs s) <> None) ->
    exists dk', foldM (fun (dk : @sdisk F) (a : string) => match dget a (attrs s) with
                                   | Some x => Ok (SDisk (dset a x (d_states dk)) (d_others dk)) | None => Err AttributeError end) l dk = Ok dk' /\
      d_others dk' = d_others dk /\
      (forall a, In a l -> dget a (d_states dk') = dget a (attrs s)) /\
      (forall a, ~ In a l -> dget a (d_states dk') = dget a (d_states dk)).
  Proof.
    revert dk. induction l as [|a l IH]; intros dk A; [exists dk; cbn; repeat split; contradiction|].
    cbn [foldM]. destruct (dget a (attrs s)) as [x|] eqn:E; [|exfalso; apply (A a (or_introl eq_refl)); exact E]. cbn [bind].
    destruct (IH (SDisk (dset a x (d_states dk)) (d_others dk)) (fun b I => A b (or_intror I))) as (dk' & E1 & E2 & E3 & E4).
    exists dk'. split; [exact E1|]. split; [exact E2|]. split.
    - intros b [<-|I]; [|apply E3; exact I]. destruct (in_dec string_dec a l) as [I|NI]; [apply E3; exact I|].
      rewrite E4 by exact NI. cbn [d_states]. rewrite dget_dset_eq. congruence.
    - intros b Nb. cbn [In] in Nb. rewrite E4 by tauto. cbn [d_states]. apply dget_dset_neq. intros Q. apply Nb. left. congruence.
  Qed.
  Lemma save_ok (dk : @sdisk F) s : (forall a, In a (st_save s) -> dget a (attrs s) <> None) ->
    exists dk', save_state dk s = (s, Ok dk') /\ d_others dk' = Some (st_sync s, st_save s, st_norm s) /\
      (forall a, In a (st_save s) -> dget a (d_states dk') = dget a (attrs s)) /\
      (forall a, ~ In a (st_save s) -> dget a (d_states dk') = dget a (d_states dk)).
  Proof.
    intros A. destruct (save_fold dk s (st_save s) A) as (dk' & E1 & E2 & E3 & E4). unfold save_state. cbv [sbind sget lift sret].
    rewrite E1. eexists. split; [reflexivity|]. cbn [d_others d_states]. auto.
  Qed.

  Lemma stat_pair_in st : In (stat_name st, counter_name st) base_pairs.
  Proof. destruct st; cbn; auto. Qed.
  Lemma base_pairs_ok : NoDup (map fst base_pairs) /\ (forall a b, In a base_pairs -> In b base_pairs -> fst a <> snd b).
  Proof.
    split; [repeat constructor; cbn; intros Q; repeat destruct Q as [Q|Q]; try discriminate; contradiction|].
    intros a b [<-|[<-|[]]] [<-|[<-|[]]]; discriminate.
  Qed.
  Lemma base_pair_stat a : In a base_pairs -> exists st, a = (stat_name st, counter_name st).
  Proof. intros [<-|[<-|[]]]; [exists SMean|exists SCov]; reflexivity. Qed.

  (** normalising a state all of whose accumulators are paired *)
  Lemma normalize_good s : st_norm s = base_pairs ->
    (forall st, exists x c, dget (stat_name st) (attrs s) = Some x /\ dget (counter_name st) (attrs s) = Some c /\ paired x c) ->
    exists s', normalize s = (s', Ok tt) /\ registries s' = registries s /\ dkeys (attrs s') = dkeys (attrs s) /\
      (forall st, exists x c, dget (stat_name st) (attrs s') = Some x /\ dget (counter_name st) (attrs s') = Some c /\ paired x c) /\
      (forall st m t, lookup2 s' (stat_name st) m t = divide (lookup2 s (stat_name st) m t) (lookup2 s (counter_name st) m t)) /\
      (forall n, n <> stat_name SMean -> n <> stat_name SCov -> dget n (attrs s') = dget n (attrs s)).
  Proof.
    intros En P. rewrite normalize_eq, En. destruct base_pairs_ok as (Nd & Ne).
    destruct (normalize_pairs base_pairs Nd Ne s) as (s' & E & R & V & O).
    { intros a I. apply base_pair_stat in I. destruct I as (st & ->). cbn [fst snd]. destruct (P st) as (x & c & Ex & Ec & Pxc).
      destruct (normalize_two x c Pxc) as (x' & En' & _). exists x, c, x'. auto. }
    exists s'. split; [exact E|]. split; [exact R|].
    assert (KK : dkeys (attrs s') = dkeys (attrs s)).
    { assert (G : forall l s1 s2 o, seach norm_step l s1 = (s2, o) -> (forall a, In a l -> In (fst a) (dkeys (attrs s1))) -> dkeys (attrs s2) = dkeys (attrs s1)).
      { induction l as [|a l IH]; intros s1 s2 o E1 I; [cbn in E1; injection E1 as <- <-; reflexivity|]. cbn [seach] in E1. unfold sbind at 1 in E1.
        unfold norm_step at 1 in E1. cbv [sbind lift attr set_attr] in E1.
        destruct (dget (fst a) (attrs s1)) as [x|] eqn:Ex; [|injection E1 as <- <-; reflexivity].
        destruct (dget (snd a) (attrs s1)) as [c|]; [|injection E1 as <- <-; reflexivity].
        destruct (normalize_nd x c) as [x' [u|e]].
        - apply IH in E1; [rewrite E1; cbn [attrs with_attrs]; apply dkeys_dset_in; apply I; left; reflexivity|].
          intros b Ib. cbn [attrs with_attrs]. apply In_dkeys_dset. right. apply I. right. exact Ib.
        - injection E1 as <- <-. cbn [attrs with_attrs]. apply dkeys_dset_in. apply I. left. reflexivity. }
      apply (G _ _ _ _ E). intros a I. apply base_pair_stat in I. destruct I as (st & ->). cbn [fst]. destruct (P st) as (x & c & Ex & _).
      apply dget_In_keys. eauto. }
    split; [exact KK|].
    assert (Q : forall st, exists x c x', dget (stat_name st) (attrs s) = Some x /\ dget (counter_name st) (attrs s) = Some c /\ paired x c /\
      dget (stat_name st) (attrs s') = Some x' /\ dget (counter_name st) (attrs s') = Some c /\ two x' /\
      forall m t, get2 x' m t = divide (get2 x m t) (get2 c m t)).
    { intros st. destruct (P st) as (x & c & Ex & Ec & Pxc). destruct (normalize_two x c Pxc) as (x' & En' & T' & G').
      exists x, c, x'. pose proof (V _ x c (stat_pair_in st) Ex Ec) as Vx. rewrite En' in Vx. cbn [fst] in Vx.
      repeat split; try assumption; try apply Pxc. rewrite O; [exact Ec|]. intros I. apply in_map_iff in I. destruct I as (a & Ea & Ia).
      apply base_pair_stat in Ia. destruct Ia as (st' & ->). cbn [fst] in Ea. revert Ea. apply names_neq. }
    split; [|split].
    - intros st. destruct (Q st) as (x & c & x' & Ex & Ec & Pxc & Ex' & Ec' & T' & G'). exists x', c. split; [exact Ex'|]. split; [exact Ec'|].
      apply paired_compat in Pxc. apply paired_compat. destruct Pxc as (_ & Tc & C). split; [exact T'|]. split; [exact Tc|]. intros m t. rewrite G'.
      specialize (C m t). destruct (get2 x m t) as [[[dv Tn]| | |]|], (get2 c m t) as [[ | | |]|]; cbn in *; tauto.
    - intros st m t. destruct (Q st) as (x & c & x' & Ex & Ec & Pxc & Ex' & Ec' & T' & G').
      rewrite (lookup2_get2 s' _ x' m t Ex'), (lookup2_get2 s _ x m t Ex), (lookup2_get2 s _ c m t Ec). apply G'.
    - intros n N1 N2. apply O. cbn. intros [I|[I|[]]]; cbn in *; congruence.
  Qed.

  Lemma init_hist : hist_inv (fun _ _ _ => None) (@state_init F) [].
  Proof.
    split.
    - intros st. rewrite init_attrs. destruct st; do 2 eexists; (split; [reflexivity|split; [reflexivity|split; split; constructor]]).
    - intros st m t. left. unfold lookup2. rewrite init_attrs. destruct st; cbn; auto.
  Qed.
  Lemma hist_pairs b s done : hist_inv b s done -> forall st, exists x c,
    dget (stat_name st) (attrs s) = Some x /\ dget (counter_name st) (attrs s) = Some c /\ paired x c.
  Proof.
    intros HI st. destruct HI as [G K] eqn:E. destruct (G st) as (x & c & Ex & Ec & _). exists x, c. split; [exact Ex|]. split; [exact Ec|].
    apply (hist_paired b s done st x c); [split; assumption|assumption..].
  Qed.

  Lemma stored_moment st k (Tn : tensor) rows n : twf Tn -> shape Tn = zsh st k ->
    (forall idx, valid (zsh st k) idx -> tget Tn idx = rowstat st rows idx) ->
    tmap (fun e => fdiv e n) Tn = moment st k rows n.
  Proof.
    intros W S E. destruct st; cbn [moment zsh] in *.
    - apply tensor_ext; [apply tmap_wf; exact W|apply tgen_wf|exact S|]. cbn [shape tmap]. rewrite S. intros idx V.
      rewrite tget_tmap by (try exact W; rewrite S; exact V). rewrite tget_tgen by exact V. rewrite E by exact V. reflexivity.
    - apply tensor_ext; [apply tmap_wf; exact W|apply tgen_wf|exact S|]. cbn [shape tmap]. rewrite S. intros idx V.
      rewrite tget_tmap by (try exact W; rewrite S; exact V). unfold mgen. rewrite tget_tgen by exact V. rewrite E by exact V. reflexivity.
  Qed.

  (** every saved name of the initial registry exists *)
  Lemma init_registries (s : lstate) : registries s = registries (@state_init F) ->
    st_norm s = base_pairs /\ st_save s = ["mean_state"; "covariance_state"; "model_module"]%string /\
    st_states s = ["model_module"; "covariance_counter"; "covariance_state"; "mean_counter"; "mean_state"]%string /\
    st_noclear s = ["model_module"]%string /\ st_sync s = ["mean_state"; "mean_counter"; "covariance_state"; "covariance_counter"]%string.
  Proof.
    intros E.
    assert (R : registries (@state_init F) = (["model_module"; "covariance_counter"; "covariance_state"; "mean_counter"; "mean_state"],
       ["mean_state"; "mean_counter"; "covariance_state"; "covariance_counter"],
       ["mean_state"; "covariance_state"; "model_module"], base_pairs, ["model_module"])%string) by (vm_compute; reflexivity).
    rewrite R in E. unfold registries in E. injection E as E1 E2 E3 E4 E5. auto.
  Qed.

  Lemma run_keeps_keys cs s : (forall st, In (stat_name st) (dkeys (attrs s)) /\ In (counter_name st) (dkeys (attrs s))) ->
    dkeys (attrs (fst (run_calls cs s))) = dkeys (attrs s).
  Proof.
    assert (SA : forall n x s, In n (dkeys (attrs s)) -> dkeys (attrs (fst (set_attr (F:=F) n x s))) = dkeys (attrs s)).
    { intros n x s' I. cbn [set_attr fst attrs with_attrs]. apply dkeys_dset_in. exact I. }
    assert (KB : forall A B (f : SM lstate A) (g : A -> SM lstate B) K, (forall s, dkeys (attrs s) = K -> dkeys (attrs (fst (f s))) = K) ->
       (forall a s, dkeys (attrs s) = K -> dkeys (attrs (fst (g a s))) = K) -> forall s, dkeys (attrs s) = K -> dkeys (attrs (fst (sbind f g s))) = K).
    { intros A B f g K Pf Pg s' E. unfold sbind. specialize (Pf s' E). destruct (f s') as [s1 [a|e]]; cbn [fst] in *; [apply Pg; exact Pf|exact Pf]. }
    intros I. set (K := dkeys (attrs s)) in *. assert (E0 : dkeys (attrs s) = K) by reflexivity. clearbody K. revert s E0.
    induction cs as [|c cs IH]; intros s E0; [exact E0|]. unfold run_calls. cbn [seach]. apply KB; [|intros _; exact IH|exact E0]. clear s E0.
    intros s E0. rewrite do_call_acc. destruct (I (k_stat c)) as [I1 I2]. unfold accumulate. revert s E0.
    repeat (first [ apply KB; [|intros ?] | (intros ? E0; exact E0) | (intros ? E0; rewrite SA; [exact E0|rewrite E0; assumption])
                  | match goal with |- context [if ?x then _ else _] => destruct x end ]).
  Qed.

  Theorem finalize_moments (dk : @sdisk F) cs s : run_calls cs state_init = (s, Ok tt) -> Forall call_ok cs ->
    exists s' dk', finalize dk s = (s', Ok dk') /\ registries s' = registries (@state_init F) /\
      forall st m t, let ccs := calls_for st m t cs in
        (ccs = [] -> stored s' st m t = None) /\
        (ccs <> [] -> all_rows ccs <> [] /\ rows_fit st (width (all_rows ccs)) (all_rows ccs) /\
           stored s' st m t = Some (moment st (width (all_rows ccs)) (all_rows ccs) (all_count ccs)) /\
           exists dv, lookup2 s' (stat_name st) m t = Some (VT (dv, moment st (width (all_rows ccs)) (all_rows ccs) (all_count ccs)))).
  Proof.
    intros E O. pose proof (run_inv _ cs _ [] s init_hist O E) as HI. cbn [app] in HI.
    pose proof (run_registries cs (@state_init F)) as R. rewrite E in R. cbn [fst] in R.
    pose proof (run_keeps_keys cs (@state_init F)) as KK. rewrite E in KK. cbn [fst] in KK.
    rewrite init_attrs in KK. specialize (KK ltac:(intros st; destruct st; cbn; intuition)).
    destruct (init_registries s R) as (En & Es & _).
    destruct (normalize_good s En (hist_pairs _ _ _ HI)) as (s' & E1 & R1 & K1 & _ & D1 & _).
    destruct (save_ok dk s') as (dk' & E2 & _).
    { intros a I. replace (st_save s') with (st_save s) in I by (unfold registries in R1; congruence). rewrite Es in I.
      intros Q. apply dget_None_keys in Q. apply Q. rewrite K1, KK. cbn in I |- *. intuition (subst; auto). }
    exists s', dk'. split; [unfold finalize; rewrite (sbind_run _ _ _ _ _ E1); exact E2|]. split; [rewrite R1, R; reflexivity|].
    intros st m t ccs. destruct HI as (_ & K). specialize (K st m t). unfold key_inv in K. fold ccs in K. unfold stored.
    specialize (D1 st m t). destruct K as [(_ & C0 & L1 & L2)|(dv & Tn & k & NE & L1 & W & S & _ & (R2 & NR & WR) & V & L2)].
    - rewrite D1, L1. cbn. split; [reflexivity|congruence].
    - destruct NE as [NE|NE]; [congruence|]. split; [congruence|]. intros _. specialize (NR NE). split; [exact NR|].
      assert (Wd : width (all_rows ccs) = k) by (apply WR; reflexivity).
      rewrite Wd. split; [exact R2|].
      assert (X : lookup2 s' (stat_name st) m t = Some (VT (dv, moment st k (all_rows ccs) (all_count ccs)))).
      { rewrite D1, L1, L2. cbn [divide]. f_equal. f_equal. f_equal. cbn [bcnt bent] in *.
        rewrite (stored_moment st k Tn (all_rows ccs)).
        - f_equal. ring.
        - exact W.
        - exact S.
        - intros idx Vi. rewrite V by exact Vi. ring. }
      rewrite X. split; [reflexivity|]. exists dv. reflexivity.
  Qed.
End Proofs.
