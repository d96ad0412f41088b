(** What setup() does to the caller's dictionary. *)
From Verif Require Import Py PyStr ModelLogger SpecLogger LogProofs2 SpecSetup.
Local Open Scope string_scope.
Local Open Scope list_scope.

Lemma loop_rewrites l : rewritten l (fst (to_plugins_loop l)).
Proof.
  induction l as [|a l IH]; cbn [to_plugins_loop]; [exists [], [], []; repeat split; [constructor|left; reflexivity]|].
  destruct (known a) as [p|] eqn:K.
  - rewrite (to_plugin_known _ _ K). destruct IH as (pre & pre' & post & E1 & E2 & F2 & P). destruct (to_plugins_loop l) as [l' o]. cbn [fst] in *. subst l l'.
    exists (a :: pre), (AClass p :: pre'), post. repeat split; [|exact P]. constructor; [exists p; auto|exact F2].
  - rewrite (to_plugin_unknown _ K). exists [], [], (a :: l). repeat split; [constructor|]. right. exists a, l. auto.
Qed.
Lemma to_plugins_fst l g : fst (to_plugins l g) = fst (to_plugins_loop l).
Proof. unfold to_plugins. destruct (to_plugins_loop l). reflexivity. Qed.
Lemma kw_put_keys k l kw : dkeys (kw_put k l kw) = dkeys kw.
Proof. unfold kw_put. destruct (dmem k kw) eqn:E; [apply dkeys_dset_in, dmem_In, E|reflexivity]. Qed.
Lemma kw_put_get k l kw k' : dget k' (kw_put k l kw) = if String.eqb k' k then option_map (fun _ => l) (dget k kw) else dget k' kw.
Proof.
  unfold kw_put, dmem. destruct (dget k kw) eqn:E.
  - rewrite dget_dset. cbn. destruct (String.eqb_spec k' k); reflexivity.
  - destruct (String.eqb_spec k' k) as [->|]; [exact E|reflexivity].
Qed.
Lemma to_plugins_rewrites l g l' o : to_plugins l g = (l', o) -> rewritten l l'.
Proof. intros E. pose proof (to_plugins_fst l g) as X. rewrite E in X. cbn [fst] in X. subst l'. apply loop_rewrites. Qed.
Lemma to_plugins_known l l' o : to_plugins l false = (l', o) -> (all_known l <-> exists ps, o = Ok ps).
Proof.
  intros E. destruct (all_known_dec l) as [K|K].
  - destruct (to_plugins_ok l K) as (ps & _ & _ & X). rewrite E in X. injection X as _ ->. split; [exists ps; reflexivity|intros _; exact K].
  - destruct (to_plugins_bad l K) as (l1 & X). rewrite E in X. injection X as _ ->. split; [intros; contradiction|intros (ps & X); discriminate X].
Qed.

Lemma setup_lists kw o kw' r : opt_setup kw = (o, kw', r) ->
  dkeys kw' = dkeys kw /\
  (forall k l, dget k kw = Some l -> exists l', dget k kw' = Some l' /\ (reached kw k -> rewritten l l') /\ (~ reached kw k -> l' = l)).
Proof.
  unfold opt_setup.
  destruct (to_plugins (kw_get "forward" kw) false) as [l1 o1] eqn:E1. pose proof (to_plugins_known _ _ _ E1) as K1. pose proof (to_plugins_rewrites _ _ _ _ E1) as R1.
  assert (GB : forall k l, k <> "forward" -> kw_get k (kw_put "forward" l kw) = kw_get k kw).
  { intros k l N. unfold kw_get. rewrite kw_put_get. destruct (String.eqb_spec k "forward"); [contradiction|reflexivity]. }
  assert (RW : forall k l l', dget k kw = Some l -> rewritten (kw_get k kw) l' -> rewritten l l') by (intros k l l' D; unfold kw_get; rewrite D; auto).
  destruct o1 as [f|e].
  2:{ intros [= <- <- <-]. split; [apply kw_put_keys|]. intros k l D. rewrite kw_put_get. destruct (String.eqb_spec k "forward") as [->|N].
      - rewrite D. exists l1. split; [reflexivity|]. split; [intros _; exact (RW _ _ _ D R1)|]. intros NR. exfalso. apply NR. left. reflexivity.
      - exists l. split; [exact D|]. split; [|reflexivity]. intros [->|[[_ X]|[_ [X _]]]]; [contradiction| |]; apply K1 in X as (? & X); discriminate X. }
  assert (A1 : all_known (kw_get "forward" kw)) by (apply K1; eauto).
  rewrite GB by discriminate.
  destruct (to_plugins (kw_get "backward" kw) false) as [l2 o2] eqn:E2. pose proof (to_plugins_known _ _ _ E2) as K2. pose proof (to_plugins_rewrites _ _ _ _ E2) as R2.
  destruct o2 as [b|e].
  2:{ intros [= <- <- <-]. split; [rewrite !kw_put_keys; reflexivity|]. intros k l D. rewrite kw_put_get. destruct (String.eqb_spec k "backward") as [->|N].
      - rewrite kw_put_get. cbn [String.eqb]. change (String.eqb "backward" "forward") with false. cbn iota. rewrite D. exists l2. split; [reflexivity|]. split; [intros _; exact (RW _ _ _ D R2)|].
        intros NR. exfalso. apply NR. right. left. auto.
      - rewrite kw_put_get. destruct (String.eqb_spec k "forward") as [->|N2].
        + rewrite D. exists l1. split; [reflexivity|]. split; [intros _; exact (RW _ _ _ D R1)|]. intros NR. exfalso. apply NR. left. reflexivity.
        + exists l. split; [exact D|]. split; [|reflexivity]. intros [->|[[X _]|[_ [_ X]]]]; [contradiction|contradiction|]. apply K2 in X as (? & X); discriminate X. }
  assert (A2 : all_known (kw_get "backward" kw)) by (apply K2; eauto).
  replace (kw_get "grad" (kw_put "backward" l2 (kw_put "forward" l1 kw))) with (kw_get "grad" kw) by (unfold kw_get; rewrite !kw_put_get; reflexivity).
  destruct (to_plugins (kw_get "grad" kw) false) as [l3 o3] eqn:E3. pose proof (to_plugins_rewrites _ _ _ _ E3) as R3.
  intros E. assert (E' : kw' = kw_put "grad" l3 (kw_put "backward" l2 (kw_put "forward" l1 kw))) by (destruct o3; injection E as _ <- _; reflexivity). subst kw'. clear E.
  split; [rewrite !kw_put_keys; reflexivity|]. intros k l D. rewrite !kw_put_get. destruct (String.eqb_spec k "grad") as [->|N].
  - change (String.eqb "grad" "backward") with false. change (String.eqb "grad" "forward") with false. cbn iota. rewrite D. exists l3. split; [reflexivity|]. split; [intros _; exact (RW _ _ _ D R3)|].
    intros NR. exfalso. apply NR. right. right. auto.
  - change (String.eqb "backward" "forward") with false. cbn iota. destruct (String.eqb_spec k "backward") as [->|N2].
    + rewrite D. exists l2. split; [reflexivity|]. split; [intros _; exact (RW _ _ _ D R2)|]. intros NR. exfalso. apply NR. right. left. auto.
    + destruct (String.eqb_spec k "forward") as [->|N3].
      * rewrite D. exists l1. split; [reflexivity|]. split; [intros _; exact (RW _ _ _ D R1)|]. intros NR. exfalso. apply NR. left. reflexivity.
      * exists l. split; [exact D|]. split; [|reflexivity]. intros [->|[[X _]|[X _]]]; contradiction.
Qed.

(** with is_grad the list also gets Log in front, unless it is empty *)
Lemma to_plugins_grad l : all_known l ->
  exists ps, to_plugins l true = (map AClass (map_known l), Ok ps) /\
    ((l = [] /\ ps = []) \/ (l <> [] /\ hd_error ps = Some PLog /\ in_order ps /\ forall p, In p ps <-> p = PLog \/ exists a, In a l /\ known a = Some p)).
Proof.
  intros K. destruct (to_plugins_ok l K) as (ps & [IO RQ] & MK & E). unfold to_plugins in *. destruct (to_plugins_loop l) as [l' [qs|e]]; cbn [bind] in *; [|discriminate E].
  injection E as -> E. cbn [bind]. rewrite E. destruct l as [|a l].
  - assert (ps = []) as ->. { destruct ps as [|p ps]; [reflexivity|]. exfalso. destruct (proj1 (RQ p) (or_introl eq_refl)) as (? & [] & _). }
    exists []. split; [reflexivity|]. left. auto.
  - assert (NE : ps <> []). { intros ->. destruct (known a) as [p|] eqn:Ka; [|exact (K a (or_introl eq_refl) Ka)]. apply (proj2 (RQ p)). exists a. split; [left; reflexivity|exact Ka]. }
    assert (L : (0 <? length ps)%nat = true) by (destruct ps; [contradiction|reflexivity]). rewrite L. cbn [andb].
    destruct (plugin_in PLog ps) eqn:PI; cbn [negb].
    + apply plugin_in_In in PI. exists ps. split; [reflexivity|]. right. split; [discriminate|]. split.
      { destruct ps as [|p ps]; [contradiction|]. cbn. f_equal. destruct PI as [->|PI]; [reflexivity|]. unfold in_order in IO. inversion IO as [|? ? _ FA]; subst. rewrite Forall_forall in FA.
        specialize (FA _ PI). cbn in FA. inversion FA. }
      split; [exact IO|]. intros p. rewrite RQ. split; [auto|]. intros [->|X]; [apply RQ, PI|exact X].
    + exists (PLog :: ps). split; [reflexivity|]. right. split; [discriminate|]. split; [reflexivity|]. split.
      { constructor; [exact IO|]. apply Forall_forall. intros p Hp. destruct p; cbn; try (repeat constructor; fail). exfalso. apply plugin_in_In in Hp. congruence. }
      intros p. cbn [In]. rewrite RQ. split; (intros [X|X]; [left; symmetry; exact X|right; exact X]).
Qed.
