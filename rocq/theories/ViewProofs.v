(** The rows of the saver's buffer that are memory of the batch log. *)
From Coq Require Import ZArith Permutation.
From Verif Require Import Py Field Tensor ModelGrad Monad ModelState ModelMmap ModelSaver ModelLogger SpecLogger StoreProofs3 LogProofs1.
Local Open Scope nat_scope.

Lemma dset_same {K V} `{Eqb K} (k : K) (v : V) d : dget k d = Some v -> dset k v d = d.
Proof. induction d as [|[k' v'] r IH]; cbn [dget dset]; [discriminate|]. destruct (eqb k k'); [intros [= ->]; reflexivity|intros E; rewrite IH; auto]. Qed.
Lemma nodup_dset {K V} `{Eqb K} (k : K) (v : V) d : NoDup (dkeys d) -> NoDup (dkeys (dset k v d)).
Proof.
  intros N. destruct (dget k d) as [w|] eqn:E.
  - rewrite dkeys_dset_in; [exact N|]. apply dget_In_keys. eauto.
  - apply dget_None_keys in E. rewrite dkeys_dset_notin by exact E. apply (Permutation_NoDup (l := k :: dkeys d)); [|constructor; assumption].
    change (k :: dkeys d) with ([k] ++ dkeys d). apply Permutation_app_comm.
Qed.
Lemma nodup_dget {K V} `{Eqb K} (k : K) (v : V) d : NoDup (dkeys d) -> In (k, v) d -> dget k d = Some v.
Proof.
  induction d as [|[k' v'] r IH]; [intros _ []|]. intros N [E|I0]; inversion N as [|? ? N1 N2]; subst; cbn [dget].
  - injection E as -> ->. rewrite eqb_refl. reflexivity.
  - destruct (eqb_spec k k') as [->|_]; [|apply IH; assumption]. exfalso. apply N1. apply in_map_iff. exists (k', v). split; [reflexivity|exact I0].
Qed.

(** ---- cells of a buffer ---- *)
Definition deep (b : nd array) : Prop := exists l, b = Node l /\ forall m c, dget m l = Some c -> exists q, c = Node q.
Definition two_deep (buf : dict did (nd array)) : Prop := forall i b, dget i buf = Some b -> deep b.
Lemma deep_nil : deep (Node []).
Proof. exists []. split; [reflexivity|discriminate]. Qed.

Lemma buf_put_id i m t a buf : cell buf i m t = Some a -> buf_put i m t a buf = buf.
Proof.
  unfold cell, sub_cell, buf_put. destruct (dget i buf) as [[|l]|] eqn:E1; try discriminate. destruct (dget m l) as [[|q]|] eqn:E2; try discriminate.
  destruct (dget t q) as [[a'|]|] eqn:E3; try discriminate. intros [= ->]. rewrite (dset_same t _ q E3), (dset_same m _ l E2), (dset_same i _ buf E1). reflexivity.
Qed.
Lemma buf_put_keys i m t a buf : dkeys (buf_put i m t a buf) = dkeys buf.
Proof.
  unfold buf_put. destruct (dget i buf) as [[|l]|] eqn:E1; try reflexivity. destruct (dget m l) as [[|q]|] eqn:E2; try reflexivity.
  apply dkeys_dset_in. apply dget_In_keys. eauto.
Qed.
Lemma buf_put_cell i m t a buf i' m' t' a0 : cell buf i m t = Some a0 ->
  cell (buf_put i m t a buf) i' m' t' = if (did_eqb i' i && (String.eqb m' m && String.eqb t' t))%bool then Some a else cell buf i' m' t'.
Proof.
  unfold cell at 1, sub_cell at 1. intros E. unfold buf_put. destruct (dget i buf) as [[|l]|] eqn:E1; try discriminate. destruct (dget m l) as [[|q]|] eqn:E2; try discriminate. clear E.
  unfold cell. rewrite dget_dset. change (did_eqb i' i) with (eqb i' i). destruct (eqb_spec i' i) as [->|_]; [|reflexivity]. rewrite E1. cbn [andb sub_cell]. rewrite dget_dset.
  change (String.eqb m' m) with (eqb m' m). destruct (eqb_spec m' m) as [->|_]; [|reflexivity]. rewrite E2. cbn [andb]. rewrite dget_dset. change (String.eqb t' t) with (eqb t' t). destruct (eqb_spec t' t); reflexivity.
Qed.

Section P.
  Context {F : Type} `{OField F}.
  Notation tensor := (tensor F).
  Notation dten := (@dten F).
  Notation uten := (@uten F).
  Notation lx := (@lx F).
  Notation view := (@view F).
  Notation lref := (@lref F).
  Notation blog := (@blog F).
  Notation heap := (@heap F).
  Variable enc : dten -> array.
  Notation row_read := (row_read enc).
  Notation row_views := (row_views enc).
  Notation batch_views := (batch_views enc).

  (** ---- reading the buffer ---- *)
  Lemma settle_keys (x : lx) : dkeys (s_buffer (settle x)) = dkeys (s_buffer (x_saver x)).
  Proof.
    unfold settle. cbn [s_buffer]. generalize (s_buffer (x_saver x)). induction (x_views x) as [|v vs IH]; intros b; [reflexivity|]. cbn [fold_left]. rewrite IH.
    unfold refresh. destruct (look x v); [apply buf_put_keys|reflexivity].
  Qed.
  Lemma settle_none (x : lx) : x_views x = [] -> settle x = x_saver x.
  Proof. intros E. unfold settle. rewrite E. cbn [fold_left]. destruct (x_saver x); reflexivity. Qed.
  Lemma settle_empty (x : lx) : s_buffer (x_saver x) = [] -> settle x = x_saver x.
  Proof.
    intros E. unfold settle. rewrite E. replace (fold_left (refresh x) (x_views x) []) with (@nil (did * nd array)); [destruct (x_saver x) as [a1 a2 a3 a4 a5 a6 a7]; cbn in *; subst a6; reflexivity|].
    induction (x_views x) as [|v vs IH]; [reflexivity|]. cbn [fold_left]. unfold refresh at 2. destruct (look x v); exact IH.
  Qed.
  Definition synced (x : lx) : Prop := forall v a, In v (x_views x) -> look x v = Some a -> cell (s_buffer (x_saver x)) (v_id v) (v_mod v) (v_typ v) = Some a.
  Lemma settle_synced (x : lx) : synced x -> settle x = x_saver x.
  Proof.
    intros S. unfold settle. assert (E : fold_left (refresh x) (x_views x) (s_buffer (x_saver x)) = s_buffer (x_saver x)); [|rewrite E; destruct (x_saver x); reflexivity].
    unfold synced in S. revert S. generalize (s_buffer (x_saver x)). intros b. induction (x_views x) as [|v vs IH]; intros S; [reflexivity|]. cbn [fold_left].
    replace (refresh x b v) with b; [apply IH; intros w a I0; apply S; right; exact I0|]. unfold refresh. destruct (look x v) as [a|] eqn:E; [|reflexivity]. symmetry. apply buf_put_id. apply S; [left; reflexivity|exact E].
  Qed.

  (** ---- what one sample puts ---- *)
  Definition own_cpu (r : lref) : Prop := match r with Own u => fst (u_d u) = Cpu | Ref _ => False end.
  Lemma row_views_app h l1 l2 i k : row_views h (l1 ++ l2) i k =
    (if snd (row_views h l1 i k) then fst (row_views h l1 i k) ++ fst (row_views h l2 i k) else fst (row_views h l1 i k),
     snd (row_views h l1 i k) && snd (row_views h l2 i k))%bool.
  Proof.
    induction l1 as [|[m [t r]] l1 IH]; [cbn; destruct (row_views h l2 i k); reflexivity|]. cbn [app ModelLogger.row_views]. destruct (row_read k (u_d (deref h r))); [|reflexivity]. rewrite IH.
    destruct (row_views h l1 i k) as [v1 b1]. cbn [fst snd]. destruct b1; cbn [andb]; destruct r as [u|]; try reflexivity; destruct (dev_eqb _ _); reflexivity.
  Qed.
  (** [put m t] of the entries [get]: either a row of the entry was put, or nothing was changed *)
  Definition puts (h : heap) (i : did) (k : nat) (get : string -> option lref) (m : string) (vs : list view) (before after : string -> option array) : Prop :=
    (forall t, (exists r a, get t = Some r /\ row_read k (u_d (deref h r)) = Ok a /\ after t = Some a /\ (own_cpu r -> In (View i m t (row_read k)) vs)) \/
               (after t = before t /\ forall v, In v vs -> v_typ v <> t)) /\
    forall v, In v vs -> exists t r, v = View i m t (row_read k) /\ get t = Some r /\ own_cpu r.
  Definition qcell (q : dict string (nd array)) (t : string) : option array := match dget t q with Some (Leaf a) => Some a | _ => None end.
  Lemma module_puts h i k m : forall (e : dict string lref) q n, NoDup (dkeys e) ->
    exists q' n' ex, add_items (map (fun p => (fst p, Leaf (enc (u_d (deref h (snd p)))))) e) (Node q) n k = (Node q', n', ex) /\
      (snd (row_views h (map (pair m) e) i k) = true <-> ex = None) /\
      puts h i k (fun t => dget t e) m (fst (row_views h (map (pair m) e) i k)) (qcell q) (qcell q').
  Proof.
    induction e as [|[t0 r0] e IH]; intros q n N.
    - exists q, n, None. split; [reflexivity|]. split; [cbn; tauto|]. split; [intros t; right; split; [reflexivity|intros v []]|intros v []].
    - inversion N as [|? ? N1 N2]; subst. cbn [map fst snd add_items ModelLogger.row_views]. change (let* row := tensor_row (enc (u_d (deref h r0))) k in to_numpy row) with (row_read k (u_d (deref h r0))).
      destruct (row_read k (u_d (deref h r0))) as [a|er] eqn:Er.
      2: { exists q, n, (Some er). split; [reflexivity|]. split; [split; discriminate|]. split; [intros t; right; split; [reflexivity|intros v []]|intros v []]. }
      destruct (IH (dset t0 (Leaf a) q) (n + asize a) N2) as (q' & n' & ex & E & B & (P1 & P2)). exists q', n', ex. split; [exact E|].
      destruct (row_views h (map (pair m) e) i k) as [vs b]. cbn [fst snd] in *. split; [exact B|].
      assert (Nt : dget t0 e = None) by (apply dget_None_keys; exact N1).
      assert (Vs : exists new, (match r0 with Own u => if dev_eqb (fst (u_d u)) Cpu then View i m t0 (row_read k) :: vs else vs | Ref _ => vs end) = new ++ vs /\
        (forall v, In v new -> v = View i m t0 (row_read k) /\ own_cpu r0) /\ (own_cpu r0 -> In (View i m t0 (row_read k)) new)).
      { destruct r0 as [u|z]; [|exists []; split; [reflexivity|]; split; [intros v []|intros []]]. cbn [own_cpu]. destruct (fst (u_d u)); cbn [dev_eqb].
        - exists [View i m t0 (row_read k)]. split; [reflexivity|]. split; [intros v [<-|[]]; auto|left; reflexivity].
        - exists []. split; [reflexivity|]. split; [intros v []|discriminate]. }
      destruct Vs as (new & -> & V1 & V2). split.
      + intros t. cbn [dget]. destruct (eqb_spec t t0) as [->|Ne].
        * left. exists r0, a. split; [reflexivity|]. split; [exact Er|]. split; [|intros O; apply in_or_app; left; apply V2, O].
          destruct (P1 t0) as [(r & a' & G & _)|(G & _)]; [congruence|]. rewrite G. unfold qcell. rewrite dget_dset_eq. reflexivity.
        * destruct (P1 t) as [(r & a' & G1 & G2 & G3 & G4)|(G1 & G2)].
          -- left. exists r, a'. repeat split; auto. intros O. apply in_or_app. right. apply G4, O.
          -- right. split; [rewrite G1; unfold qcell; rewrite dget_dset_neq by congruence; reflexivity|]. intros v I0. apply in_app_or in I0. destruct I0 as [I0|I0]; [|apply G2, I0]. apply V1 in I0. destruct I0 as (-> & _). cbn. congruence.
      + intros v I0. apply in_app_or in I0. destruct I0 as [I0|I0].
        * apply V1 in I0. destruct I0 as (-> & O). exists t0, r0. cbn [dget]. rewrite eqb_refl. auto.
        * destruct (P2 v I0) as (t & r & -> & G & O). exists t, r. split; [reflexivity|]. split; [|exact O]. cbn [dget]. destruct (eqb_spec t t0) as [->|_]; [congruence|exact G].
  Qed.
  Definition entry (l : blog) (m t : string) : option lref := match dget m l with Some e => dget t e | None => None end.
  Definition log_wf (l : blog) : Prop := NoDup (dkeys l) /\ forall m e, dget m l = Some e -> NoDup (dkeys e).
  Definition sample_puts (h : heap) (l : blog) (i : did) (k : nat) (vs : list view) (before after : nd array) : Prop :=
    deep after /\
    (forall m t, (exists r a, entry l m t = Some r /\ row_read k (u_d (deref h r)) = Ok a /\ sub_cell after m t = Some a /\ (own_cpu r -> In (View i m t (row_read k)) vs)) \/
                 (sub_cell after m t = sub_cell before m t /\ forall v, In v vs -> ~ (v_mod v = m /\ v_typ v = t))) /\
    forall v, In v vs -> exists m t r, v = View i m t (row_read k) /\ entry l m t = Some r /\ own_cpu r.
  Lemma sub_cell_q l m t : (forall m c, dget m l = Some c -> exists q, c = Node q) -> sub_cell (Node l) m t = qcell (match dget m l with Some (Node q) => q | _ => [] end) t.
  Proof. intros D. cbn [sub_cell]. destruct (dget m l) as [[a|q]|]; reflexivity. Qed.
  Lemma log_puts h i k : forall (l : blog) b n, log_wf l -> deep b ->
    exists b' n' ex, add_items (map (fun p => (fst p, Node (map (fun q => (fst q, Leaf (enc (u_d (deref h (snd q)))))) (snd p)))) l) b n k = (b', n', ex) /\
      (snd (row_views h (log_refs l) i k) = true <-> ex = None) /\ sample_puts h l i k (fst (row_views h (log_refs l) i k)) b b'.
  Proof.
    induction l as [|[m0 e0] l IH]; intros b n (N & NE) Db.
    - exists b, n, None. split; [reflexivity|]. split; [cbn; tauto|]. split; [exact Db|]. split; [intros m t; right; split; [reflexivity|intros v []]|intros v []].
    - destruct Db as (lb & -> & Db). inversion N as [|? ? N1 N2]; subst. cbn [map fst snd add_items].
      assert (N0 : NoDup (dkeys e0)) by (apply (NE m0); cbn [dget]; rewrite eqb_refl; reflexivity).
      assert (Nm : dget m0 l = None) by (apply dget_None_keys; exact N1).
      assert (Wl : log_wf l) by (split; [exact N2|]; intros m e G; apply (NE m); cbn [dget]; destruct (eqb_spec m m0) as [->|_]; [congruence|exact G]).
      assert (Q : exists q, match dget m0 lb with Some s => s | None => Node [] end = Node q /\ forall t, qcell q t = sub_cell (Node lb) m0 t).
      { cbn [sub_cell]. destruct (dget m0 lb) as [c|] eqn:Ec; [|exists []; split; [reflexivity|reflexivity]]. destruct (Db m0 c Ec) as (q & ->). exists q. split; [reflexivity|reflexivity]. }
      destruct Q as (q & -> & Qc). rewrite add_log_items.
      destruct (module_puts h i k m0 e0 q 0 N0) as (q' & n' & ex & E & B & (P1 & P2)). rewrite E. unfold log_refs. cbn [map concat fst snd]. fold (log_refs l). rewrite row_views_app.
      destruct (row_views h (map (pair m0) e0) i k) as [v1 b1]. cbn [fst snd] in *.
      assert (Dd : forall q2 m c, dget m (dset m0 (Node q2) lb) = Some c -> exists q3, c = Node q3). { intros q2 m c. rewrite dget_dset. destruct (eqb m m0); [intros [= <-]; eauto|apply Db]. }
      assert (Own1 : forall v, In v v1 -> exists m t r, v = View i m t (row_read k) /\ entry ((m0, e0) :: l) m t = Some r /\ own_cpu r).
      { intros v I0. destruct (P2 v I0) as (t & r & -> & G & O). exists m0, t, r. split; [reflexivity|]. unfold entry. cbn [dget]. rewrite eqb_refl. auto. }
      assert (Mod1 : forall v, In v v1 -> v_mod v = m0). { intros v I0. destruct (P2 v I0) as (t & r & -> & _). reflexivity. }
      assert (S1 : forall t, sub_cell (Node (dset m0 (Node q') lb)) m0 t = qcell q' t). { intros t. cbn [sub_cell]. rewrite dget_dset_eq. reflexivity. }
      assert (S2 : forall m t, m <> m0 -> sub_cell (Node (dset m0 (Node q') lb)) m t = sub_cell (Node lb) m t). { intros m t Ne. cbn [sub_cell]. rewrite dget_dset_neq by congruence. reflexivity. }
      destruct ex as [er|].
      + assert (b1 = false) as -> by (destruct b1; [destruct B as (B & _); discriminate (B eq_refl)|reflexivity]). cbn [andb]. eexists. eexists. exists (Some er). split; [reflexivity|]. split; [split; discriminate|]. cbn [fst snd].
        split; [eexists; split; [reflexivity|]; apply Dd|]. split; [|exact Own1]. intros m t. destruct (string_dec m m0) as [->|Ne].
        * destruct (P1 t) as [(r & a & G1 & G2 & G3 & G4)|(G1 & G2)].
          -- left. exists r, a. split; [unfold entry; cbn [dget]; rewrite eqb_refl; exact G1|]. split; [exact G2|]. split; [rewrite S1; exact G3|exact G4].
          -- right. split; [rewrite S1, G1; apply Qc|]. intros v I0 (_ & Z). exact (G2 v I0 Z).
        * right. split; [apply S2, Ne|]. intros v I0 (Z & _). apply Mod1 in I0. congruence.
      + assert (b1 = true) as -> by (apply B; reflexivity). cbn [andb].
        destruct (IH (Node (dset m0 (Node q') lb)) (n + n') Wl) as (b2 & n2 & ex2 & E2 & B2 & (D2 & C2 & O2)); [eexists; split; [reflexivity|]; apply Dd|].
        exists b2, n2, ex2. split; [exact E2|]. split; [exact B2|]. cbn [fst snd]. split; [exact D2|]. split.
        * intros m t. destruct (C2 m t) as [(r & a & G1 & G2 & G3 & G4)|(G1 & G2)].
          -- left. exists r, a. split; [|split; [exact G2|split; [exact G3|intros O; apply in_or_app; right; apply G4, O]]]. unfold entry in *. cbn [dget]. destruct (eqb_spec m m0) as [->|_]; [rewrite Nm in G1; discriminate G1|exact G1].
          -- destruct (string_dec m m0) as [->|Ne].
             ++ rewrite S1 in G1. destruct (P1 t) as [(r & a & J1 & J2 & J3 & J4)|(J1 & J2)].
                ** left. exists r, a. split; [unfold entry; cbn [dget]; rewrite eqb_refl; exact J1|]. split; [exact J2|]. split; [rewrite G1; exact J3|]. intros O. apply in_or_app. left. apply J4, O.
                ** right. split; [rewrite G1, J1; apply Qc|]. intros v I0. apply in_app_or in I0. destruct I0 as [I0|I0]; [intros (_ & Z); exact (J2 v I0 Z)|apply G2, I0].
             ++ rewrite S2 in G1 by exact Ne. right. split; [exact G1|]. intros v I0. apply in_app_or in I0. destruct I0 as [I0|I0]; [intros (Z & _); apply Mod1 in I0; congruence|apply G2, I0].
        * intros v I0. apply in_app_or in I0. destruct I0 as [I0|I0]; [apply Own1, I0|]. destruct (O2 v I0) as (m & t & r & -> & G & O). exists m, t, r. split; [reflexivity|]. split; [|exact O].
          unfold entry in *. cbn [dget]. destruct (eqb_spec m m0) as [->|_]; [rewrite Nm in G; discriminate G|exact G].
  Qed.

  (** ---- what a batch puts ---- *)
  Definition good_view (h : heap) (l : blog) (buf : dict did (nd array)) (v : view) : Prop :=
    exists k r a, v = View (v_id v) (v_mod v) (v_typ v) (row_read k) /\ entry l (v_mod v) (v_typ v) = Some r /\ own_cpu r /\ row_read k (u_d (deref h r)) = Ok a /\ cell buf (v_id v) (v_mod v) (v_typ v) = Some a.
  Lemma same_row_spec (v w : view) : same_row v w = true <-> v_id v = v_id w /\ v_mod v = v_mod w /\ v_typ v = v_typ w.
  Proof.
    unfold same_row. change (did_eqb (v_id v) (v_id w)) with (eqb (v_id v) (v_id w)). destruct (eqb_spec (v_id v) (v_id w)) as [E1|E1]; [|cbn; split; [discriminate|tauto]]. destruct (String.eqb_spec (v_mod v) (v_mod w)) as [E2|E2]; [|cbn; split; [discriminate|tauto]].
    destruct (String.eqb_spec (v_typ v) (v_typ w)) as [E3|E3]; cbn; split; auto; [discriminate|tauto].
  Qed.
  Lemma add_views_in (new vs : list view) v : In v (fold_left add_view new vs) -> In v new \/ (In v vs /\ forall w, In w new -> same_row w v = false).
  Proof.
    revert vs. induction new as [|w new IH]; intros vs I0; cbn [fold_left] in I0; [right; split; [exact I0|intros w []]|]. apply IH in I0. destruct I0 as [I0|(I0 & K)]; [left; right; exact I0|].
    unfold add_view in I0. apply in_app_or in I0. destruct I0 as [I0|[<-|[]]]; [|left; left; reflexivity]. apply filter_In in I0. destruct I0 as (I0 & Z). right. split; [exact I0|]. intros u [<-|I1]; [apply Bool.negb_true_iff; exact Z|apply K, I1].
  Qed.
  Lemma add_views_has (new vs : list view) v : In v new -> exists w, In w (fold_left add_view new vs) /\ same_row v w = true.
  Proof.
    revert vs. assert (Keep : forall new vs (v : view), (exists w, In w vs /\ same_row v w = true) -> exists w, In w (fold_left add_view new vs) /\ same_row v w = true).
    { clear. induction new as [|u new IH]; intros vs v (w & I0 & E); [exists w; auto|]. cbn [fold_left]. apply IH. destruct (same_row u w) eqn:E2.
      - exists u. split; [apply in_or_app; right; left; reflexivity|]. apply same_row_spec in E, E2. apply same_row_spec. intuition congruence.
      - exists w. split; [|exact E]. apply in_or_app. left. apply filter_In. rewrite E2. auto. }
    induction new as [|u new IH]; intros vs; [intros []|]. cbn [fold_left]. intros [->|I0]; [|apply IH, I0]. apply Keep. exists v. split; [apply in_or_app; right; left; reflexivity|apply same_row_spec; auto].
  Qed.
  Lemma batch_puts h (l : blog) : log_wf l -> forall ids k s s' o vs, two_deep (s_buffer s) -> (forall v, In v vs -> good_view h l (s_buffer s) v) ->
    buffer_write_from (log_nd enc h l) ids k s = (s', o) ->
    two_deep (s_buffer s') /\ (forall v, In v (fold_left add_view (batch_views h (log_refs l) ids k) vs) -> good_view h l (s_buffer s') v).
  Proof.
    intros W. induction ids as [|i ids IH]; intros k s s' o vs D G E.
    - injection E as <- _. split; [exact D|exact G].
    - cbn [buffer_write_from] in E. unfold log_nd in E. rewrite add_log_items in E.
      set (cur := match dget i (s_buffer s) with Some x => x | None => Node [] end) in *.
      assert (Dc : deep cur) by (unfold cur; destruct (dget i (s_buffer s)) as [c|] eqn:Ec; [exact (D i c Ec)|exact deep_nil]).
      destruct (log_puts h i k l cur 0 W Dc) as (b' & n' & ex & E1 & B & (D2 & C2 & O2)). rewrite E1 in E. cbn [ModelLogger.batch_views]. destruct (row_views h (log_refs l) i k) as [v1 b1]. cbn [fst snd] in *.
      set (s1 := Saver _ _ _ _ _ _ _) in E.
      assert (Dn : two_deep (s_buffer s1)). { intros j c. unfold s1. cbn [s_buffer]. rewrite dget_dset. destruct (eqb j i); [intros [= <-]; exact D2|apply D]. }
      assert (Gn : forall v, In v (fold_left add_view v1 vs) -> good_view h l (s_buffer s1) v).
      { intros v I0. apply add_views_in in I0. destruct I0 as [I0|(I0 & K)].
        - destruct (O2 v I0) as (m & t & r & -> & Ge & O). destruct (C2 m t) as [(r' & a & G1 & G2 & G3 & _)|(_ & G2)]; [|exfalso; apply (G2 _ I0); auto].
          assert (r' = r) as -> by congruence. exists k, r, a. cbn [v_id v_mod v_typ]. repeat split; auto. unfold cell, s1. cbn [s_buffer]. rewrite dget_dset_eq. exact G3.
        - destruct (G v I0) as (k0 & r & a & Ev & Ge & O & R & Cl). exists k0, r, a. split; [exact Ev|]. split; [exact Ge|]. split; [exact O|]. split; [exact R|]. unfold cell, s1 in *. cbn [s_buffer]. rewrite dget_dset.
          destruct (eqb_spec (v_id v) i) as [Ei|_]; [|exact Cl]. destruct (C2 (v_mod v) (v_typ v)) as [(r' & a' & G1 & G2 & G3 & G4)|(G1 & _)].
          + exfalso. assert (r' = r) as -> by congruence. specialize (K _ (G4 O)). assert (Z : same_row (View i (v_mod v) (v_typ v) (row_read k)) v = true) by (apply same_row_spec; cbn; auto). congruence.
          + rewrite G1. unfold cur. rewrite <- Ei. destruct (dget (v_id v) (s_buffer s)); [exact Cl|discriminate Cl]. }
      destruct ex as [er|].
      + assert (b1 = false) as -> by (destruct b1; [destruct B as (B & _); discriminate (B eq_refl)|reflexivity]). injection E as <- _. rewrite app_nil_r. split; [exact Dn|exact Gn].
      + assert (b1 = true) as -> by (apply B; reflexivity). rewrite fold_left_app. apply (IH (S k) s1 s' o); [exact Dn|exact Gn|exact E].
  Qed.

  (** saving for the first time in a batch *)
  Lemma flush_serial_buffer d s d' s' r : flush_serialized d s = (d', s', r) -> s_buffer s' = s_buffer s \/ s_buffer s' = [].
  Proof. unfold flush_serialized. destruct (s_buffer s) eqn:E; [intros [= _ <- _]; rewrite E; auto|]. destruct (write _ _ _ _) as [d1 [u|e]]; intros [= _ <- _]; [right; reflexivity|left; exact E]. Qed.
  Lemma flush_buffer d s d' s' r : flush d s = (d', s', r) -> s_buffer s' = s_buffer s \/ s_buffer s' = [].
  Proof. unfold flush. destruct (_ && _)%bool; [|intros [= _ <- _]; auto]. destruct (1 <? s_workers s)%Z; [cbn; intros [= _ <- _]; right; reflexivity|apply flush_serial_buffer]. Qed.
  Lemma save_synced (x x1 : lx) r : x_views x = [] -> log_wf (x_log x) -> two_deep (s_buffer (x_saver x)) -> lx_save_log enc x = (x1, r) ->
    settle x1 = x_saver x1 /\ two_deep (s_buffer (x_saver x1)).
  Proof.
    intros V W D E. unfold lx_save_log in E. destruct (x_ids x) as [ids|]; [|injection E as <- _; split; [apply settle_none, V|exact D]].
    rewrite (settle_none x V) in E. destruct (save_log _ _ _ _) as [[d' s'] o] eqn:Es. apply (f_equal fst) in E. cbn [fst] in E. subst x1. rewrite V.
    unfold save_log, buffer_write in Es. destruct (buffer_write_from _ ids 0 (x_saver x)) as [s1 o1] eqn:Eb.
    destruct (batch_puts (x_heap x) (x_log x) W ids 0 _ _ _ [] D (fun v (i : In v []) => match i with end) Eb) as (D1 & G).
    assert (Bf : s_buffer s' = s_buffer s1 \/ s_buffer s' = []). { destruct o1; [exact (flush_buffer _ _ _ _ _ Es)|injection Es as _ <- _; auto]. }
    split; [|change (two_deep (s_buffer s')); destruct Bf as [-> | ->]; [exact D1|intros i b; discriminate]].
    apply settle_synced. intros v a. cbn [x_views with_views x_saver with_store]. unfold views_left. destruct (s_buffer s') as [|c bs] eqn:Eb'; [intros []|]. destruct Bf as [Bf|Bf]; [|discriminate Bf]. rewrite Bf. intros I0 L.
    destruct (G v I0) as (k & rr & a' & Ev & Ge & O & R & Cl). rewrite Cl. revert L. unfold look, log_at. cbn [x_log x_heap with_views with_store]. change (match dget (v_mod v) (x_log x) with Some l => dget (v_typ v) l | None => None end) with (entry (x_log x) (v_mod v) (v_typ v)). rewrite Ge.
    rewrite Ev. cbn [v_read]. rewrite R. congruence.
  Qed.

  (** ---- what events do to the log, given what one tensor does ---- *)
  Variable kind : mid -> mkind.
  Variable eigh : tensor -> res (tensor * tensor).
  Section Rel.
    Variable R : lx -> lx -> Prop.
    Hypothesis Rsame : forall x x', x_log x' = x_log x -> R x x'.
    Hypothesis Rtrans : forall x y z, R x y -> R y z -> R x z.
    Hypothesis Rput : forall m t r x x' o, log_put m t r x = (x', o) -> R x x'.
    Let Rrefl x : R x x := Rsame x x eq_refl.
    Lemma plugins_rel (l : list plugin) mo m t d x x' o : seach (fun p => run_plugin eigh p mo m t d) l x = (x', o) -> R x x'.
    Proof.
      apply (seach_rel R Rrefl Rtrans). intros p y y' o' _ E. destruct p; try (pose proof (on_state_only _ _ _ _ E) as E0; apply Rsame; rewrite E0; reflexivity).
      cbn in E. destruct d as [r|]; [exact (Rput _ _ _ _ _ _ E)|]. injection E as <- _. apply Rrefl.
    Qed.
    Lemma forward_hook_rel gm m n ins x x' o : forward_hook kind eigh gm m n ins x = (x', o) -> R x x'.
    Proof.
      unfold forward_hook. destruct ins as [|t [|t' r]]; try (intros [= <- _]; apply Rrefl).
      apply (sbind_rel R Rtrans); [intros y o' [= <- _]; apply Rrefl|]. intros a y y' o'. apply plugins_rel.
    Qed.
    Lemma backward_hook_rel m n gs x x' o : backward_hook kind eigh m n gs x = (x', o) -> R x x'.
    Proof. unfold backward_hook. destruct gs as [|t [|t' r]]; try (intros [= <- _]; apply Rrefl). apply plugins_rel. Qed.
    Lemma grad_tensor_hook_rel m n i g x x' o : grad_tensor_hook kind eigh m n i g x = (x', o) -> R x x'.
    Proof.
      unfold grad_tensor_hook. destruct (o_grad (x_opt x)) as [|p r] eqn:Eg; [intros [= <- _]; apply Rrefl|].
      destruct (plugin_eqb p PLog); [|intros [= <- _]; apply Rrefl]. rewrite <- Eg. clear Eg.
      apply (sbind_rel R Rtrans); [intros y o' [= <- _]; apply Rrefl|]. intros a y y' o'. apply plugins_rel.
    Qed.
    Lemma grad_hook_rel m n ins out x x' o : grad_hook m n ins out x = (x', o) -> R x x'.
    Proof.
      unfold grad_hook. destruct ins as [|i [|i' r]]; try (intros [= <- _]; apply Rrefl). destruct out; try (intros [= <- _]; apply Rrefl).
      unfold register_tensor_hook. destruct (u_req _); intros [= <- _]; apply Rsame; reflexivity.
    Qed.
    Lemma ev_rel e x x' o : run_ev kind eigh e x = (x', o) -> R x x'.
    Proof.
      destruct e as [t u|c m ins out gm|t g|c gs|e]; cbn [ModelLogger.run_ev].
      - intros [= <- _]. apply Rsame. reflexivity.
      - apply (sbind_rel R Rtrans); [intros y o' [= <- _]; apply Rsame; reflexivity|]. intros [] y y' o'. apply (sbind_rel R Rtrans); [intros z o1 [= <- _]; apply Rrefl|]. intros z0 z z' o1. apply (sbind_rel R Rtrans).
        + intros w o2. apply (seach_rel R Rrefl Rtrans). intros n v v' o3 _. apply forward_hook_rel.
        + assert (G : forall out w w' o2, ((let! x := sget in seach (fun n => grad_hook m n ins out) (fwd_of m (x_reg x))) w : lx * res unit) = (w', o2) -> R w w').
          { intros out0 w w' o2. apply (sbind_rel R Rtrans); [intros v1 o4 [= <- _]; apply Rrefl|]. intros v0 v1 v2 o4. apply (seach_rel R Rrefl Rtrans). intros n y1 y2 o5 _. apply grad_hook_rel. }
          intros [] w w' o2. destruct out as [t u| |e].
          * apply (sbind_rel R Rtrans); [intros v o3 [= <- _]; apply Rsame; reflexivity|]. intros [] v v' o3. apply G.
          * apply G.
          * intros [= <- _]. apply Rrefl.
      - apply (sbind_rel R Rtrans); [intros y o' [= <- _]; apply Rrefl|]. intros z y y' o'. apply (seach_rel R Rrefl Rtrans). intros h v v' o3 _. destruct h; try (intros [= <- _]; apply Rrefl); [apply grad_tensor_hook_rel|apply plugins_rel].
      - apply (sbind_rel R Rtrans); [intros y o' [= <- _]; apply Rrefl|]. intros z y y' o'. apply (seach_rel R Rrefl Rtrans). intros h v v' o3 _. destruct h; try (intros [= <- _]; apply Rrefl). apply backward_hook_rel.
      - intros [= <- _]. apply Rrefl.
    Qed.
    Lemma evs_rel es x x' o : run_evs kind eigh es x = (x', o) -> R x x'.
    Proof. apply (seach_rel R Rrefl Rtrans). intros e y y' o' _. apply ev_rel. Qed.
  End Rel.
  (** the log stays a dictionary of dictionaries *)
  Definition wfs (x x' : lx) : Prop := log_wf (x_log x) -> log_wf (x_log x').
  Lemma wf_dset (l : blog) m t r : log_wf l -> log_wf (dset m (dset t r (match dget m l with Some e => e | None => [] end)) l).
  Proof.
    intros (N & NE). split; [apply nodup_dset, N|]. intros m' e. rewrite dget_dset. destruct (eqb m' m); [|apply NE]. intros [= <-]. apply nodup_dset. destruct (dget m l) as [e|] eqn:E; [exact (NE m e E)|constructor].
  Qed.
  Lemma put_wf m t r x x' o : log_put m t r x = (x', o) -> wfs x x'.
  Proof.
    unfold log_put. cbv zeta. destruct (dget t _) as [old|].
    - destruct (iadd_ _ _) as [new|e].
      + destruct old as [u|i]; intros [= <- _] W; [apply wf_dset, W|exact W].
      + intros [= <- _] W. exact W.
    - intros [= <- _] W. apply wf_dset, W.
  Qed.
  Lemma evs_wf es x x' o : run_evs kind eigh es x = (x', o) -> wfs x x'.
  Proof.
    apply (evs_rel wfs).
    - intros y y' E W. rewrite E. exact W.
    - unfold wfs. auto.
    - exact put_wf.
  Qed.
  (** an entry only the log holds stays one, on its device *)
  Definition owns (x x' : lx) : Prop := forall m t u, log_at x m t = Some (Own u) -> exists u', log_at x' m t = Some (Own u') /\ fst (u_d u') = fst (u_d u).
  Lemma iadd_dev (a b c : dten) : iadd_ a b = Ok c -> fst c = fst a.
  Proof. unfold iadd_. destruct (dev_eqb _ _); [|discriminate]. destruct (if same_shape _ _ then _ else _); [|discriminate]. intros [= <-]. reflexivity. Qed.
  Lemma evs_owns es x x' o : run_evs kind eigh es x = (x', o) -> owns x x'.
  Proof.
    apply (evs_rel owns).
    - intros y y' E m t u G. exists u. unfold log_at in *. rewrite E. auto.
    - intros y z w G1 G2 m t u G. destruct (G1 m t u G) as (u1 & K1 & K2). destruct (G2 m t u1 K1) as (u2 & K3 & K4). exists u2. split; [exact K3|congruence].
    - intros m0 t0 r y y' o' E m t u G. unfold log_put in E. cbv zeta in E.
      assert (Put : forall r', dget t0 (match dget m0 (x_log y) with Some l => l | None => [] end) <> Some (Own u) \/ (m, t) <> (m0, t0) \/ (exists u', r' = Own u' /\ fst (u_d u') = fst (u_d u)) ->
        (m, t) <> (m0, t0) \/ (exists u', r' = Own u' /\ fst (u_d u') = fst (u_d u)) ->
        exists u', log_at (with_log y (dset m0 (dset t0 r' (match dget m0 (x_log y) with Some l => l | None => [] end)) (x_log y))) m t = Some (Own u') /\ fst (u_d u') = fst (u_d u)).
      { intros r' _ K. unfold log_at in *. cbn [x_log with_log with_batch]. rewrite dget_dset. destruct (eqb_spec m m0) as [->|Nm]; [|exists u; auto]. rewrite dget_dset. destruct (eqb_spec t t0) as [->|Nt].
        - destruct K as [K|(u' & -> & K)]; [congruence|eauto].
        - exists u. split; [|reflexivity]. destruct (dget m0 (x_log y)); [exact G|discriminate G]. }
      destruct (dget t0 (match dget m0 (x_log y) with Some l => l | None => [] end)) as [old|] eqn:Eo.
      + destruct (iadd_ (u_d (deref (x_heap y) old)) (u_d (deref (x_heap y) r))) as [new|er] eqn:Ei; [|injection E as <- _; eauto]. apply iadd_dev in Ei. destruct old as [v|i].
        * apply (f_equal fst) in E. cbn [fst] in E. subst y'. destruct (string_dec m m0) as [Em|Nm]; [destruct (string_dec t t0) as [Et|Nt]|].
          -- subst m0 t0. apply Put; [right; right|right]; (eexists; split; [reflexivity|]); cbn [u_d]; rewrite Ei; cbn [deref]; unfold log_at in G; destruct (dget m (x_log y)) as [l|]; try discriminate G; rewrite G in Eo; injection Eo as <-; reflexivity.
          -- apply Put; [right; left|left]; congruence.
          -- apply Put; [right; left|left]; congruence.
        * injection E as <- _. exists u. auto.
      + apply (f_equal fst) in E. cbn [fst] in E. subst y'. assert (Ne : (m, t) <> (m0, t0)). { intros [= -> ->]. unfold log_at in G. destruct (dget m0 (x_log y)) as [l|]; [rewrite G in Eo|]; discriminate. }
        apply Put; [right; left|left]; exact Ne.
  Qed.

  (** ---- the buffer after more events ---- *)
  Lemma evs_keep es x x' o : run_evs kind eigh es x = (x', o) -> x_views x' = x_views x /\ x_saver x' = x_saver x /\ x_dir x' = x_dir x.
  Proof. intros E. apply run_evs_grows in E. destruct E as (c & s & l & h & hs & ->). repeat split. Qed.
  Definition apart (vs : list view) : Prop := ForallOrdPairs (fun v w => same_row v w = false) vs.
  Lemma apart_in vs v w : apart vs -> In v vs -> In w vs -> same_row v w = true -> v = w.
  Proof.
    assert (Sym : forall a b : view, same_row a b = same_row b a).
    { intros a b. destruct (same_row a b) eqn:E1, (same_row b a) eqn:E2; try reflexivity; [apply same_row_spec in E1|apply same_row_spec in E2].
      - assert (same_row b a = true) by (apply same_row_spec; intuition congruence). congruence.
      - assert (same_row a b = true) by (apply same_row_spec; intuition congruence). congruence. }
    intros A. induction A as [|u vs Fu A IH]; [intros []|]. rewrite Forall_forall in Fu. intros [->|I1] [->|I2] E; auto.
    - specialize (Fu _ I2). congruence.
    - specialize (Fu _ I1). rewrite Sym in E. congruence.
  Qed.
  Lemma apart_app vs (v : view) : apart vs -> (forall w, In w vs -> same_row w v = false) -> apart (vs ++ [v]).
  Proof. intros A. induction A as [|u vs Fu A IH]; intros K; [repeat constructor|]. constructor; [|apply IH; intros w I0; apply K; right; exact I0]. apply Forall_app. split; [exact Fu|]. constructor; [apply K; left; reflexivity|constructor]. Qed.
  Lemma apart_filter vs (f : view -> bool) : apart vs -> apart (filter f vs).
  Proof. intros A. induction A as [|u vs Fu A IH]; [constructor|]. cbn [filter]. destruct (f u); [|exact IH]. constructor; [|exact IH]. apply Forall_forall. intros w I0. apply filter_In in I0. rewrite Forall_forall in Fu. apply Fu. tauto. Qed.
  Lemma apart_add new vs : apart vs -> apart (fold_left add_view new vs).
  Proof.
    revert vs. induction new as [|v new IH]; intros vs A; [exact A|]. cbn [fold_left]. apply IH. unfold add_view. apply apart_app; [apply apart_filter, A|]. intros w I0. apply filter_In in I0. destruct I0 as (_ & Z). apply Bool.negb_true_iff in Z.
    destruct (same_row w v) eqn:E; [|reflexivity]. apply same_row_spec in E. assert (same_row v w = true) by (apply same_row_spec; intuition congruence). congruence.
  Qed.
  Lemma settle_cell (x : lx) v a : apart (x_views x) -> (forall w, In w (x_views x) -> cell (s_buffer (x_saver x)) (v_id w) (v_mod w) (v_typ w) <> None) ->
    In v (x_views x) -> look x v = Some a -> cell (s_buffer (settle x)) (v_id v) (v_mod v) (v_typ v) = Some a.
  Proof.
    unfold settle. cbn [s_buffer]. generalize (s_buffer (x_saver x)). intros b A. revert b.
    assert (Fix : forall vs b, (forall w, In w vs -> same_row w v = false) -> (forall w, In w vs -> cell b (v_id w) (v_mod w) (v_typ w) <> None) -> cell (fold_left (refresh x) vs b) (v_id v) (v_mod v) (v_typ v) = cell b (v_id v) (v_mod v) (v_typ v)).
    { induction vs as [|w vs IH]; intros b K P; [reflexivity|]. cbn [fold_left]. assert (Pw : exists a0, cell b (v_id w) (v_mod w) (v_typ w) = Some a0). { specialize (P w (or_introl eq_refl)). destruct (cell b _ _ _); [eauto|congruence]. } destruct Pw as (a0 & Pw).
      rewrite IH; [|intros u I0; apply K; right; exact I0|].
      - unfold refresh. destruct (look x w) as [a1|]; [|reflexivity]. rewrite (buf_put_cell _ _ _ a1 b _ _ _ a0 Pw). specialize (K w (or_introl eq_refl)). destruct (_ && _)%bool eqn:Z; [|reflexivity].
        exfalso. assert (same_row w v = true); [|congruence]. apply same_row_spec. apply andb_prop in Z. destruct Z as (Z1 & Z2). apply andb_prop in Z2. destruct Z2 as (Z2 & Z3). change (eqb (v_id v) (v_id w) = true) in Z1. destruct (eqb_spec (v_id v) (v_id w)); [|discriminate Z1]. apply String.eqb_eq in Z2, Z3. auto.
      - intros u I0. unfold refresh. destruct (look x w) as [a1|]; [|apply P; right; exact I0]. rewrite (buf_put_cell _ _ _ a1 b _ _ _ a0 Pw). destruct (_ && _)%bool; [discriminate|apply P; right; exact I0]. }
    induction A as [|u vs Fu A IH]; intros b P I0 L; [destruct I0|]. cbn [fold_left]. assert (Pu : exists a0, cell b (v_id u) (v_mod u) (v_typ u) = Some a0). { specialize (P u (or_introl eq_refl)). destruct (cell b _ _ _); [eauto|congruence]. } destruct Pu as (a0 & Pu).
    assert (Pn : forall w, In w vs -> cell (refresh x b u) (v_id w) (v_mod w) (v_typ w) <> None).
    { intros w I1. unfold refresh. destruct (look x u) as [a1|]; [|apply P; right; exact I1]. rewrite (buf_put_cell _ _ _ a1 b _ _ _ a0 Pu). destruct (_ && _)%bool; [discriminate|apply P; right; exact I1]. }
    destruct I0 as [->|I0]; [|apply IH; assumption]. rewrite Fix.
    - unfold refresh. rewrite L. rewrite (buf_put_cell _ _ _ a b _ _ _ a0 Pu). change (did_eqb (v_id v) (v_id v)) with (eqb (v_id v) (v_id v)). rewrite eqb_refl, !String.eqb_refl. reflexivity.
    - intros w I1. rewrite Forall_forall in Fu. specialize (Fu w I1). destruct (same_row w v) eqn:Z; [|reflexivity]. apply same_row_spec in Z. assert (same_row v w = true) by (apply same_row_spec; intuition congruence). congruence.
    - exact Pn.
  Qed.
  (** every row of every entry of the log is put when saving succeeds *)
  Lemma row_views_all h l i k : snd (row_views h l i k) = true -> forall m t u, In (m, (t, Own u)) l -> fst (u_d u) = Cpu -> In (View i m t (row_read k)) (fst (row_views h l i k)).
  Proof.
    induction l as [|[m0 [t0 r0]] l IH]; intros E m t u I0 C; [destruct I0|]. cbn [ModelLogger.row_views] in *. destruct (row_read k (u_d (deref h r0))); [|discriminate E]. destruct (row_views h l i k) as [vs b]. cbn [fst snd] in *.
    destruct I0 as [Q|I0].
    - injection Q as -> -> ->. rewrite C. left. reflexivity.
    - specialize (IH E m t u I0 C). destruct r0 as [v|]; [destruct (dev_eqb _ _); [right|]|]; exact IH.
  Qed.
  Lemma batch_views_from h l ids : forall k v, In v (batch_views h l ids k) -> exists j i m t, nth_error ids j = Some i /\ v = View i m t (row_read (k + j)).
  Proof.
    induction ids as [|i ids IH]; intros k v I0; [destruct I0|]. cbn [ModelLogger.batch_views] in I0. destruct (row_views h l i k) as [vs b] eqn:E. apply in_app_or in I0. destruct I0 as [I0|I0].
    - exists 0, i. assert (G : exists m t, v = View i m t (row_read k)); [|destruct G as (m & t & ->); exists m, t; rewrite Nat.add_0_r; auto].
      clear -I0 E. revert vs b E I0. induction l as [|[m0 [t0 r0]] l IH]; intros vs b E I0; cbn [ModelLogger.row_views] in E; [injection E as <- <-; destruct I0|]. destruct (row_read k (u_d (deref h r0))); [|injection E as <- <-; destruct I0]. destruct (row_views h l i k) as [vs' b']. injection E as <- <-.
      specialize (IH vs' b' eq_refl). destruct r0 as [w|]; [destruct (dev_eqb _ _); [destruct I0 as [<-|I0]; [eauto|]|]|]; apply IH, I0.
    - destruct b; [|destruct I0]. destruct (IH (S k) v I0) as (j & i' & m & t & N & ->). exists (S j), i', m, t. split; [exact N|]. rewrite Nat.add_succ_r. reflexivity.
  Qed.
  Lemma batch_views_all h (l : blog) : log_wf l -> forall ids k s s', two_deep (s_buffer s) -> buffer_write_from (log_nd enc h l) ids k s = (s', Ok tt) ->
    forall j i m t u, nth_error ids j = Some i -> entry l m t = Some (Own u) -> fst (u_d u) = Cpu -> In (View i m t (row_read (k + j))) (batch_views h (log_refs l) ids k).
  Proof.
    intros W. induction ids as [|i0 ids IH]; intros k s s' D E j i m t u N Ge C; [destruct j; discriminate N|].
    cbn [buffer_write_from] in E. unfold log_nd in E. rewrite add_log_items in E. set (cur := match dget i0 (s_buffer s) with Some x => x | None => Node [] end) in *.
    assert (Dc : deep cur) by (unfold cur; destruct (dget i0 (s_buffer s)) as [c|] eqn:Ec; [exact (D i0 c Ec)|exact deep_nil]).
    destruct (log_puts h i0 k l cur 0 W Dc) as (b' & n' & ex & E1 & B & (D2 & _)). rewrite E1 in E. destruct ex as [er|]; [discriminate E|]. cbn [ModelLogger.batch_views]. assert (B1 : snd (row_views h (log_refs l) i0 k) = true) by (apply B; reflexivity).
    assert (I0 : In (m, (t, Own u)) (log_refs l)). { unfold entry in Ge. destruct (dget m l) as [e|] eqn:Em; [|discriminate Ge]. unfold log_refs. apply in_concat. exists (map (pair m) e). split; [apply in_map_iff; exists (m, e); split; [reflexivity|apply dget_In, Em]|apply in_map, dget_In, Ge]. }
    destruct j as [|j]; cbn [nth_error] in N.
    - injection N as ->. pose proof (row_views_all h _ i k B1 m t u I0 C) as V. rewrite Nat.add_0_r. destruct (row_views h (log_refs l) i k) as [vs b]. apply in_or_app. left. exact V.
    - rewrite Nat.add_succ_r. destruct (row_views h (log_refs l) i0 k) as [vs b]. cbn [snd] in B1. subst b. apply in_or_app. right. refine (IH (S k) _ s' _ E j i m t u N Ge C). intros q c. cbn [s_buffer]. rewrite dget_dset. destruct (eqb q i0); [intros [= <-]; exact D2|apply D].
  Qed.
  Lemma rows_follow (x x1 x2 : lx) ids es o j i m t u : x_views x = [] -> log_wf (x_log x) -> two_deep (s_buffer (x_saver x)) ->
    lx_save_log enc x = (x1, Ok tt) -> s_buffer (x_saver x1) <> [] -> x_ids x = Some ids -> NoDup ids -> nth_error ids j = Some i ->
    log_at x m t = Some (Own u) -> fst (u_d u) = Cpu -> run_evs kind eigh es x1 = (x2, o) ->
    exists u', log_at x2 m t = Some (Own u') /\ forall a, row_read j (u_d u') = Ok a -> cell (s_buffer (settle x2)) i m t = Some a.
  Proof.
    intros V W D E NB Ei ND Nj G C Ev.
    assert (Log1 : x_log x1 = x_log x). { pose proof (lx_save_log_stores enc _ _ _ E) as (s & sv & d & vs & ->). reflexivity. }
    destruct (evs_owns es x1 x2 o Ev m t u) as (u' & G' & C'); [unfold log_at in *; rewrite Log1; exact G|]. exists u'. split; [exact G'|]. intros a R.
    destruct (evs_keep es x1 x2 o Ev) as (K1 & K2 & _).
    unfold lx_save_log in E. rewrite Ei, (settle_none x V), V in E. destruct (save_log _ _ _ _) as [[d' s'] r] eqn:Es. apply pair_equal_spec in E. destruct E as (<- & ->). cbn [x_saver with_views with_store x_views] in *.
    unfold save_log, buffer_write in Es. destruct (buffer_write_from _ ids 0 (x_saver x)) as [s1 [[]|e1]] eqn:Eb; [|discriminate Es].
    assert (Bf : s_buffer s' = s_buffer s1) by (destruct (flush_buffer _ _ _ _ _ Es) as [Bf|Bf]; [exact Bf|congruence]).
    destruct (batch_puts (x_heap x) (x_log x) W ids 0 _ _ _ [] D (fun v (i : In v []) => match i with end) Eb) as (_ & Gd).
    pose proof (batch_views_all (x_heap x) (x_log x) W ids 0 _ _ D Eb j i m t u Nj G C) as BV. cbn [Nat.add] in BV. set (new := batch_views (x_heap x) (log_refs (x_log x)) ids 0) in *.
    assert (VL : views_left s' (fold_left add_view new []) = fold_left add_view new []) by (unfold views_left; destruct (s_buffer s'); [congruence|reflexivity]). rewrite VL in K1. clear VL.
    assert (In0 : In (View i m t (row_read j)) (fold_left add_view new [])).
    { destruct (add_views_has new [] _ BV) as (w & Iw & Sw). pose proof Iw as Iw'. apply add_views_in in Iw'. destruct Iw' as [Iw'|([] & _)]. unfold new in Iw'. apply batch_views_from in Iw'. destruct Iw' as (j' & i' & m' & t' & Nj' & ->). apply same_row_spec in Sw. cbn [v_id v_mod v_typ] in Sw. destruct Sw as (<- & <- & <-).
      assert (j' = j) as ->; [|exact Iw]. apply (proj1 (NoDup_nth_error ids) ND); [apply nth_error_Some; congruence|congruence]. }
    apply (settle_cell x2 (View i m t (row_read j)) a).
    - rewrite K1. apply apart_add. constructor.
    - rewrite K1, K2. intros w Iw. rewrite Bf. destruct (Gd w Iw) as (k & rr & a' & _ & _ & _ & _ & Cl). congruence.
    - rewrite K1. exact In0.
    - unfold look. cbn [v_mod v_typ v_read]. rewrite G'. cbn [deref]. rewrite R. reflexivity.
  Qed.
End P.
