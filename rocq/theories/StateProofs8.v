(** Synchronisation across processes. *)
From Coq Require Import ZArith Permutation.
From Verif Require Import Py Field Tensor ModelGrad Monad ModelState SpecGrad SpecState GradProofs1 GradProofs2 StateProofs1 StateProofs2 StateProofs3 StateProofs4 StateProofs5 StateProofs6.
Local Open Scope nat_scope.

Section Proofs.
  Context {F : Type} `{OField F}.
  Add Field FfS8 : f_theory.
  Notation tensor := (tensor F).
  Notation sval := (@sval F).
  Notation lstate := (@lstate F).
  Notation dten := (@dten F).
  Notation binfo := (@binfo F).
  Notation call := (@call F).

  (** leaf-wise sum of two dictionaries with the same keys in the same order *)
  Fixpoint merge (x y : nd sval) {struct x} : res (nd sval) :=
    match x, y with
    | Leaf v, Leaf w => let* z := reduce2 v w in Ok (Leaf z)
    | Node d, Node e =>
        let* l := (fix go (l1 l2 : list (string * nd sval)) : res (list (string * nd sval)) :=
          match l1, l2 with
          | [], [] => Ok []
          | (k, a) :: r1, (k', b) :: r2 =>
              if String.eqb k k' then let* c := merge a b in let* r := go r1 r2 in Ok ((k, c) :: r) else Err KeyError
          | _, _ => Err KeyError
          end) d e in Ok (Node l)
    | _, _ => Err KeyError
    end.
  Fixpoint merge_list (l1 l2 : list (string * nd sval)) : res (list (string * nd sval)) :=
    match l1, l2 with
    | [], [] => Ok []
    | (k, a) :: r1, (k', b) :: r2 =>
        if String.eqb k k' then let* c := merge a b in let* r := merge_list r1 r2 in Ok ((k, c) :: r) else Err KeyError
    | _, _ => Err KeyError
    end.
  Lemma merge_node d e : merge (Node d) (Node e) = let* l := merge_list d e in Ok (Node l).
  Proof. reflexivity. Qed.
  Definition lleaves (l : list (string * nd sval)) : list sval := concat (map (fun p => leaves (snd p)) l).
  Lemma leaves_node d : leaves (Node d) = lleaves d.
  Proof. cbn [leaves]. unfold lleaves. induction d as [|[k y] r IH]; [reflexivity|]. cbn [map concat snd]. rewrite <- IH. reflexivity. Qed.
  Fixpoint lrefill (l : list (string * nd sval)) (vs : list sval) : list (string * nd sval) * list sval :=
    match l with
    | [] => ([], vs)
    | (k, y) :: r => let (y', vs1) := refill y vs in let (r', vs2) := lrefill r vs1 in ((k, y') :: r', vs2)
    end.
  Lemma refill_node d vs : refill (Node d) vs = let (d', r) := lrefill d vs in (Node d', r).
  Proof.
    cbn [refill]. match goal with |- (let (_, _) := ?g d vs in _) = _ => assert (E : forall l w, g l w = lrefill l w) end.
    { induction l as [|[k y] r IH]; intros w; [reflexivity|]. cbn [lrefill]. destruct (refill y w) as [y' w1]. rewrite IH. reflexivity. }
    rewrite E. reflexivity.
  Qed.
  Lemma zip_reduce_app a1 : forall b1 c1 a2 b2 c2, zip_reduce a1 b1 = Ok c1 -> zip_reduce (F:=F) a2 b2 = Ok c2 -> zip_reduce (a1 ++ a2) (b1 ++ b2) = Ok (c1 ++ c2).
  Proof.
    induction a1 as [|x a1 IH]; intros [|y b1] c1 a2 b2 c2 E1 E2; cbn [zip_reduce] in E1; try discriminate.
    - injection E1 as <-. exact E2.
    - destruct (reduce2 x y) as [z|] eqn:R; cbn [bind] in E1; [|discriminate]. destruct (zip_reduce a1 b1) as [r|] eqn:Z; cbn [bind] in E1; [|discriminate].
      injection E1 as <-. cbn [app zip_reduce]. rewrite R. cbn [bind]. rewrite (IH _ _ _ _ _ Z E2). reflexivity.
  Qed.
  Lemma merge_ok x : forall y z, merge x y = Ok z ->
    zip_reduce (leaves x) (leaves y) = Ok (leaves z) /\ forall vs, refill x (leaves z ++ vs) = (z, vs).
  Proof.
    induction x as [v|d IH] using nd_ind'; intros y z E.
    - destruct y as [w|]; [|discriminate]. cbn [merge] in E. destruct (reduce2 v w) as [u|] eqn:R; cbn [bind] in E; [|discriminate]. injection E as <-.
      cbn [leaves zip_reduce]. rewrite R. split; reflexivity.
    - destruct y as [|e]; [discriminate|]. rewrite merge_node in E. destruct (merge_list d e) as [l|] eqn:M; cbn [bind] in E; [|discriminate]. injection E as <-.
      assert (G : zip_reduce (lleaves d) (lleaves e) = Ok (lleaves l) /\ forall vs, lrefill d (lleaves l ++ vs) = (l, vs)).
      { revert e l M. induction d as [|[k a] r IHr]; intros e l M; destruct e as [|[k' b] r2]; cbn [merge_list] in M; try discriminate.
        - injection M as <-. split; reflexivity.
        - destruct (String.eqb_spec k k') as [<-|]; [|discriminate]. inversion IH as [|? ? Ha Hr]; subst. cbn [snd] in Ha.
          destruct (merge a b) as [c|] eqn:Mc; cbn [bind] in M; [|discriminate]. destruct (merge_list r r2) as [r'|] eqn:Mr; cbn [bind] in M; [|discriminate].
          injection M as <-. destruct (Ha b c Mc) as [A1 A2]. destruct (IHr Hr r2 r' Mr) as [B1 B2]. unfold lleaves in *. cbn [map concat snd]. split.
          + apply zip_reduce_app; assumption.
          + intros vs. cbn [lrefill]. rewrite <- app_assoc, A2, B2. reflexivity. }
      destruct G as [G1 G2]. rewrite !leaves_node. split; [exact G1|]. intros vs. rewrite refill_node, G2. reflexivity.
  Qed.

  (** two-level dictionaries *)
  Definition keys1 (y : nd sval) : list string := match y with Node e => dkeys e | Leaf _ => [] end.
  Definition sk (x : nd sval) : list (string * list string) := match x with Node d => map (fun p => (fst p, keys1 (snd p))) d | Leaf _ => [] end.
  Definition reduceo (a b : option sval) : res (option sval) :=
    match a, b with None, None => Ok None | Some v, Some w => let* z := reduce2 v w in Ok (Some z) | _, _ => Err KeyError end.
  Lemma merge_flat y1 y2 : flat y1 -> flat y2 -> keys1 y1 = keys1 y2 ->
    (forall t, exists z, reduceo (get1 y1 t) (get1 y2 t) = Ok z) ->
    exists y, merge y1 y2 = Ok y /\ flat y /\ keys1 y = keys1 y1 /\ forall t, reduceo (get1 y1 t) (get1 y2 t) = Ok (get1 y t).
  Proof.
    destruct y1 as [|e1]; [contradiction|]. destruct y2 as [|e2]; [contradiction|]. intros (N1 & F1) (N2 & F2) K R. rewrite merge_node.
    cbn [keys1] in K.
    assert (G : exists l, merge_list e1 e2 = Ok l /\ dkeys l = dkeys e1 /\ Forall (fun q => is_leaf (snd q)) l /\
       forall t, reduceo (get1 (Node e1) t) (get1 (Node e2) t) = Ok (get1 (Node l) t)).
    { clear N2. revert e2 F2 K R. induction e1 as [|[k a] r IH]; intros [|[k' b] r2] F2 K R; try discriminate K.
      - exists []. split; [reflexivity|]. split; [reflexivity|]. split; [constructor|]. intros t. reflexivity.
      - cbn [dkeys map fst] in K. injection K as <- K. inversion F1 as [|? ? Fa Fr]; subst. inversion F2 as [|? ? Fb Fr2]; subst. cbn [snd] in *.
        destruct a as [va|]; [|contradiction]. destruct b as [vb|]; [|contradiction]. cbn [dkeys map fst] in N1. inversion N1 as [|? ? Nk Nr]; subst.
        assert (Rk : exists z, reduce2 va vb = Ok z).
        { destruct (R k) as (z & Rz). cbn [get1 dget] in Rz. rewrite !eqb_refl in Rz. cbn [reduceo] in Rz. destruct (reduce2 va vb) as [u|]; [eauto|discriminate]. }
        destruct Rk as (z & Rk).
        destruct (IH Nr Fr r2 Fr2 K) as (l & M & Kl & Fl & V).
        { intros t. destruct (eqb_spec t k) as [->|Nt].
          - exists None. unfold dkeys in K. cbn [get1]. rewrite (proj2 (dget_None_keys k r)), (proj2 (dget_None_keys k r2)); [reflexivity| |exact Nk]. unfold dkeys. rewrite <- K. exact Nk.
          - destruct (R t) as (w & Rw). cbn [get1 dget] in Rw. rewrite (eqb_neq t k Nt) in Rw. exists w. exact Rw. }
        exists ((k, Leaf z) :: l). cbn [merge_list merge]. rewrite String.eqb_refl, Rk. cbn [bind]. rewrite M. cbn [bind]. split; [reflexivity|].
        split; [cbn [dkeys map fst]; f_equal; exact Kl|]. split; [constructor; [exact Logic.I|exact Fl]|].
        intros t. cbn [get1 dget]. destruct (eqb_spec t k) as [->|Nt]; [cbn [reduceo]; rewrite Rk; reflexivity|]. apply V. }
    destruct G as (l & M & Kl & Fl & V). rewrite M. cbn [bind]. exists (Node l). split; [reflexivity|]. split; [split; [rewrite Kl; exact N1|exact Fl]|].
    split; [exact Kl|exact V].
  Qed.
  Lemma merge_two x1 x2 : two x1 -> two x2 -> sk x1 = sk x2 ->
    (forall m t, exists z, reduceo (get2 x1 m t) (get2 x2 m t) = Ok z) ->
    exists x, merge x1 x2 = Ok x /\ two x /\ sk x = sk x1 /\ forall m t, reduceo (get2 x1 m t) (get2 x2 m t) = Ok (get2 x m t).
  Proof.
    destruct x1 as [|d1]; [contradiction|]. destruct x2 as [|d2]; [contradiction|]. intros (N1 & F1) (N2 & F2) K R. rewrite merge_node. cbn [sk] in K.
    assert (G : exists l, merge_list d1 d2 = Ok l /\ dkeys l = dkeys d1 /\ sk (Node l) = sk (Node d1) /\ Forall (fun q => flat (snd q)) l /\
       forall m t, reduceo (get2 (Node d1) m t) (get2 (Node d2) m t) = Ok (get2 (Node l) m t)).
    { clear N2. revert d2 F2 K R. induction d1 as [|[k a] r IH]; intros [|[k' b] r2] F2 K R; try discriminate K.
      - exists []. repeat split. constructor.
      - cbn [map fst snd] in K. injection K as <- Kk K. inversion F1 as [|? ? Fa Fr]; subst. inversion F2 as [|? ? Fb Fr2]; subst. cbn [snd] in *.
        cbn [dkeys map fst] in N1. inversion N1 as [|? ? Nk Nr]; subst.
        assert (Kd : dkeys r = dkeys r2). { apply (f_equal (map fst)) in K. rewrite !map_map in K. exact K. }
        destruct (merge_flat a b Fa Fb Kk) as (c & Mc & Fc & Kc & Vc).
        { intros t. destruct (R k t) as (z & Rz). unfold get2 in Rz. cbn [sub dget] in Rz. rewrite !eqb_refl in Rz. eauto. }
        destruct (IH Nr Fr r2 Fr2 K) as (l & M & Kl & Sl & Fl & V).
        { intros m t. destruct (eqb_spec m k) as [->|Nt].
          - exists None. unfold get2. cbn [sub]. rewrite (proj2 (dget_None_keys k r)), (proj2 (dget_None_keys k r2)); [reflexivity| |exact Nk]. rewrite <- Kd. exact Nk.
          - destruct (R m t) as (w & Rw). unfold get2 in Rw. cbn [sub dget] in Rw. rewrite (eqb_neq m k Nt) in Rw. exists w. exact Rw. }
        exists ((k, c) :: l). cbn [merge_list]. rewrite String.eqb_refl, Mc. cbn [bind]. rewrite M. cbn [bind]. split; [reflexivity|].
        split; [cbn [dkeys map fst]; f_equal; exact Kl|]. split; [cbn [sk map fst snd] in *; rewrite Kc; f_equal; exact Sl|]. split; [constructor; [exact Fc|exact Fl]|].
        intros m t. unfold get2 in *. cbn [sub dget]. destruct (eqb_spec m k) as [->|Nt]; [apply Vc|]. apply V. }
    destruct G as (l & M & Kl & Sl & Fl & V). rewrite M. cbn [bind]. exists (Node l). split; [reflexivity|]. split; [split; [rewrite Kl; exact N1|exact Fl]|].
    split; [exact Sl|exact V].
  Qed.

  (** what a pair of dictionaries records *)
  Definition recd (st : stat) (x c : nd sval) (done : list call) : Prop :=
    two x /\ two c /\ forall m t, let cs := calls_for st m t done in
      (cs = [] /\ get2 x m t = None /\ get2 c m t = None) \/
      exists dv Tn k, cs <> [] /\ get2 x m t = Some (VT (dv, Tn)) /\ twf Tn /\ shape Tn = zsh st k /\
        ((rows_fit st k (all_rows cs) /\ width (all_rows cs) = k) /\ all_rows cs <> []) /\
        (forall idx, valid (zsh st k) idx -> tget Tn idx = rowstat st (all_rows cs) idx) /\ get2 c m t = Some (VN (all_count cs)).
  Lemma hist_recd s done : hist_inv (fun _ _ _ => None) s done <-> (forall st, exists x c, dget (stat_name st) (attrs s) = Some x /\ dget (counter_name st) (attrs s) = Some c /\ recd st x c done).
  Proof.
    split.
    - intros (G & K) st. destruct (G st) as (x & c & Ex & Ec & Tx & Tc). exists x, c. split; [exact Ex|]. split; [exact Ec|]. split; [exact Tx|]. split; [exact Tc|].
      intros m t. specialize (K st m t). unfold key_inv in K. rewrite (lookup2_get2 s _ x m t Ex), (lookup2_get2 s _ c m t Ec) in K.
      destruct K as [(_ & A & B & C)|(dv & Tn & k & NE & L & W & S & _ & (FR & NR & WR) & V & LC)]; [left; auto|right].
      destruct NE as [NE|NE]; [congruence|]. exists dv, Tn, k. split; [exact NE|]. split; [exact L|]. split; [exact W|]. split; [exact S|].
      split; [split; [split; [exact FR|apply WR; reflexivity]|apply NR; exact NE]|]. split; [intros idx Vi; rewrite V by exact Vi; cbn [bent]; ring|]. rewrite LC. cbn [bcnt]. f_equal. f_equal. ring.
    - intros A. split.
      + intros st. destruct (A st) as (x & c & Ex & Ec & Tx & Tc & _). exists x, c. auto.
      + intros st m t. destruct (A st) as (x & c & Ex & Ec & _ & _ & K). specialize (K m t). cbv zeta in K. unfold key_inv.
        rewrite (lookup2_get2 s _ x m t Ex), (lookup2_get2 s _ c m t Ec).
        destruct K as [(A1 & B & C)|(dv & Tn & k & NE & L & W & S & (FR & NR) & V & LC)]; [left; auto|right].
        exists dv, Tn, k. split; [right; exact NE|]. split; [exact L|]. split; [exact W|]. split; [exact S|]. split; [discriminate|]. split; [destruct FR; auto|].
        split; [intros idx Vi; rewrite V by exact Vi; cbn [bent]; ring|]. rewrite LC. cbn [bcnt]. f_equal. f_equal. ring.
  Qed.
  Lemma reduce_T (a b : tensor) da db : shape a = shape b -> twf a -> twf b -> exists n, reduce2 (VT (da, a)) (VT (db, b)) = Ok (VT (da, n)) /\ shape n = shape a /\ twf n /\
    forall idx, valid (shape a) idx -> tget n idx = fadd (tget a idx) (tget b idx).
  Proof.
    intros S Wa Wb. unfold reduce2. assert (Z := tzip_ok fadd a b S). fold (tadd a b) in Z. rewrite Z. eexists. split; [reflexivity|]. split; [reflexivity|].
    split; [exact (tzip_wf _ _ _ _ Wa Wb Z)|]. intros idx V. exact (tget_tzip _ _ _ _ _ Wa Wb Z V).
  Qed.
  Lemma recd_merge st x1 c1 d1 x2 c2 d2 : recd st x1 c1 d1 -> recd st x2 c2 d2 -> sk x1 = sk x2 -> sk c1 = sk c2 ->
    (forall m t, same_width (all_rows (calls_for st m t (d1 ++ d2)))) ->
    exists x c, merge x1 x2 = Ok x /\ merge c1 c2 = Ok c /\ sk x = sk x1 /\ sk c = sk c1 /\ recd st x c (d1 ++ d2).
  Proof.
    intros (Tx1 & Tc1 & K1) (Tx2 & Tc2 & K2) Sx Sc SW.
    (* presence is the same on both sides *)
    assert (PK : forall y1 y2, two y1 -> two y2 -> sk y1 = sk y2 -> forall m t, get2 y1 m t = None <-> get2 (y2 : nd sval) m t = None).
    { intros y1 y2 T1 T2 Sk m t.
      assert (I : forall y, two y -> (get2 y m t <> None <-> exists ts, In (m, ts) (sk y) /\ In t ts)).
      { intros [|d]; [contradiction|]. intros (N & Fa). unfold get2. cbn [sub sk]. split.
        - destruct (dget m d) as [z|] eqn:E; [|cbn; congruence]. pose proof (Forall_dget flat m d z Fa E) as Fz. destruct z as [|e]; [contradiction|].
          cbn [get1]. intros Q. exists (dkeys e). split; [apply in_map_iff; exists (m, Node e); split; [reflexivity|apply dget_In; exact E]|].
          apply dget_In_keys. destruct (dget t e); [eauto|congruence].
        - intros (ts & J1 & J2). apply in_map_iff in J1. destruct J1 as ([m' z] & [= -> <-] & J). cbn [snd] in J2. apply In_dget in J; [|exact N]. rewrite J.
          pose proof (Forall_dget flat m d z Fa J) as Fz. destruct z as [|e]; [contradiction|]. destruct Fz as [Ne Fe]. cbn [keys1 get1] in *.
          apply dget_In_keys in J2. destruct J2 as (w & Ew). rewrite Ew. pose proof (Forall_dget is_leaf t e w Fe Ew) as L. destruct w; [discriminate|contradiction]. }
      pose proof (I y1 T1) as I1. pose proof (I y2 T2) as I2. rewrite Sk in I1.
      destruct (get2 y1 m t), (get2 y2 m t); split; intros Q; try reflexivity; try discriminate Q; exfalso.
      - apply (proj2 I2); [apply (proj1 I1); discriminate|reflexivity].
      - apply (proj2 I1); [apply (proj1 I2); discriminate|reflexivity]. }
    pose proof (PK x1 x2 Tx1 Tx2 Sx) as PX. clear PK.
    assert (KK : forall m t, let cs := calls_for st m t (d1 ++ d2) in
      (cs = [] /\ get2 x1 m t = None /\ get2 x2 m t = None /\ get2 c1 m t = None /\ get2 c2 m t = None) \/
      exists dv1 T1 dv2 T2 k, cs <> [] /\ get2 x1 m t = Some (VT (dv1, T1)) /\ get2 x2 m t = Some (VT (dv2, T2)) /\ twf T1 /\ twf T2 /\ shape T1 = zsh st k /\ shape T2 = zsh st k /\
        ((rows_fit st k (all_rows cs) /\ width (all_rows cs) = k) /\ all_rows cs <> []) /\
        (forall idx, valid (zsh st k) idx -> fadd (tget T1 idx) (tget T2 idx) = rowstat st (all_rows cs) idx) /\
        get2 c1 m t = Some (VN (all_count (calls_for st m t d1))) /\ get2 c2 m t = Some (VN (all_count (calls_for st m t d2)))).
    { intros m t cs. specialize (K1 m t). specialize (K2 m t). cbv zeta in K1, K2. specialize (PX m t). specialize (SW m t). subst cs. rewrite calls_for_app in *.
      destruct K1 as [(A1 & B1 & C1)|(dv1 & T1 & k1 & NE1 & L1 & W1 & S1 & (FR1 & NR1) & V1 & LC1)];
      destruct K2 as [(A2 & B2 & C2)|(dv2 & T2 & k2 & NE2 & L2 & W2 & S2 & (FR2 & NR2) & V2 & LC2)].
      - left. rewrite A1, A2. auto.
      - exfalso. apply PX in B1. congruence.
      - exfalso. apply PX in B2. congruence.
      - right. rewrite all_rows_app in SW.
        assert (k2 = k1).
        { destruct (all_rows (calls_for st m t d1)) as [|r1 ?] eqn:Q1; [congruence|]. destruct (all_rows (calls_for st m t d2)) as [|r2 ?] eqn:Q2; [congruence|].
          rewrite <- (proj2 FR1), <- (proj2 FR2). apply SW; apply in_or_app; [right|left]; left; reflexivity. }
        subst k2. exists dv1, T1, dv2, T2, k1. split; [intros Q; apply app_eq_nil in Q; tauto|]. repeat (split; [assumption|]). rewrite all_rows_app. split; [split|].
        + destruct FR1 as [FR1 WW]. destruct FR2 as [FR2 _]. split; [apply Forall_app; auto|]. rewrite <- WW. destruct (all_rows (calls_for st m t d1)); [congruence|reflexivity].
        + intros Q. apply app_eq_nil in Q. tauto.
        + split; [|auto]. intros idx Vi. rewrite V1, V2, rowstat_app by exact Vi. reflexivity. }
    destruct (merge_two x1 x2 Tx1 Tx2 Sx) as (x & Mx & Tx & Skx & Vx).
    { intros m t. destruct (KK m t) as [(_ & -> & -> & _)|(dv1 & T1 & dv2 & T2 & k & _ & -> & -> & W1 & W2 & S1 & S2 & _)]; [exists None; reflexivity|].
      destruct (reduce_T T1 T2 dv1 dv2 ltac:(congruence) W1 W2) as (n & Rn & _). cbn [reduceo]. rewrite Rn. cbn [bind]. eauto. }
    destruct (merge_two c1 c2 Tc1 Tc2 Sc) as (c & Mc & Tc & Skc & Vc).
    { intros m t. destruct (KK m t) as [(_ & _ & _ & -> & ->)|(dv1 & T1 & dv2 & T2 & k & _ & _ & _ & _ & _ & _ & _ & _ & _ & -> & ->)]; [exists None; reflexivity|].
      cbn. eauto. }
    exists x, c. split; [exact Mx|]. split; [exact Mc|]. split; [exact Skx|]. split; [exact Skc|]. split; [exact Tx|]. split; [exact Tc|].
    intros m t cs. specialize (Vx m t). specialize (Vc m t). destruct (KK m t) as [(A & B1 & B2 & C1 & C2)|(dv1 & T1 & dv2 & T2 & k & NE & B1 & B2 & W1 & W2 & S1 & S2 & FR & V & C1 & C2)];
      rewrite B1, B2 in Vx; rewrite C1, C2 in Vc.
    - left. cbn in Vx, Vc. split; [exact A|]. split; congruence.
    - right. destruct (reduce_T T1 T2 dv1 dv2 ltac:(congruence) W1 W2) as (n & Rn & Sn & Wn & Vn). cbn [reduceo] in Vx. rewrite Rn in Vx. cbn [bind] in Vx.
      exists dv1, n, k. split; [exact NE|]. split; [congruence|]. split; [exact Wn|]. split; [congruence|]. split; [exact FR|]. split.
      + intros idx Vi. rewrite Vn by (rewrite S1; exact Vi). apply V. exact Vi.
      + cbn in Vc. injection Vc as Vc. rewrite <- Vc. unfold cs. rewrite calls_for_app, all_count_app. reflexivity.
  Qed.

  (** key order *)
  Fixpoint add1 (l : list string) (t : string) : list string := match l with [] => [t] | a :: r => if String.eqb t a then l else a :: add1 r t end.
  Fixpoint skadd (l : list (string * list string)) (k : string * string) : list (string * list string) :=
    match l with [] => [(fst k, [snd k])] | (m, ts) :: r => if String.eqb (fst k) m then (m, add1 ts (snd k)) :: r else (m, ts) :: skadd r k end.
  Definition skin (l : list (string * list string)) (k : string * string) : Prop := skadd l k = l.
  Lemma dkeys_add1 {V} (e : dict string V) t v : dkeys (dset t v e) = add1 (dkeys e) t.
  Proof. induction e as [|[k w] r IH]; [reflexivity|]. unfold dkeys in *. cbn [dset map fst add1]. unfold eqb. cbn [Eqb_string]. destruct (String.eqb t k) eqn:Q; cbn [map fst]; [apply String.eqb_eq in Q; subst; reflexivity|]. rewrite IH. reflexivity. Qed.
  Lemma sk_put2 x m t v : two x -> sk (put2 x m t v) = skadd (sk x) (m, t).
  Proof.
    destruct x as [|d]; [contradiction|]. intros (N & Fa). cbn [put2 sub sk].
    induction d as [|[k y] r IH].
    - reflexivity.
    - cbn [dset dget]. inversion Fa as [|? ? Fy Fr]; subst. cbn [dkeys map fst] in N. inversion N; subst. cbn [map fst snd skadd]. change (eqb m k) with (String.eqb m k).
      destruct (String.eqb_spec m k) as [->|Nk].
      + cbn [map fst snd]. f_equal. cbn [snd] in Fy. destruct y as [|e]; [contradiction|]. cbn [put1 keys1]. rewrite dkeys_add1. reflexivity.
      + cbn [map fst snd]. f_equal. apply IH; assumption.
  Qed.
  Lemma add1_idem l t : add1 (add1 l t) t = add1 l t.
  Proof. induction l as [|a l IH]; cbn; [rewrite String.eqb_refl; reflexivity|]. destruct (String.eqb t a) eqn:E; cbn; rewrite E; [reflexivity|]. rewrite IH. reflexivity. Qed.
  Lemma skadd_idem l k : skadd (skadd l k) k = skadd l k.
  Proof.
    induction l as [|[m ts] r IH]; cbn; [rewrite String.eqb_refl; cbn; rewrite String.eqb_refl; reflexivity|].
    destruct (String.eqb (fst k) m) eqn:E; cbn; rewrite E; [rewrite add1_idem; reflexivity|]. rewrite IH. reflexivity.
  Qed.
  Lemma add1_keep l t t' : add1 l t = l -> add1 (add1 l t') t = add1 l t'.
  Proof.
    intros E. induction l as [|a l IH]; [discriminate E|]. cbn in *. destruct (String.eqb t' a) eqn:E'; cbn; destruct (String.eqb t a) eqn:Ea; try reflexivity.
    - rewrite E. reflexivity.
    - injection E as E. rewrite (IH E). reflexivity.
  Qed.
  Lemma skadd_keep l k k' : skin l k -> skin (skadd l k') k.
  Proof.
    unfold skin. intros E. induction l as [|[m ts] r IH]; [discriminate E|]. cbn in *. destruct (String.eqb (fst k') m) eqn:E'; cbn; destruct (String.eqb (fst k) m) eqn:Ek.
    - injection E as E. rewrite add1_keep by exact E. reflexivity.
    - exact (f_equal (cons _) (f_equal (@tl _) E)).
    - exact (f_equal (fun l => match l with a :: _ => a :: skadd r k' | [] => [] end) E).
    - injection E as E. rewrite (IH E). reflexivity.
  Qed.
  Lemma fold_filter l : forall S k, skin S k -> fold_left skadd l S = fold_left skadd (filter (fun b => negb (eqb k b)) l) S.
  Proof.
    induction l as [|a l IH]; intros S k I; [reflexivity|]. cbn [fold_left filter]. destruct (eqb_spec k a) as [<-|N]; cbn [negb].
    - unfold skin in I. rewrite I. apply IH. exact I.
    - cbn [fold_left]. apply IH. apply skadd_keep. exact I.
  Qed.
  Lemma fold_firsts l : forall S, fold_left skadd l S = fold_left skadd (firsts l) S.
  Proof.
    induction l as [|a l IH]; intros S; [reflexivity|]. cbn [fold_left firsts]. rewrite IH. apply fold_filter. unfold skin. apply skadd_idem.
  Qed.
  Definition order_inv (s : lstate) (done : list call) : Prop := forall st, exists x c, dget (stat_name st) (attrs s) = Some x /\ dget (counter_name st) (attrs s) = Some c /\
    paired x c /\ sk x = fold_left skadd (map (fun c => (k_m c, k_t c)) (filter (fun c => stat_eqb (k_stat c) st) done)) [] /\ sk c = sk x.
  Lemma order_step s done c s' : order_inv s done -> do_call c s = (s', Ok tt) -> order_inv s' (done ++ [c]).
  Proof.
    intros P E. destruct (P (k_stat c)) as (x & cc & Ex & Ec & Pxc & Sx & Sc). rewrite do_call_acc in E.
    pose proof (accumulate_eq (add_of (k_stat c)) (stat_name (k_stat c)) (counter_name (k_stat c)) (zero_of (k_stat c)) (contrib_of (k_stat c)) (names_neq _ _)
                  (k_b c) (k_mod c) (k_m c) (k_t c) (k_data c) (k_off c) s x cc Ex Ec Pxc) as A.
    destruct (let* d := _ in _) as [[[d n] d2]|e]; [|rewrite A in E; discriminate E].
    destruct (acc_add _ _ _ _ _) as [new|e]; rewrite A in E; [|discriminate E]. injection E as <-. clear A.
    intros st. rewrite filter_app, map_app, fold_left_app. cbn [filter].
    destruct (stat_eqb_spec st (k_stat c)) as [->|Ns].
    - destruct (stat_eqb_spec (k_stat c) (k_stat c)) as [_|]; [|congruence]. cbn [map fold_left]. rewrite <- Sx.
      eexists _, _. unfold with2. cbn [attrs with_attrs]. rewrite dget_dset_eq, dget_dset_neq by apply names_neq. rewrite dget_dset_eq.
      split; [reflexivity|]. split; [reflexivity|]. split; [apply paired_put; exact Pxc|]. destruct Pxc as (Tx & Tc & _). rewrite !sk_put2 by assumption. rewrite Sc. auto.
    - destruct (stat_eqb_spec (k_stat c) st) as [Q|_]; [congruence|]. cbn [map fold_left].
      destruct (P st) as (x' & c' & Ex' & Ec' & P'). exists x', c'. unfold with2. cbn [attrs with_attrs].
      rewrite !dget_dset_neq; try (apply names_neq || (intros Q; symmetry in Q; revert Q; apply names_neq) ||
          (intros Q; apply stat_name_inj in Q; congruence) || (intros Q; apply counter_name_inj in Q; congruence)). auto.
  Qed.
  Lemma order_run cs : forall s done s', order_inv s done -> run_calls cs s = (s', Ok tt) -> order_inv s' (done ++ cs).
  Proof.
    induction cs as [|c cs IH]; intros s done s' P E.
    - cbn in E. injection E as <-. rewrite app_nil_r. exact P.
    - unfold run_calls in E. cbn [seach] in E. apply sbind_ok in E. destruct E as (s1 & [] & E1 & E2).
      replace (done ++ c :: cs) with ((done ++ [c]) ++ cs) by (rewrite <- app_assoc; reflexivity).
      apply (IH s1); [|exact E2]. apply (order_step s); assumption.
  Qed.
  Lemma order_init : order_inv (@state_init F) [].
  Proof.
    intros st. destruct (pairs_init st) as (x & c & Ex & Ec & P). exists x, c. split; [exact Ex|]. split; [exact Ec|]. split; [exact P|].
    rewrite init_attrs in Ex, Ec. destruct st; cbn in Ex, Ec; injection Ex as <-; injection Ec as <-; auto.
  Qed.
End Proofs.
