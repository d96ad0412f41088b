(** Two-level dictionaries and the effect of one accumulation. *)
From Verif Require Import Py Field Tensor ModelGrad Monad ModelState.
Local Open Scope nat_scope.

Section DictMore.
  Context {K V : Type} `{Eqb K}.
  Lemma dset_dset k (v w : V) (d : dict K V) : dset k v (dset k w d) = dset k v d.
  Proof.
    induction d as [|[k' v'] r IH]; cbn [dset]; [rewrite eqb_refl; reflexivity|].
    destruct (eqb k k') eqn:E; cbn [dset]; rewrite E; [reflexivity|]. rewrite IH. reflexivity.
  Qed.
  Lemma dset_same k (v : V) (d : dict K V) : dget k d = Some v -> dset k v d = d.
  Proof.
    induction d as [|[k' v'] r IH]; cbn [dset dget]; [discriminate|].
    destruct (eqb k k'); [intros [= ->]; reflexivity|]. intros E. rewrite IH by exact E. reflexivity.
  Qed.
  Lemma dset_swap a b (x y : V) (d : dict K V) : a <> b -> dget a d <> None ->
    dset a x (dset b y d) = dset b y (dset a x d).
  Proof.
    intros N. induction d as [|[k v] r IH]; cbn [dget]; [congruence|]. intros Ha.
    destruct (eqb_spec a k) as [->|Na].
    - assert (eqb b k = false) as Eb by (apply eqb_neq; congruence).
      cbn [dset]. rewrite Eb, eqb_refl. cbn [dset]. rewrite ?Eb, ?eqb_refl. reflexivity.
    - assert (eqb a k = false) as Ea by (apply eqb_neq; congruence). cbn [dset]. rewrite Ea.
      destruct (eqb_spec b k) as [->|Nb].
      + cbn [dset]. rewrite ?eqb_refl, ?Ea. reflexivity.
      + assert (eqb b k = false) as Eb by (apply eqb_neq; congruence). cbn [dset]. rewrite ?Ea, ?Eb.
        rewrite IH by exact Ha. reflexivity.
  Qed.
End DictMore.

Ltac sstep := cbv beta iota; cbn [attrs with_attrs st_states st_sync st_save st_norm st_noclear].

Section Proofs.
  Context {F : Type} `{OField F}.
  Add Field FfS1 : f_theory.
  Notation tensor := (tensor F).
  Notation sval := (@sval F).
  Notation lstate := (@lstate F).
  Notation dten := (@dten F).
  Notation binfo := (@binfo F).

  Definition is_leaf (x : nd sval) : Prop := match x with Leaf _ => True | Node _ => False end.
  Definition flat (x : nd sval) : Prop := match x with Node e => NoDup (dkeys e) /\ Forall (fun q => is_leaf (snd q)) e | Leaf _ => False end.
  Definition two (x : nd sval) : Prop := match x with Node d => NoDup (dkeys d) /\ Forall (fun p => flat (snd p)) d | Leaf _ => False end.
  Definition sub (x : nd sval) (m : string) : nd sval :=
    match x with Node d => match dget m d with Some y => y | None => Node [] end | Leaf _ => Node [] end.
  Definition get1 (x : nd sval) (t : string) : option sval :=
    match x with Node e => match dget t e with Some (Leaf v) => Some v | _ => None end | Leaf _ => None end.
  Definition get2 (x : nd sval) (m t : string) : option sval := get1 (sub x m) t.
  Definition put1 (x : nd sval) (t : string) (v : sval) : nd sval :=
    match x with Node e => Node (dset t (Leaf v) e) | Leaf _ => x end.
  Definition put2 (x : nd sval) (m t : string) (v : sval) : nd sval :=
    match x with Node d => Node (dset m (put1 (sub x m) t v) d) | Leaf _ => x end.

  Lemma Forall_dget {A} (P : A -> Prop) k (d : dict string A) v : Forall (fun p => P (snd p)) d -> dget k d = Some v -> P v.
  Proof. intros Fa E. apply dget_In in E. rewrite Forall_forall in Fa. apply (Fa _ E). Qed.
  Lemma Forall_dset {A} (P : A -> Prop) k (d : dict string A) v : Forall (fun p => P (snd p)) d -> P v -> Forall (fun p => P (snd p)) (dset k v d).
  Proof.
    intros Fa Pv. induction Fa as [|[k' v'] r P1 Fr IH]; cbn [dset]; [repeat constructor; exact Pv|].
    destruct (eqb k k'); constructor; assumption.
  Qed.
  Lemma sub_flat x m : two x -> flat (sub x m).
  Proof.
    destruct x as [v|d]; cbn [two sub]; [contradiction|]. intros [Nd Fa]. destruct (dget m d) eqn:E; [|split; constructor].
    apply (Forall_dget flat m d n Fa E).
  Qed.
  Lemma nd_item_two x m : two x -> nd_item x m = Ok (sub x m).
  Proof. destruct x; cbn; [contradiction|reflexivity]. Qed.
  Lemma nd_item_flat x m : flat x -> nd_item x m = Ok (sub x m).
  Proof. destruct x; cbn; [contradiction|reflexivity]. Qed.
  Lemma nd_set1_flat x t v : flat x -> nd_set1 x t v = Ok (put1 x t v).
  Proof. destruct x; cbn; [contradiction|reflexivity]. Qed.
  Lemma nd_set2_two x m t v : two x -> nd_set2 x m t v = Ok (put2 x m t v).
  Proof.
    intros T2. destruct x as [w|d]; [contradiction|]. unfold nd_set2. rewrite nd_item_two by exact T2. cbn [bind].
    rewrite nd_set1_flat by (apply sub_flat; exact T2). reflexivity.
  Qed.
  Lemma put1_flat x t v : flat x -> flat (put1 x t v).
  Proof.
    destruct x; cbn [put1 flat]; [contradiction|]. intros [Nd Fa]. split; [apply NoDup_dset; exact Nd|].
    apply (Forall_dset is_leaf); [exact Fa|exact I].
  Qed.
  Lemma put2_two x m t v : two x -> two (put2 x m t v).
  Proof.
    intros T2. pose proof (sub_flat x m T2) as Fs. destruct x as [w|d]; [contradiction|]. cbn [put2 two].
    destruct T2 as [Nd Fa]. split; [apply NoDup_dset; exact Nd|]. apply (Forall_dset flat); [exact Fa|apply put1_flat; exact Fs].
  Qed.
  Lemma nd_has_get1 y t : flat y -> nd_has y t = match get1 y t with Some _ => true | None => false end.
  Proof.
    destruct y as [w|e]; cbn; [contradiction|]. intros [_ Fa]. unfold dmem. destruct (dget t e) eqn:E; [|reflexivity].
    pose proof (Forall_dget is_leaf t e _ Fa E) as L. destruct n; [reflexivity|contradiction].
  Qed.
  Lemma sub_get1 y t : flat y -> sub y t = match get1 y t with Some v => Leaf v | None => Node [] end.
  Proof.
    destruct y as [w|e]; cbn; [contradiction|]. intros [_ Fa]. destruct (dget t e) eqn:E; [|reflexivity].
    pose proof (Forall_dget is_leaf t e _ Fa E) as L. destruct n; [reflexivity|contradiction].
  Qed.
  Lemma get1_put1_eq y t v : flat y -> get1 (put1 y t v) t = Some v.
  Proof. destruct y; cbn; [contradiction|]. intros _. rewrite dget_dset_eq. reflexivity. Qed.
  Lemma get1_put1_neq y t t' v : t <> t' -> get1 (put1 y t' v) t = get1 y t.
  Proof. destruct y; cbn; [reflexivity|]. intros N. rewrite dget_dset_neq by exact N. reflexivity. Qed.
  Lemma sub_put2_eq x m t v : two x -> sub (put2 x m t v) m = put1 (sub x m) t v.
  Proof. destruct x; cbn; [contradiction|]. intros _. rewrite dget_dset_eq. reflexivity. Qed.
  Lemma sub_put2_neq x m m' t v : m <> m' -> sub (put2 x m' t v) m = sub x m.
  Proof. destruct x; cbn; [reflexivity|]. intros N. rewrite dget_dset_neq by exact N. reflexivity. Qed.
  Lemma get2_put2_eq x m t v : two x -> get2 (put2 x m t v) m t = Some v.
  Proof. intros T2. unfold get2. rewrite sub_put2_eq by exact T2. apply get1_put1_eq. apply sub_flat. exact T2. Qed.
  Lemma get2_put2_neq x m t m' t' v : two x -> (m, t) <> (m', t') -> get2 (put2 x m' t' v) m t = get2 x m t.
  Proof.
    intros T2 N. unfold get2. destruct (String.eqb_spec m m') as [->|Nm].
    - rewrite sub_put2_eq by exact T2. apply get1_put1_neq. congruence.
    - rewrite sub_put2_neq by exact Nm. reflexivity.
  Qed.
  Lemma put1_put1 y t v w : put1 (put1 y t w) t v = put1 y t v.
  Proof. destruct y; cbn; [reflexivity|]. rewrite dset_dset. reflexivity. Qed.
  Lemma put2_put2 x m t v w : two x -> put2 (put2 x m t w) m t v = put2 x m t v.
  Proof.
    intros T2. pose proof (sub_put2_eq x m t w T2) as E. destruct x as [u|d]; [contradiction|]. cbn [put2] in *.
    f_equal. rewrite E, dset_dset, put1_put1. reflexivity.
  Qed.

  Lemma put2_same x m t v : two x -> get2 x m t = Some v -> put2 x m t v = x.
  Proof.
    intros Tx G. destruct x as [w|dd]; [contradiction|]. cbn [put2]. f_equal. unfold get2 in G. cbn [sub] in *.
    destruct (dget m dd) as [y|] eqn:Em; [|cbn in G; discriminate].
    assert (E : put1 y t v = y); [|rewrite E; apply dset_same; exact Em].
    destruct y as [w|e]; [reflexivity|]. cbn in *. f_equal. apply dset_same.
    destruct (dget t e) as [[w|?]|]; try discriminate. injection G as ->. reflexivity.
  Qed.

  (** the accumulator and its counter have the same keys *)
  Definition paired (x c : nd sval) : Prop :=
    two x /\ two c /\ forall m t,
      match get2 x m t, get2 c m t with
      | None, None => True | Some (VT _), Some (VN _) => True | _, _ => False end.

  Definition acc_add (add : dten -> dten -> res dten) (offload : bool) (dv : dev) (old : dten) (v : tensor) : res dten :=
    if offload then (let* n := add (dv, snd old) (dv, v) in Ok (Cpu, snd n)) else add old (dv, v).

  Definition with2 (s : lstate) (a1 : string) x1 (a2 : string) x2 : lstate :=
    with_attrs s (dset a2 x2 (dset a1 x1 (attrs s))).

  Section Acc.
    Variable add : dten -> dten -> res dten.
    Variables (sn cn : string) (zero : nat -> tensor) (contrib : tensor -> tensor).
    Hypothesis N : sn <> cn.
    Variables (b : binfo) (module : option mkind) (m t : string) (data : option dten) (offload : bool).
    Let acc := accumulate add sn cn zero contrib b module m t data offload.

    Definition old_of (x : nd sval) (d : dten) (d2 : tensor) : dten :=
      match get2 x m t with Some (VT o) => o | _ => (if offload then Cpu else fst d, zero (last_size d2)) end.
    Definition oldc_of (c : nd sval) : F := match get2 c m t with Some (VN v) => v | _ => f0 end.

    Lemma accumulate_eq s x c :
      dget sn (attrs s) = Some x -> dget cn (attrs s) = Some c -> paired x c ->
      match (let* d := get_data b m t data in let* n := size0 (snd d) in let* d2 := make_2d (snd d) module t in Ok (d, n, d2)) with
      | Err e => acc s = (s, Err e)
      | Ok (d, n, d2) =>
          match acc_add add offload (fst d) (old_of x d d2) (contrib d2) with
          | Err e => acc s = (with2 s sn (put2 x m t (VT (old_of x d d2))) cn (put2 c m t (VN (oldc_of c))), Err e)
          | Ok new => acc s = (with2 s sn (put2 x m t (VT new)) cn (put2 c m t (VN (fadd (oldc_of c) (count_of b t n)))), Ok tt)
          end
      end.
    Proof.
      intros Ex Ec (Tx & Tc & P). specialize (P m t). unfold acc, accumulate.
      cbv [sbind lift attr set_attr sret]. rewrite Ex, Ec. sstep.
      destruct (get_data b m t data) as [d|e]; cbn [bind]; [|reflexivity]. sstep.
      destruct (size0 (snd d)) as [n|e]; cbn [bind]; [|reflexivity]. sstep.
      destruct (make_2d (snd d) module t) as [d2|e]; cbn [bind]; [|reflexivity]. sstep.
      rewrite (nd_item_two x m Tx). sstep.
      assert (Fx := sub_flat x m Tx). assert (Fc := sub_flat c m Tc).
      rewrite (nd_has_get1 _ t Fx). fold (get2 x m t).
      unfold old_of, oldc_of in *. destruct (get2 x m t) as [[o|?|?|?]|] eqn:Gx; destruct (get2 c m t) as [[?|oc|?|?]|] eqn:Gc; try contradiction.
      - (* existing key *)
        sstep. rewrite Ex. sstep. rewrite (nd_item_two x m Tx). sstep.
        rewrite (nd_item_flat _ t Fx), (sub_get1 _ t Fx). fold (get2 x m t). rewrite Gx. cbn [bind as_dten]. sstep.
        assert (Eself : with2 s sn (put2 x m t (VT o)) cn (put2 c m t (VN oc)) = s).
        { unfold with2. rewrite (put2_same x) by assumption. rewrite (put2_same c) by assumption.
          rewrite (dset_same sn) by exact Ex. rewrite (dset_same cn) by exact Ec. destruct s. reflexivity. }
        unfold acc_add. destruct offload.
        + destruct (add (fst d, snd o) (fst d, contrib d2)) as [new|e]; cbn [bind]; sstep; [|rewrite Eself; reflexivity].

          sstep. rewrite (nd_set2_two x m t _ Tx). sstep. rewrite dget_dset_neq by congruence. rewrite Ec. sstep.
          rewrite (nd_item_two c m Tc). cbn [bind]. rewrite (nd_item_flat _ t Fc), (sub_get1 _ t Fc).
          fold (get2 c m t). rewrite Gc. cbn [count_add]. sstep. rewrite (nd_set2_two c m t _ Tc). sstep. reflexivity.
        + destruct (add o (fst d, contrib d2)) as [new|e]; cbn [bind]; sstep; [|rewrite Eself; reflexivity].

          sstep. rewrite (nd_set2_two x m t _ Tx). sstep. rewrite dget_dset_neq by congruence. rewrite Ec. sstep.
          rewrite (nd_item_two c m Tc). cbn [bind]. rewrite (nd_item_flat _ t Fc), (sub_get1 _ t Fc).
          fold (get2 c m t). rewrite Gc. cbn [count_add]. sstep. rewrite (nd_set2_two c m t _ Tc). sstep. reflexivity.
      - (* new key *)
        set (o := (if offload then Cpu else fst d, zero (last_size d2))).
        rewrite (nd_set2_two x m t _ Tx). sstep. rewrite dget_dset_neq by congruence. rewrite Ec. sstep.
        rewrite (nd_set2_two c m t _ Tc). sstep.
        set (x1 := put2 x m t (VT o)). set (c1 := put2 c m t (VN f0)).
        assert (T1 : two x1) by (apply put2_two; exact Tx). assert (T1c : two c1) by (apply put2_two; exact Tc).
        assert (G1 : get2 x1 m t = Some (VT o)) by (apply get2_put2_eq; exact Tx).
        assert (G1c : get2 c1 m t = Some (VN f0)) by (apply get2_put2_eq; exact Tc).
        assert (F1 := sub_flat x1 m T1). assert (F1c := sub_flat c1 m T1c).
        rewrite dget_dset_neq by congruence. rewrite dget_dset_eq. sstep. rewrite (nd_item_two x1 m T1). sstep.
        rewrite (nd_item_flat _ t F1), (sub_get1 _ t F1). fold (get2 x1 m t). rewrite G1. cbn [bind as_dten]. sstep.
        assert (Att : forall y e, dset cn (put2 c1 m t e) (dset sn (put2 x1 m t y) (dset cn c1 (dset sn x1 (attrs s)))) =
                                  dset cn (put2 c m t e) (dset sn (put2 x m t y) (attrs s))).
        { intros y e. unfold x1, c1. rewrite !put2_put2 by assumption.
          rewrite (dset_swap sn cn) by (try assumption; rewrite dget_dset_eq; discriminate).
          rewrite !dset_dset. reflexivity. }
        unfold acc_add. destruct offload.
        + destruct (add (fst d, snd o) (fst d, contrib d2)) as [new|e]; cbn [bind]; sstep; [|reflexivity].

          sstep. rewrite (nd_set2_two x1 m t _ T1). sstep. rewrite dget_dset_neq by congruence. rewrite dget_dset_eq. sstep.
          rewrite (nd_item_two c1 m T1c). cbn [bind]. rewrite (nd_item_flat _ t F1c), (sub_get1 _ t F1c).
          fold (get2 c1 m t). rewrite G1c. cbn [count_add]. sstep. rewrite (nd_set2_two c1 m t _ T1c). sstep. unfold with2, with_attrs. rewrite Att. reflexivity.
        + destruct (add o (fst d, contrib d2)) as [new|e]; cbn [bind]; sstep; [|reflexivity].

          sstep. rewrite (nd_set2_two x1 m t _ T1). sstep. rewrite dget_dset_neq by congruence. rewrite dget_dset_eq. sstep.
          rewrite (nd_item_two c1 m T1c). cbn [bind]. rewrite (nd_item_flat _ t F1c), (sub_get1 _ t F1c).
          fold (get2 c1 m t). rewrite G1c. cbn [count_add]. sstep. rewrite (nd_set2_two c1 m t _ T1c). sstep. unfold with2, with_attrs. rewrite Att. reflexivity.
    Qed.
  End Acc.
End Proofs.
