(** Module trees: named_modules, replacing children. *)
From Coq Require Import Permutation.
From Verif Require Import Py PyStr Field Tensor ModelGrad Monad ModelState ModelMmap ModelSaver ModelLogger ModelModules ModelLora SpecLora.
Local Open Scope nat_scope.

Section Ind.
  Variable P : mtree -> Prop.
  Hypothesis HN : forall id k cls ps kids, Forall (fun nc => P (snd nc)) kids -> P (MT id k cls ps kids).
  Fixpoint mtree_ind' (t : mtree) : P t :=
    match t with
    | MT id k cls ps kids =>
        HN id k cls ps kids ((fix go (l : list (string * mtree)) : Forall (fun nc => P (snd nc)) l :=
          match l with [] => Forall_nil _ | nc :: r => Forall_cons nc (mtree_ind' (snd nc)) (go r) end) kids)
    end.
End Ind.

Lemma below_trans u v t : below u v -> below v t -> below u t.
Proof. intros A B. induction B; [exact A|]. eapply below_kid; eauto. Qed.
Lemma below_child t key c : In (key, c) (t_kids t) -> below c t.
Proof. intros E. eapply below_kid; [exact E|constructor]. Qed.
Lemma below_inv u t : below u t -> u = t \/ exists key c, In (key, c) (t_kids t) /\ below u c.
Proof. intros B. inversion B; subst; eauto. Qed.

Fixpoint tsize (t : mtree) : nat := match t with MT _ _ _ _ kids => S (list_sum (map (fun nc => tsize (snd nc)) kids)) end.
Lemma tsize_kid t key c : In (key, c) (t_kids t) -> tsize c < tsize t.
Proof.
  destruct t as [id k cls ps kids]. cbn [t_kids tsize]. intros E. apply (in_map (fun nc => tsize (snd nc))) in E. cbn in E.
  assert (tsize c <= list_sum (map (fun nc => tsize (snd nc)) kids)); [|lia].
  revert E. generalize (map (fun nc : string * mtree => tsize (snd nc)) kids) as l. generalize (tsize c) as n. clear.
  intros n l. unfold list_sum. induction l as [|m l IH]; cbn; [tauto|]. intros [->|E]; [lia|]. apply IH in E. lia.
Qed.
Lemma tsize_below u t : below u t -> u = t \/ tsize u < tsize t.
Proof. intros B. induction B as [|t key c E B IH]; [auto|]. right. apply tsize_kid in E. destruct IH as [->|]; lia. Qed.
Lemma below_antisym u t : below u t -> below t u -> u = t.
Proof. intros A B. apply tsize_below in A as [A|A], B as [B|B]; subst; auto. lia. Qed.

Lemma in_all_ids t x : In x (all_ids t) <-> exists u, below u t /\ t_id u = x.
Proof.
  induction t as [id k cls ps kids IH] using mtree_ind'. cbn [all_ids In]. split.
  - intros [<-|E]; [eexists; split; [constructor|reflexivity]|]. apply in_concat in E as (l & El & Ex). apply in_map_iff in El as ([n c] & <- & Hc).
    rewrite Forall_forall in IH. apply (IH _ Hc) in Ex as (u & B & <-). exists u. split; [|reflexivity]. eapply below_kid; [exact Hc|exact B].
  - intros (u & B & <-). apply below_inv in B as [->|(key & c & Hc & B)]; [left; reflexivity|]. right. apply in_concat. exists (all_ids c). split.
    + apply in_map_iff. exists (key, c). auto.
    + rewrite Forall_forall in IH. apply (IH _ Hc). eauto.
Qed.

Lemma path_below t l u : path t l u -> below u t.
Proof. intros P. induction P; [constructor|]. eapply below_kid; eauto. Qed.
Lemma below_path u t : below u t -> exists l, path t l u.
Proof. intros B. induction B as [|t key c E B (l & P)]; [exists []; constructor|]. exists (key :: l). econstructor; eauto. Qed.
Lemma path_app t l u l' v : path t l u -> path u l' v -> path t (l ++ l') v.
Proof. intros A B. induction A; [exact B|]. cbn. econstructor; eauto. Qed.
Lemma path_snoc t l u k c : path t l u -> In (k, c) (t_kids u) -> path t (l ++ [k]) c.
Proof. intros A E. eapply path_app; [exact A|]. econstructor; [exact E|constructor]. Qed.

Lemma tree_ok_below root n t : tree_ok root n -> below t root -> tree_ok t n.
Proof.
  intros [K S I] B. constructor.
  - intros u Bu. apply K. eapply below_trans; eauto.
  - intros u v Bu Bv. apply S; eapply below_trans; eauto.
  - intros u Bu. apply I. eapply below_trans; eauto.
Qed.
Lemma tree_ok_weaken root n m : tree_ok root n -> n <= m -> tree_ok root m.
Proof. intros [K S I] L. constructor; [exact K|exact S|]. intros u B. destruct (I u B) as [A C]. split; [lia|]. intros p Hp. apply C in Hp. lia. Qed.

(** ---- named_modules ---- *)
Fixpoint named_list (prefix : string) (id : mid) (kids : list (string * mtree)) (memo : list mid) : list item * list mid :=
  match kids with
  | [] => ([], memo)
  | (n, c) :: r =>
      let (l1, m1) := named (dotted prefix n) id n c memo in
      let (l2, m2) := named_list prefix id r m1 in (l1 ++ l2, m2)
  end.
Lemma named_eq prefix parent key id k cls ps kids memo :
  named prefix parent key (MT id k cls ps kids) memo =
  if mem id memo then ([], memo)
  else let (l, m) := named_list prefix id kids (id :: memo) in (Item prefix parent key (MT id k cls ps kids) :: l, m).
Proof.
  cbn [named]. destruct (mem id memo); [reflexivity|].
  assert (E : forall kids memo, (fix go kids memo :=
          match kids with
          | [] => ([], memo)
          | (n, c) :: r =>
              let (l1, m1) := named (dotted prefix n) id n c memo in
              let (l2, m2) := go r m1 in (l1 ++ l2, m2)
          end) kids memo = named_list prefix id kids memo).
  { clear. induction kids as [|[n c] r IH]; intros memo; cbn; [reflexivity|].
    destruct (named _ _ _ _ _) as [l1 m1]. rewrite IH. reflexivity. }
  rewrite E. reflexivity.
Qed.

Lemma nodup_app_l {A} (a b : list A) : NoDup a -> NoDup b -> (forall x, In x a -> In x b -> False) -> NoDup (a ++ b).
Proof.
  induction 1 as [|x a Nx Na IH]; intros Nb D; [exact Nb|]. cbn. constructor.
  - rewrite in_app_iff. intros [X|X]; [contradiction|]. apply (D x); [left; reflexivity|exact X].
  - apply IH; [exact Nb|]. intros y Hy. apply D. right. exact Hy.
Qed.
Definition iid (i : item) : mid := t_id (i_mod i).
(** visited set and distinctness *)
Lemma named_ids t : forall prefix parent key memo l m, named prefix parent key t memo = (l, m) ->
  (forall x, In x m <-> In x memo \/ In x (map iid l)) /\ NoDup (map iid l) /\ (forall x, In x (map iid l) -> ~ In x memo).
Proof.
  induction t as [id k cls ps kids IH] using mtree_ind'. intros prefix parent key memo l m. rewrite named_eq.
  destruct (mem id memo) eqn:Em.
  - intros [= <- <-]. cbn. split; [tauto|]. split; [constructor|]. tauto.
  - apply mem_false in Em. destruct (named_list prefix id kids (id :: memo)) as [l' m'] eqn:E. intros [= <- <-].
    assert (G : (forall x, In x m' <-> In x (id :: memo) \/ In x (map iid l')) /\ NoDup (map iid l') /\ (forall x, In x (map iid l') -> ~ In x (id :: memo))).
    { revert E. generalize (id :: memo) as mm. generalize m' as m2. revert l'. clear Em.
      induction kids as [|[n c] r IHr]; intros l' m2 mm; cbn [named_list].
      - intros [= <- <-]. cbn. split; [tauto|]. split; [constructor|]. tauto.
      - apply Forall_cons_iff in IH as [IHc IH]. cbn in IHc.
        destruct (named _ _ _ c mm) as [l1 m1] eqn:E1. destruct (named_list _ _ r m1) as [l2 m3] eqn:E2. intros [= <- <-].
        apply IHc in E1 as (A1 & B1 & C1). apply (IHr IH) in E2 as (A2 & B2 & C2). rewrite map_app. split; [|split].
        + intros x. rewrite A2, A1, in_app_iff. tauto.
        + apply nodup_app_l; [exact B1|exact B2|]. intros x X1 X2. apply (C2 x X2). apply A1. tauto.
        + intros x. rewrite in_app_iff. intros [X|X]; [apply C1, X|]. intros Y. apply (C2 x X). apply A1. tauto. }
    destruct G as (A & B & C). cbn [map iid i_mod t_id]. split; [|split].
    + intros x. rewrite A. cbn. unfold iid at 2. cbn. tauto.
    + constructor; [|exact B]. intros X. apply (C _ X). left. reflexivity.
    + cbn. intros x [<-|X]; [exact Em|]. intros Y. apply (C x X). right. exact Y.
Qed.

(** what an item is *)
Definition item_in (root : mtree) (pre : string) (par : mid) (key : string) (i : item) : Prop :=
  exists ks, path root ks (i_mod i) /\ i_name i = fold_left dotted ks pre /\
    ((ks = [] /\ i_parent i = par /\ i_key i = key) \/
     exists ks' u, ks = ks' ++ [i_key i] /\ path root ks' u /\ t_id u = i_parent i /\ In (i_key i, i_mod i) (t_kids u)).
Lemma named_items t : forall prefix parent key memo l m, named prefix parent key t memo = (l, m) ->
  Forall (item_in t prefix parent key) l.
Proof.
  induction t as [id k cls ps kids IH] using mtree_ind'. intros prefix parent key memo l m. rewrite named_eq.
  destruct (mem id memo); [intros [= <- <-]; constructor|].
  destruct (named_list prefix id kids (id :: memo)) as [l' m'] eqn:E. intros [= <- <-].
  constructor.
  - exists []. split; [constructor|]. split; [reflexivity|]. left. auto.
  - assert (G : forall ks l' m' mm, (forall nc, In nc ks -> In nc kids) -> named_list prefix id ks mm = (l', m') ->
               Forall (item_in (MT id k cls ps kids) prefix parent key) l').
    { clear E l' m'. induction ks as [|[n c] r IHr]; intros l' m' mm Sub; cbn [named_list]; [intros [= <- <-]; constructor|].
      destruct (named _ _ _ c mm) as [l1 m1] eqn:E1. destruct (named_list _ _ r m1) as [l2 m3] eqn:E2. intros [= <- <-].
      apply Forall_app. split; [|eapply IHr; [|exact E2]; intros nc X; apply Sub; right; exact X].
      assert (Hc : In (n, c) kids) by (apply Sub; left; reflexivity).
      rewrite Forall_forall in IH. pose proof (IH _ Hc _ _ _ _ _ _ E1) as G. revert G. apply Forall_impl.
      intros i (ps' & P & N & D). exists (n :: ps'). split; [econstructor; [exact Hc|exact P]|]. split; [exact N|]. right.
      destruct D as [(-> & Pa & Ke)|(ks' & u & -> & Pu & Iu & Ku)].
      + exists [], (MT id k cls ps kids). rewrite Ke. inversion P; subst. split; [reflexivity|]. split; [constructor|]. split; [cbn; congruence|].
        match goal with X : _ = i_mod i |- _ => rewrite <- X end. exact Hc.
      + exists (n :: ks'), u. split; [reflexivity|]. split; [econstructor; [exact Hc|exact Pu]|]. auto. }
    eapply G; [|exact E]. auto.
Qed.

(** every module is visited *)
Definition finished (root : mtree) (memo anc : list mid) : Prop :=
  forall x, In x memo -> In x anc \/ forall u v, below u root -> t_id u = x -> below v u -> In (t_id v) memo.
Lemma finished_grow root memo anc memo' :
  (forall x, In x memo -> In x memo') -> (forall x, In x memo' -> ~ In x memo -> forall u v, below u root -> t_id u = x -> below v u -> In (t_id v) memo') ->
  finished root memo anc -> finished root memo' anc.
Proof.
  intros G N Fi x Hx. destruct (in_dec Nat.eq_dec x memo) as [I|I].
  - destruct (Fi x I) as [A|A]; [left; exact A|]. right. intros u v Bu E Bv. apply G. eapply A; eauto.
  - right. apply N; assumption.
Qed.
Lemma named_visits root n : tree_ok root n -> forall t, below t root ->
  forall prefix parent key memo l m anc, named prefix parent key t memo = (l, m) ->
  (forall a, In a anc -> exists u, below u root /\ t_id u = a /\ below t u /\ u <> t) ->
  finished root memo anc ->
  (forall x, In x memo -> In x m) /\ (forall v, below v t -> In (t_id v) m) /\ finished root m anc.
Proof.
  intros OK t. induction t as [id k cls ps kids IH] using mtree_ind'. intros Bt prefix parent key memo l m anc. rewrite named_eq.
  set (t := MT id k cls ps kids) in *.
  destruct (mem id memo) eqn:Em.
  - apply mem_In in Em. intros [= <- <-] An Fi. split; [auto|]. split; [|exact Fi]. intros v Bv.
    destruct (Fi id Em) as [A|A]; [|eapply A; [exact Bt|reflexivity|exact Bv]].
    exfalso. destruct (An id A) as (u & Bu & Iu & Btu & Ne). apply Ne. apply (ok_same _ _ OK); [exact Bu|exact Bt|exact Iu].
  - apply mem_false in Em. destruct (named_list prefix id kids (id :: memo)) as [l' m'] eqn:E. intros [= <- <-] An Fi.
    assert (G : forall ks l' m' mm, (forall nc, In nc ks -> In nc kids) -> named_list prefix id ks mm = (l', m') -> finished root mm (id :: anc) ->
               (forall x, In x mm -> In x m') /\ (forall key c v, In (key, c) ks -> below v c -> In (t_id v) m') /\ finished root m' (id :: anc)).
    { clear E l' m'. induction ks as [|[nm c] r IHr]; intros l' m' mm Sub; cbn [named_list].
      - intros [= <- <-] Fm. split; [auto|]. split; [intros ? ? ? []|exact Fm].
      - destruct (named _ _ _ c mm) as [l1 m1] eqn:E1. destruct (named_list _ _ r m1) as [l2 m3] eqn:E2. intros [= <- <-] Fm.
        assert (Hc : In (nm, c) kids) by (apply Sub; left; reflexivity).
        rewrite Forall_forall in IH.
        assert (Bc : below c root) by (eapply below_trans; [eapply (below_child t); exact Hc|exact Bt]).
        destruct (IH _ Hc Bc _ _ _ _ _ _ (id :: anc) E1) as (X1 & X2 & X3); [|exact Fm|].
        { intros a [<-|Ha].
          - exists t. split; [exact Bt|]. split; [reflexivity|]. split; [eapply below_child; exact Hc|].
            intros Et. pose proof (tsize_kid t nm c Hc) as L. cbn [snd] in Et. rewrite <- Et in L. lia.
          - destruct (An a Ha) as (u & Bu & Iu & Btu & Ne). exists u. split; [exact Bu|]. split; [exact Iu|]. cbn [snd]. split.
            + eapply below_trans; [eapply (below_child t); exact Hc|exact Btu].
            + intros ->. pose proof (tsize_kid t nm c Hc) as L. apply tsize_below in Btu as [Et|L']; [congruence|]. lia. }
        destruct (IHr l2 m3 m1) as (Y1 & Y2 & Y3); [intros nc X; apply Sub; right; exact X|exact E2|exact X3|].
        split; [auto|]. split; [|exact Y3]. intros key' c' v [[= <- <-]|Hin] Bv; [apply Y1, X2, Bv|eapply Y2; eauto]. }
    destruct (G kids l' m' (id :: memo)) as (X1 & X2 & X3); [auto|exact E| |].
    { intros x [<-|Hx]; [left; left; reflexivity|]. destruct (Fi x Hx) as [A|A]; [left; right; exact A|]. right. intros u v Bu Iu Bv. right. eapply A; eauto. }
    assert (V : forall v, below v t -> In (t_id v) m').
    { intros v Bv. apply below_inv in Bv as [->|(key' & c & Hc & Bv)]; [apply X1; left; reflexivity|]. eapply X2; [exact Hc|exact Bv]. }
    split; [intros x Hx; apply X1; right; exact Hx|]. split; [exact V|].
    intros x Hx. destruct (X3 x Hx) as [[<-|A]|A]; [|left; exact A|right; exact A]. right. intros u v Bu Iu Bv.
    assert (u = t) by (apply (ok_same _ _ OK); [exact Bu|exact Bt|exact Iu]). subst u. apply V, Bv.
Qed.

Lemma dots_snoc ks k pre : fold_left dotted (ks ++ [k]) pre = dotted (fold_left dotted ks pre) k.
Proof. rewrite fold_left_app. reflexivity. Qed.
Lemma string_app_empty (a b : string) : (a ++ b)%string = ""%string -> a = ""%string /\ b = ""%string.
Proof. destruct a; cbn; [auto|discriminate]. Qed.
Lemma app_assoc_s (a b c : string) : ((a ++ b) ++ c)%string = (a ++ b ++ c)%string.
Proof. induction a; cbn; congruence. Qed.
Lemma concat_from ks pre : pre <> ""%string -> ~ In ""%string ks -> fold_left dotted ks pre = String.concat "." (pre :: ks).
Proof.
  revert pre. induction ks as [|k ks IH]; intros pre Np N; [reflexivity|]. cbn [fold_left].
  assert (E : dotted pre k = (pre ++ "." ++ k)%string) by (unfold dotted; destruct (String.eqb_spec pre ""); [contradiction|reflexivity]).
  rewrite IH.
  - rewrite E. destruct ks as [|k' ks]; cbn [String.concat]; [reflexivity|]. rewrite !app_assoc_s. reflexivity.
  - rewrite E. intros X. apply string_app_empty in X as [X _]. contradiction.
  - intros X. apply N. right. exact X.
Qed.
Lemma fold_dotted ks : ~ In ""%string ks -> fold_left dotted ks ""%string = dots ks.
Proof.
  destruct ks as [|k ks]; intros N; [reflexivity|]. cbn [fold_left]. change (dotted "" k) with k. rewrite concat_from; [reflexivity| |].
  - intros ->. apply N. left. reflexivity.
  - intros X. apply N. right. exact X.
Qed.
Lemma path_keys root n ks u : tree_ok root n -> path root ks u -> ~ In ""%string ks.
Proof.
  intros OK P. induction P as [|t k c l u Hk P IH]; [tauto|]. intros [->|X].
  - apply (proj2 (ok_keys _ _ OK t (below_refl t))). apply (in_map fst) in Hk. exact Hk.
  - revert X. apply IH. eapply tree_ok_below; [exact OK|eapply below_child; exact Hk].
Qed.

(** named_modules visits every module of the tree exactly once, under a name that leads to it *)
Lemma named_modules_spec root n : tree_ok root n ->
  NoDup (map iid (named_modules root)) /\
  (forall u, below u root -> exists i, In i (named_modules root) /\ i_mod i = u) /\
  (forall i, In i (named_modules root) -> exists ks, path root ks (i_mod i) /\ i_name i = dots ks /\
     ((ks = [] /\ i_parent i = t_id root /\ i_key i = ""%string) \/
      exists ks' u, ks = ks' ++ [i_key i] /\ path root ks' u /\ t_id u = i_parent i /\ In (i_key i, i_mod i) (t_kids u))).
Proof.
  intros OK. unfold named_modules. destruct (named "" (t_id root) "" root []) as [l m] eqn:E. cbn [fst].
  pose proof (named_ids _ _ _ _ _ _ _ E) as (A & B & _). pose proof (named_items _ _ _ _ _ _ _ E) as D. rewrite Forall_forall in D.
  destruct (named_visits root n OK root (below_refl root) _ _ _ _ _ _ [] E) as (_ & V & _); [intros ? []|intros ? []|].
  assert (D' : forall i, In i l -> exists ks, path root ks (i_mod i) /\ i_name i = dots ks /\
     ((ks = [] /\ i_parent i = t_id root /\ i_key i = ""%string) \/
      exists ks' u, ks = ks' ++ [i_key i] /\ path root ks' u /\ t_id u = i_parent i /\ In (i_key i, i_mod i) (t_kids u))).
  { intros i Hi. destruct (D i Hi) as (ks & P & Na & Di). exists ks. split; [exact P|]. split; [|exact Di]. rewrite Na. apply fold_dotted. eapply path_keys; eauto. }
  split; [exact B|]. split; [|exact D'].
  intros u Bu. specialize (V u Bu). apply A in V as [[]|V]. apply in_map_iff in V as (i & Ii & Hi). exists i. split; [exact Hi|].
  destruct (D' i Hi) as (ks & P & _). apply (ok_same _ _ OK); [eapply path_below; exact P|exact Bu|exact Ii].
Qed.

(** ---- replacing children ---- *)
Definition slot := mid -> string -> option mtree.
Definition no_slot : slot := fun _ _ => None.
Definition upd (f : slot) (p : mid) (k : string) (l : mtree) : slot :=
  fun p' k' => if (p' =? p) && String.eqb k' k then Some l else f p' k'.

Lemma replace_none t : replace_kids no_slot t = t.
Proof.
  induction t as [id k cls ps kids IH] using mtree_ind'. cbn [replace_kids no_slot]. f_equal. rewrite <- (map_id kids) at 2.
  apply map_ext_Forall. revert IH. apply Forall_impl. intros [n c] E. cbn in *. rewrite E. reflexivity.
Qed.
Lemma set_kid_noop p key l t : ~ In p (all_ids t) -> set_kid p key l t = t.
Proof.
  induction t as [id k cls ps kids IH] using mtree_ind'. cbn [all_ids set_kid In]. intros N.
  destruct (id =? p) eqn:E; [apply Nat.eqb_eq in E; tauto|]. f_equal. rewrite <- (map_id kids) at 2. apply map_ext_in. intros [n c] Hc. cbn [fst snd]. f_equal.
  rewrite Forall_forall in IH. apply (IH _ Hc). intros X. apply N. right. apply in_concat. exists (all_ids c). split; [|exact X].
  apply in_map_iff. exists (n, c). auto.
Qed.
Lemma dset_map (g : string * mtree -> mtree) k v (kids : list (string * mtree)) : NoDup (map fst kids) -> In k (map fst kids) ->
  dset k v (map (fun nc => (fst nc, g nc)) kids) = map (fun nc => (fst nc, if String.eqb (fst nc) k then v else g nc)) kids.
Proof.
  induction kids as [|[n c] r IH]; cbn [map fst In dset]; [tauto|]. intros ND. inversion ND as [|? ? Nn Nr]; subst.
  intros [->|Hk].
  - rewrite eqb_refl, String.eqb_refl. f_equal. apply map_ext_in. intros [n' c'] Hn. cbn [fst]. f_equal.
    destruct (String.eqb_spec n' k) as [->|]; [|reflexivity]. exfalso. apply Nn. apply (in_map fst) in Hn. exact Hn.
  - destruct (String.eqb_spec n k) as [->|Ne]; [contradiction|]. rewrite (eqb_neq k n) by congruence. f_equal. apply IH; assumption.
Qed.
Lemma set_kid_replace p key l f t :
  (forall u, below u t -> NoDup (map fst (t_kids u))) ->
  (forall u, below u t -> t_id u = p -> In key (map fst (t_kids u))) ->
  (forall u k c l', below u t -> In (k, c) (t_kids u) -> f (t_id u) k = Some l' -> ~ In p (all_ids l')) ->
  set_kid p key l (replace_kids f t) = replace_kids (upd f p key l) t.
Proof.
  induction t as [id k cls ps kids IH] using mtree_ind'. intros ND HP Nf. cbn [replace_kids set_kid]. rewrite map_map. cbn [fst snd].
  assert (E : map (fun nc : string * mtree => (fst nc, set_kid p key l match f id (fst nc) with Some l' => l' | None => replace_kids f (snd nc) end)) kids
            = map (fun nc => (fst nc, match f id (fst nc) with Some l' => l' | None => replace_kids (upd f p key l) (snd nc) end)) kids).
  { apply map_ext_in. intros [n c] Hc. cbn [fst snd]. f_equal. destruct (f id n) as [l'|] eqn:Ef.
    - apply set_kid_noop. eapply (Nf (MT id k cls ps kids)); [constructor|exact Hc|exact Ef].
    - rewrite Forall_forall in IH. apply (IH _ Hc).
      + intros u B. apply ND. eapply below_kid; [exact Hc|exact B].
      + intros u B. apply HP. eapply below_kid; [exact Hc|exact B].
      + intros u k0 c0 l' B. apply Nf. eapply below_kid; [exact Hc|exact B]. }
  rewrite E. f_equal. destruct (id =? p) eqn:Ep.
  - apply Nat.eqb_eq in Ep. subst id. rewrite dset_map.
    + apply map_ext. intros [n c]. cbn [fst snd]. unfold upd at 2. rewrite Nat.eqb_refl. cbn [andb]. destruct (String.eqb n key); reflexivity.
    + exact (ND _ (below_refl _)).
    + apply (HP _ (below_refl _)). reflexivity.
  - apply map_ext. intros [n c]. cbn [fst snd]. unfold upd at 2. rewrite Ep. reflexivity.
Qed.
Lemma replace_ext f g t : (forall u k c, below u t -> In (k, c) (t_kids u) -> f (t_id u) k = g (t_id u) k) -> replace_kids f t = replace_kids g t.
Proof.
  induction t as [id k cls ps kids IH] using mtree_ind'. intros E. cbn [replace_kids]. f_equal. apply map_ext_in. intros [n c] Hc. cbn [fst snd]. f_equal.
  pose proof (E (MT id k cls ps kids) n c (below_refl _) Hc) as X. cbn [t_id] in X. rewrite X. destruct (g id n); [reflexivity|].
  rewrite Forall_forall in IH. apply (IH _ Hc). intros u k0 c0 B. apply E. eapply below_kid; [exact Hc|exact B].
Qed.
Lemma replace_id f t : t_id (replace_kids f t) = t_id t.
Proof. destruct t. reflexivity. Qed.
Lemma replace_parts f t : t_kind (replace_kids f t) = t_kind t /\ t_cls (replace_kids f t) = t_cls t /\ t_params (replace_kids f t) = t_params t.
Proof. destruct t. repeat split. Qed.
Lemma replace_kids_keys f t : map fst (t_kids (replace_kids f t)) = map fst (t_kids t).
Proof. destruct t as [id k cls ps kids]. cbn [replace_kids t_kids]. rewrite map_map. reflexivity. Qed.
