(** Saved influence scores and aliasing. *)
From Verif Require Import Py PyStr Field Tensor ModelGrad Monad ModelState ModelInfluence SpecGrad SpecState SpecInfluence GradProofs1 StateProofs1 InfProofs1 InfProofs2 InfProofs5.
Local Open Scope string_scope.
Local Open Scope list_scope.
Local Open Scope nat_scope.

Section Proofs.
  Context {F : Type} `{OField F}.
  Notation tensor := (tensor F).
  Notation lstate := (@lstate F).
  Notation ifn := (@ifn F).
  Notation robj := (@robj F).
  Notation infres := (@infres F).
  Variable eigh : tensor -> res (tensor * tensor).
  Variable inverse : tensor -> res tensor.
  Variable fsqrt : F -> F.
  Notation call_all := (call_all eigh inverse fsqrt).
  Notation call_value := (call_value eigh inverse fsqrt).
  Notation calls_all := (calls_all eigh inverse fsqrt).
  Notation calls_value := (calls_value eigh inverse fsqrt).
  Notation compute_influence := (compute_influence eigh inverse fsqrt).

  (** results are dictionaries: their keys are distinct *)
  Definition dict_val (v : @ival F) : Prop := match v with Mat t => shape t <> [] | Grp d => NoDup (dkeys d) /\ Forall (fun q => shape (snd q) <> []) d end.
  Lemma init_nodup groups : NoDup (dkeys (@init_scores F groups)).
  Proof.
    unfold init_scores. generalize (match groups with Some l => l | None => [] end). intros l. assert (G : NoDup (dkeys [("total", @None (@dten F))])) by (repeat constructor; intros []). revert G. generalize [("total", @None (@dten F))].
    induction l as [|g l IH]; intros d N; [exact N|]. cbn [fold_left]. apply IH. apply NoDup_dset. exact N.
  Qed.
  Lemma add_score_keys x d k d' : @add_score F _ x d k = Ok d' -> NoDup (dkeys d) -> NoDup (dkeys d').
  Proof. unfold add_score. destruct (dgetM k d) as [o|]; [|discriminate]. cbn [bind]. destruct o as [a|]; [destruct (iadd_ a x); [|discriminate]|]; cbn [bind]; intros [= <-] N; apply NoDup_dset; exact N. Qed.
  Lemma foldM_inv {A B} (P : B -> Prop) (f : B -> A -> res B) l : (forall b a b', P b -> f b a = Ok b' -> P b') -> forall b b', P b -> foldM f l b = Ok b' -> P b'.
  Proof. intros ST. induction l as [|a l IH]; cbn [foldM]; intros b b' Pb E; [injection E as <-; exact Pb|]. destruct (f b a) as [b1|] eqn:E1; cbn [bind] in E; [|discriminate E]. apply (IH b1 b'); [eapply ST; eauto|exact E]. Qed.
  Lemma add_module_keys groups m x d d' : @add_module F _ groups m x d = Ok d' -> NoDup (dkeys d) -> NoDup (dkeys d').
  Proof.
    unfold add_module. destruct (add_score x d "total") as [d1|] eqn:E1; [|discriminate]. cbn [bind]. intros E N. refine (foldM_inv (fun d => NoDup (dkeys d)) _ _ _ d1 d' _ E); [|eapply add_score_keys; eauto]. intros b a b' Nb Eb. eapply add_score_keys; eauto.
  Qed.
  Lemma mapM_keys {A B} (f : string * A -> res (string * B)) l l' : (forall p q, f p = Ok q -> fst q = fst p) -> mapM f l = Ok l' -> dkeys l' = dkeys l.
  Proof.
    intros E. revert l'. induction l as [|p l IH]; intros l' M; cbn [mapM] in M; [injection M as <-; reflexivity|]. destruct (f p) as [q|] eqn:Ep; cbn [bind] in M; [|discriminate M]. destruct (mapM f l) as [r|]; cbn [bind] in M; [|discriminate M]. injection M as <-. cbn [dkeys map]. f_equal; [apply E; exact Ep|]. apply IH. reflexivity.
  Qed.
  Lemma mapM_forall {A B} (P : B -> Prop) (f : A -> res B) l l' : (forall p q, f p = Ok q -> P q) -> mapM f l = Ok l' -> Forall P l'.
  Proof.
    intros E. revert l'. induction l as [|p l IH]; intros l' M; cbn [mapM] in M; [injection M as <-; constructor|]. destruct (f p) as [q|] eqn:Ep; cbn [bind] in M; [|discriminate M]. destruct (mapM f l) as [r|]; cbn [bind] in M; [|discriminate M]. injection M as <-. constructor; eauto.
  Qed.
  Lemma cat_axis_shape ax (a b c : tensor) : cat_axis ax a b = Ok c -> shape c <> [].
  Proof.
    unfold cat_axis. destruct ax; unfold tcat0, tcat1.
    - destruct (shape a), (shape b); try discriminate. destruct (same_shape _ _); [|discriminate]. intros [= <-]. discriminate.
    - destruct (shape a) as [|x [|y [|]]], (shape b) as [|x' [|y' [|]]]; try discriminate. destruct (_ =? _); [|discriminate]. intros [= <-]. discriminate.
  Qed.
  Lemma influence_dict sl tl mode prec h groups d s s' r : compute_influence sl tl mode prec h groups d s = (s', Ok r) -> dict_val (i_val r).
  Proof.
    unfold ModelInfluence.compute_influence. destruct (mem mode _); [|discriminate]. intros E. apply sbind_ok in E. destruct E as (s1 & p & _ & E). cbv zeta in E. apply sbind_ok in E. destruct E as (s2 & pr & Epr & E).
    assert (N : NoDup (dkeys (fst pr))).
    { destruct (snd tl) as [tgt|t].
      - apply sbind_ok in Epr. destruct Epr as (? & ? & _ & Epr). apply sbind_ok in Epr. destruct Epr as (? & ? & _ & Epr). apply sbind_ok in Epr. destruct Epr as (? & ms & _ & Epr). apply sbind_ok in Epr. destruct Epr as (? & tot & Et & Epr). injection Epr as _ <-. cbn [fst]. injection Et as _ Et.
        refine (foldM_inv (fun d => NoDup (dkeys d)) _ _ _ _ tot (init_nodup groups) Et). intros b m b' Nb Eb. repeat match goal with H : (let* _ := ?e in _) = Ok _ |- _ => destruct e; cbn [bind] in H; [|discriminate H] end. eapply add_module_keys; eauto.
      - apply sbind_ok in Epr. destruct Epr as (? & ? & _ & Epr). apply sbind_ok in Epr. destruct Epr as (? & ? & _ & Epr). cbv zeta in Epr. apply sbind_ok in Epr. destruct Epr as (? & ? & _ & Epr). apply sbind_ok in Epr. destruct Epr as (? & ? & _ & Epr). apply sbind_ok in Epr. destruct Epr as (? & tot & Et & Epr). injection Epr as _ <-. cbn [fst]. injection Et as _ Et.
        eapply add_score_keys; [exact Et|apply init_nodup]. }
    apply sbind_ok in E. destruct E as (s3 & tot & Etot & E).
    assert (NT : dkeys tot = dkeys (fst pr)).
    { assert (AK : forall f nv t t', @adjust_all F _ f nv t = Ok t' -> dkeys t' = dkeys t). { intros f nv t t' EA. eapply mapM_keys; [|exact EA]. intros p0 q Eq. cbv beta in Eq. repeat match goal with H : (let* _ := ?e in _) = Ok _ |- _ => destruct e; cbn [bind] in H; [|discriminate H] end. injection Eq as <-. reflexivity. }
      destruct (String.eqb mode "cosine"); [|destruct (String.eqb mode "l2")].
      - apply sbind_ok in Etot. destruct Etot as (? & nv & _ & Ea). injection Ea as _ Ea. eapply AK. exact Ea.
      - apply sbind_ok in Etot. destruct Etot as (? & nv & _ & Ea). injection Ea as _ Ea. eapply AK. exact Ea.
      - injection Etot as _ <-. reflexivity. }
    apply sbind_ok in E. destruct E as (s4 & vals & Ev & E). injection Ev as _ Ev. apply sbind_ok in E. destruct E as (s5 & v & Ep & E). injection Ep as _ Ep. injection E as _ <-. cbn [i_val].
    assert (NV : dkeys vals = dkeys tot). { eapply mapM_keys; [|exact Ev]. intros [k0 [x|]] q Eq; cbn [snd fst] in Eq; [|discriminate Eq]. destruct (shape (snd x)) as [|a [|b [|]]]; try discriminate Eq. destruct (_ && _); [|discriminate Eq]. injection Eq as <-. reflexivity. }
    assert (SV : Forall (fun q => shape (snd q) <> []) vals).
    { eapply mapM_forall; [|exact Ev]. intros [k0 [x|]] q Eq; cbn [snd fst] in Eq; [|discriminate Eq]. destruct (shape (snd x)) as [|a [|b [|]]] eqn:Sx; try discriminate Eq. destruct (_ && _); [|discriminate Eq]. injection Eq as <-. cbn [snd]. rewrite Sx. discriminate. }
    destruct groups; cbn [pick] in Ep.
    - injection Ep as <-. cbn [dict_val]. rewrite NV, NT. auto.
    - unfold dgetM in Ep. destruct (dget "total" vals) as [t|] eqn:Dt; cbn [bind] in Ep; [|discriminate Ep]. injection Ep as <-. cbn [dict_val]. apply dget_In in Dt. rewrite Forall_forall in SV. apply (SV _ Dt).
  Qed.
  Lemma value_dict c (s s' : lstate) r : call_value c s = (s', Ok (Some r)) -> dict_val (i_val r).
  Proof.
    unfold SpecInfluence.call_value, influence_all. intros E. apply sbind_ok in E. destruct E as (s1 & sl & _ & E).
    assert (L : forall loader acc s1 s', (forall a, acc = Some a -> dict_val (i_val a)) -> influence_loop eigh inverse fsqrt sl loader (ic_mode c) (ic_hessian c) (ic_groups c) (ic_damping c) acc s1 = (s', Ok (Some r)) -> dict_val (i_val r)).
    { clear. induction loader as [|b l IH]; intros acc s1 s' A E; cbn [influence_loop] in E; [injection E as _ ->; apply A; reflexivity|]. apply sbind_ok in E. destruct E as (s2 & x & Ex & E). apply sbind_ok in E. destruct E as (s3 & acc' & Ea & E). injection Ea as _ Ea.
      apply (IH acc' s3 s'); [|exact E]. intros a ->. unfold merge_tgt in Ea. destruct acc as [a0|].
      - specialize (A a0 eq_refl). destruct (merge_val false (i_val a0) (i_val x)) as [v|] eqn:Ev; cbn [bind] in Ea; [|discriminate Ea]. injection Ea as <-. cbn [i_val]. destruct (i_val a0) as [|d0], (i_val x) as [|d1]; cbn [merge_val] in Ev; try discriminate Ev.
        + destruct (cat_axis _ _ _) as [c0|] eqn:Ec; cbn [bind] in Ev; [|discriminate Ev]. injection Ev as <-. cbn [dict_val]. eapply cat_axis_shape. exact Ec.
        + destruct (cat_groups false d0 d1) as [c0|] eqn:Ec; cbn [bind] in Ev; [|discriminate Ev]. injection Ev as <-. cbn [dict_val] in *. split; [|eapply mapM_forall; [|exact Ec]; intros p0 q Eq; cbv beta in Eq; destruct (dgetM (fst p0) d1) as [t1|]; cbn [bind] in Eq; [|discriminate Eq]; destruct (cat_axis false (snd p0) t1) as [c1|] eqn:E1; cbn [bind] in Eq; [|discriminate Eq]; injection Eq as <-; eapply cat_axis_shape; exact E1].
          replace (dkeys c0) with (dkeys d0); [apply A|]. symmetry. eapply mapM_keys; [|exact Ec]. intros p0 q Eq. cbv beta in Eq. repeat match goal with H : (let* _ := ?e in _) = Ok _ |- _ => destruct e; cbn [bind] in H; [|discriminate H] end. injection Eq as <-. reflexivity.
      - injection Ea as <-. eapply influence_dict. exact Ex. }
    eapply L; [|exact E]. discriminate.
  Qed.

  Lemma dict_ext {A} (d d' : dict string A) : NoDup (dkeys d) -> dkeys d = dkeys d' -> (forall k, In k (dkeys d) -> dget k d = dget k d') -> d = d'.
  Proof.
    revert d'. induction d as [|[k v] d IH]; intros [|[k' v'] d'] N K G; try discriminate K; [reflexivity|]. cbn [dkeys map fst] in *. injection K as <- K. apply NoDup_cons_iff in N. destruct N as (Nk & N'). pose proof (G k (or_introl eq_refl)) as G0. cbn [dget] in G0. rewrite eqb_refl in G0. injection G0 as <-. f_equal.
    apply IH; [exact N'|exact K|]. intros x Ix. specialize (G x (or_intror Ix)). cbn [dget] in G. rewrite eqb_neq in G by (intros ->; contradiction). exact G.
  Qed.
  Lemma dget_keyed {A B} (g : string -> B) (d : dict string A) k : dget k (map (fun q => (fst q, g (fst q))) d) = option_map (fun _ => g k) (dget k d).
  Proof. induction d as [|[x v] d IH]; [reflexivity|]. cbn [map dget fst]. destruct (eqb_spec k x) as [->|N]; [reflexivity|exact IH]. Qed.
  Lemma Forall2_mono {A B} (P Q : A -> B -> Prop) l l' : (forall a b, P a b -> Q a b) -> Forall2 P l l' -> Forall2 Q l l'.
  Proof. intros I1 F2. induction F2; constructor; auto. Qed.
  (** heap *)
  Lemma nth_upd_same {A} (l : list A) k a d : k < length l -> nth k (upd l k a) d = a.
  Proof. intros L. unfold upd. rewrite app_nth2; rewrite firstn_length_le by lia; [|lia]. rewrite Nat.sub_diag. reflexivity. Qed.
  Lemma nth_upd_other {A} (l : list A) k j a d : k < length l -> j <> k -> nth j (upd l k a) d = nth j l d.
  Proof.
    intros L N. unfold upd. destruct (Nat.lt_ge_cases j k) as [Lj|Lj].
    - rewrite app_nth1 by (rewrite firstn_length_le; lia). rewrite <- (firstn_skipn k l) at 2. rewrite app_nth1 by (rewrite firstn_length_le; lia). reflexivity.
    - rewrite app_nth2 by (rewrite firstn_length_le; lia). rewrite firstn_length_le by lia. rewrite <- (firstn_skipn (S k) l) at 2. rewrite app_nth2 by (rewrite firstn_length_le; lia). rewrite firstn_length_le by lia. replace (j - k) with (S (j - S k)) by lia. reflexivity.
  Qed.
  Lemma upd_length {A} (l : list A) k a : k < length l -> length (upd l k a) = length l.
  Proof. intros L. unfold upd. rewrite app_length, firstn_length_le by lia. cbn [length]. rewrite skipn_length. lia. Qed.
  Definition apart (a o : robj) : Prop :=
    o_src o <> o_src a /\ o_tgt o <> o_src a /\ match o_val o, o_val a with ODict l, ODict k => l <> k | _, _ => True end.
  Lemma alloc_ok r f : let (f', o) := alloc r f in view f' o = r /\ obj_ok f' o /\ if_state f' = if_state f /\ if_scores f' = if_scores f /\
    (forall q, obj_ok f q -> view f' q = view f q /\ obj_ok f' q /\ apart q o).
  Proof.
    unfold alloc. destruct r as [is it [t|d]]; cbn [i_src i_tgt i_val]; unfold view, obj_ok, apart; cbn [o_src o_tgt o_val h_lists h_dicts if_state if_scores].
    - split; [rewrite !app_nth2 by lia; replace (S (length (h_lists f)) - length (h_lists f)) with 1 by lia; rewrite Nat.sub_diag; reflexivity|]. rewrite !app_length. cbn [length]. split; [repeat split; lia|]. split; [reflexivity|]. split; [reflexivity|].
      intros q (A & B & C & D). split; [rewrite !app_nth1 by assumption; reflexivity|]. repeat split; try lia; auto.
    - split; [rewrite !app_nth2 by lia; replace (S (length (h_lists f)) - length (h_lists f)) with 1 by lia; rewrite !Nat.sub_diag; reflexivity|]. rewrite !app_length. cbn [length]. split; [repeat split; lia|]. split; [reflexivity|]. split; [reflexivity|].
      intros q (A & B & C & D). split; [rewrite !app_nth1 by assumption; destruct (o_val q); [|rewrite app_nth1 by assumption]; reflexivity|]. repeat split; try lia; destruct (o_val q); try exact Logic.I; try rewrite app_length; lia.
  Qed.
  Lemma cat_in_place_ok (e : dict string tensor) : forall ks (d d' : dict string tensor), NoDup ks -> cat_in_place ks e d = (d', Ok tt) ->
    dkeys d' = dkeys d /\ (forall k, In k ks -> exists a b c, dget k d = Some a /\ dget k e = Some b /\ tcat0 a b = Ok c /\ dget k d' = Some c) /\ (forall k, ~ In k ks -> dget k d' = dget k d).
  Proof.
    induction ks as [|k ks IH]; intros d d' N E; cbn [cat_in_place] in E; [injection E as <-; split; [reflexivity|split; [intros k []|reflexivity]]|]. apply NoDup_cons_iff in N. destruct N as (Nk & N').
    destruct (dgetM k d) as [a|] eqn:Ea; cbn [bind] in E; [|discriminate E]. destruct (dgetM k e) as [b|] eqn:Eb; cbn [bind] in E; [|discriminate E]. destruct (tcat0 a b) as [c|] eqn:Ec; [|discriminate E].
    unfold dgetM in Ea, Eb. destruct (dget k d) as [a'|] eqn:Da; [|discriminate Ea]. injection Ea as ->. destruct (dget k e) as [b'|] eqn:Db; [|discriminate Eb]. injection Eb as ->.
    destruct (IH _ _ N' E) as (K & I1 & I2). split; [rewrite K; apply dkeys_dset_in; apply dget_In_keys; eauto|]. split.
    - intros x [<-|Ix].
      + exists a, b, c. repeat (split; [assumption|]). rewrite (I2 k Nk). apply dget_dset_eq.
      + destruct (I1 x Ix) as (a1 & b1 & c1 & Q1 & Q2 & Q3 & Q4). rewrite dget_dset_neq in Q1 by (intros ->; contradiction). eauto 10.
    - intros x Nx. rewrite I2 by (intros J; apply Nx; right; exact J). apply dget_dset_neq. intros ->. apply Nx. left. reflexivity.
  Qed.
  Lemma stack_snoc ts t u (c : tensor) : u = stack ts -> ts <> [] -> tcat0 u t = Ok c -> c = stack (ts ++ [t]).
  Proof.
    intros -> NE E. unfold tcat0, stack in E. cbn [shape data] in E. destruct (shape t) as [|m r] eqn:St; [discriminate E|]. destruct (same_shape _ _); [|discriminate E]. injection E as <-. unfold stack. rewrite !map_app, list_sum_app, concat_app. cbn [map concat]. rewrite app_nil_r, St.
    destruct ts as [|t0 ts]; [congruence|]. cbn [app hd]. f_equal. f_equal. cbn. lia.
  Qed.
  (** [a] is the saved object, [o0] the first returned one, [os] the others with their values *)
  Definition inv (f : ifn) (a o0 : robj) (os : list robj) (r0 : infres) (rs : list infres) : Prop :=
    if_scores f = Some a /\ obj_ok f a /\ o_src o0 = o_src a /\ o_tgt o0 = o_tgt a /\
    i_src (view f a) = concat (map i_src (r0 :: rs)) /\ i_tgt (view f a) = i_tgt r0 /\ stacked (r0 :: rs) (i_val (view f a)) /\
    match o_val o0 with OMat t => i_val r0 = Mat t | ODict l => o_val a = ODict l end /\ dict_val (i_val r0) /\
    Forall2 (fun o r => view f o = r /\ obj_ok f o /\ apart a o) os rs.
  Lemma view_split (f : ifn) o : i_src (view f o) = nth (o_src o) (h_lists f) [] /\ i_tgt (view f o) = nth (o_tgt o) (h_lists f) [].
  Proof. split; reflexivity. Qed.
  Lemma stack_one (t : tensor) : shape t <> [] -> stack [t] = t.
  Proof. destruct t as [[|n sh] d]; cbn [shape]; intros N; [congruence|]. unfold stack. cbn. rewrite Nat.add_0_r, app_nil_r. reflexivity. Qed.
  Lemma step (f : ifn) a o0 os r0 rs r f' : inv f a o0 os r0 rs -> dict_val (i_val r) ->
    (let (f1, o) := alloc r f in merge_saved o f1) = (f', Ok tt) ->
    exists a', inv f' a' o0 (os ++ [snd (alloc r f)]) r0 (rs ++ [r]) /\ if_state f' = if_state f.
  Proof.
    intros (SC & OA & SO & TO & IS & IT & ST & VO & DV & FA) DR E. pose proof (alloc_ok r f) as AL. destruct (alloc r f) as [f1 o]. cbn [snd]. destruct AL as (VN & ON & ES & EC & KEEP).
    unfold merge_saved in E. rewrite EC, SC in E. destruct (KEEP a OA) as (VA & OA1 & AP). rewrite <- VA in IS, IT, ST. pose proof OA1 as (La & Lt & Ne & Ld).
    set (ls := upd (h_lists f1) (o_src a) (nth (o_src a) (h_lists f1) [] ++ nth (o_src o) (h_lists f1) [])) in *.
    assert (LL : length ls = length (h_lists f1)) by (apply upd_length; exact La).
    assert (OTH : forall j, j <> o_src a -> nth j ls [] = nth j (h_lists f1) []) by (intros j Nj; apply nth_upd_other; assumption).
    assert (SRC : nth (o_src a) ls [] = concat (map i_src (r0 :: rs ++ [r]))).
    { unfold ls. rewrite nth_upd_same by exact La. change (r0 :: rs ++ [r]) with ((r0 :: rs) ++ [r]). rewrite map_app, concat_app, <- IS. cbn [map concat]. rewrite app_nil_r. rewrite <- VN. reflexivity. }
    assert (FA1 : forall f', (forall j, j <> o_src a -> nth j (h_lists f') [] = nth j (h_lists f1) []) -> length (h_lists f') = length (h_lists f1) -> length (h_dicts f') = length (h_dicts f1) ->
      (forall l, match o_val a with ODict k => l <> k | OMat _ => True end -> nth l (h_dicts f') [] = nth l (h_dicts f1) []) -> forall a', o_src a' = o_src a -> (match o_val a', o_val a with ODict k', ODict k => k' = k | OMat _, OMat _ => True | _, _ => False end) ->
      Forall2 (fun o r => view f' o = r /\ obj_ok f' o /\ apart a' o) (os ++ [o]) (rs ++ [r])).
    { intros f2 N1 L1 L2 N2 a' Sa Va.
      assert (K : forall q, obj_ok f1 q -> apart a q -> view f2 q = view f1 q /\ obj_ok f2 q /\ apart a' q).
      { intros q (Q1 & Q2 & Q3 & Q4) (P1 & P2 & P3). split; [|split].
        - unfold view. rewrite (N1 _ P1), (N1 _ P2). destruct (o_val q) as [t|l]; [reflexivity|]. rewrite (N2 l); [reflexivity|]. destruct (o_val a); auto.
        - unfold obj_ok. rewrite L1. repeat (split; [assumption|]). destruct (o_val q); [exact Logic.I|]. rewrite L2. exact Q4.
        - unfold apart. rewrite Sa. repeat (split; [assumption|]). destruct (o_val q); [exact Logic.I|]. destruct (o_val a') as [|k'], (o_val a) as [|k]; try contradiction; [exact Logic.I|]. subst k'. exact P3. }
      apply Forall2_app.
      - eapply Forall2_mono; [|exact FA]. intros q x (V1 & O1 & A1). destruct (KEEP q O1) as (V2 & O2 & _). destruct (K q O2 A1) as (V3 & O3 & A3). rewrite V3, V2. auto.
      - constructor; [|constructor]. destruct (K o ON AP) as (V3 & O3 & A3). rewrite V3. auto. }
    assert (VR : i_val r = match o_val o with OMat t => Mat t | ODict l => Grp (nth l (h_dicts f1) []) end) by (rewrite <- VN; reflexivity).
    destruct (o_val o) as [t|l] eqn:Vo, (o_val a) as [u|k] eqn:Va; try discriminate E.
    - destruct (tcat0 u t) as [c|] eqn:Ec; [|discriminate E]. injection E as <-. exists (RObj (o_src a) (o_tgt a) (OMat c)). split; [|exact ES].
      split; [reflexivity|]. split; [repeat split; cbn [o_src o_tgt o_val h_lists]; rewrite ?LL; assumption|]. split; [exact SO|]. split; [exact TO|]. split; [exact SRC|]. split; [cbn [view i_tgt o_tgt h_lists]; rewrite OTH by auto; exact IT|].
      split; [|split; [|split; [exact DV|]]].
      + left. cbn [view i_val o_val]. destruct ST as [(ts & M & S0)|(d0 & ds & M & S0)]; cbn [view i_val] in S0; rewrite Va in S0; [|discriminate S0]. exists (ts ++ [t]). split; [change (r0 :: rs ++ [r]) with ((r0 :: rs) ++ [r]); rewrite !map_app, M; cbn [map]; rewrite VR; reflexivity|]. f_equal. injection S0 as ->. eapply stack_snoc; [reflexivity| |exact Ec]. intros ->. discriminate M.
      + destruct (o_val o0); [exact VO|]. discriminate VO.
      + apply FA1; try reflexivity; try assumption; exact Logic.I.
    - destruct (cat_in_place _ _ _) as [d' r1] eqn:Ec. injection E as <- ->. exists a. split; [|exact ES]. assert (LD : length (upd (h_dicts f1) k d') = length (h_dicts f1)) by (apply upd_length; exact Ld).
      destruct ST as [(ts & M & S0)|(d0 & ds & M & S0)]; cbn [view i_val] in S0; rewrite Va in S0; [discriminate S0|]. injection S0 as S0. change (nth k (h_dicts f1) [] = map (fun q => (fst q, stack (map (entry (fst q)) (d0 :: ds)))) d0) in S0.
      assert (KD : dkeys (nth k (h_dicts f1) []) = dkeys d0) by (rewrite S0; unfold dkeys; rewrite map_map; reflexivity).
      assert (E0 : i_val r0 = Grp d0) by (injection M as M _; exact M). rewrite E0 in DV. pose proof DV as (ND & _).
      assert (ND' : NoDup (dkeys (nth k (h_dicts f1) []))) by (rewrite KD; exact ND). destruct (cat_in_place_ok _ _ _ _ ND' Ec) as (C1 & C2 & _). rewrite KD in C1, C2.
      split; [reflexivity|]. split; [repeat split; cbn [h_lists h_dicts]; rewrite ?LL; try assumption; rewrite Va, LD; exact Ld|]. split; [exact SO|]. split; [exact TO|]. split; [exact SRC|]. split; [cbn [view i_tgt h_lists]; rewrite OTH by auto; exact IT|].
      split; [|split; [|split; [rewrite E0; exact DV|]]].
      + right. exists d0, (ds ++ [nth l (h_dicts f1) []]). split; [change (r0 :: rs ++ [r]) with ((r0 :: rs) ++ [r]); change (d0 :: ds ++ [nth l (h_dicts f1) []]) with ((d0 :: ds) ++ [nth l (h_dicts f1) []]); rewrite !map_app, M; cbn [map]; rewrite VR; reflexivity|].
        cbn [view i_val h_dicts]. rewrite Va, nth_upd_same by exact Ld. f_equal. apply dict_ext.
        * rewrite C1. exact ND.
        * rewrite C1. unfold dkeys. rewrite map_map. reflexivity.
        * intros x Ix. rewrite C1 in Ix. destruct (C2 x Ix) as (p & q & c & Q1 & Q2 & Q3 & Q4). rewrite Q4.
          rewrite S0, (dget_keyed (fun y => stack (map (entry y) (d0 :: ds)))) in Q1. rewrite (dget_keyed (fun y => stack (map (entry y) (d0 :: ds ++ [nth l (h_dicts f1) []])))). destruct (dget x d0) as [z|]; [|discriminate Q1]. cbn [option_map] in *. injection Q1 as <-. f_equal.
          change (d0 :: ds ++ [nth l (h_dicts f1) []]) with ((d0 :: ds) ++ [nth l (h_dicts f1) []]). rewrite map_app. replace (map (entry x) [nth l (h_dicts f1) []]) with [q] by (cbn [map]; unfold entry; rewrite Q2; reflexivity). eapply stack_snoc; [reflexivity|discriminate|exact Q3].
      + destruct (o_val o0) as [|l0]; [exact VO|]. rewrite Va. exact VO.
      + apply FA1; try reflexivity; try assumption; [intros x Nx; apply nth_upd_other; assumption|rewrite Va; reflexivity].
  Qed.
  Lemma first r (f : ifn) : dict_val (i_val r) -> if_scores f = None -> exists f' o, (let (f1, o) := alloc r f in merge_saved o f1) = (f', Ok tt) /\ o = snd (alloc r f) /\ inv f' o o [] r [] /\ if_state f' = if_state f.
  Proof.
    intros DV SN. pose proof (alloc_ok r f) as AL. destruct (alloc r f) as [f1 o]. destruct AL as (VN & ON & ES & EC & _). unfold merge_saved. rewrite EC, SN. exists (IFn (if_state f1) (h_lists f1) (h_dicts f1) (Some o)), o. split; [reflexivity|]. split; [reflexivity|]. split; [|exact ES].
    assert (VW : view (IFn (if_state f1) (h_lists f1) (h_dicts f1) (Some o)) o = r) by (rewrite <- VN; reflexivity).
    unfold inv. rewrite VW. split; [reflexivity|]. split; [exact ON|]. split; [reflexivity|]. split; [reflexivity|]. split; [cbn; rewrite app_nil_r; reflexivity|]. split; [reflexivity|]. split; [|split; [|split; [exact DV|constructor]]].
    - destruct (i_val r) as [t|d] eqn:Vr.
      + left. exists [t]. split; [cbn [map]; rewrite Vr; reflexivity|]. rewrite stack_one by exact DV. reflexivity.
      + right. exists d, []. split; [cbn [map]; rewrite Vr; reflexivity|]. f_equal. destruct DV as (ND & SD). apply dict_ext; [exact ND|unfold dkeys; rewrite map_map; reflexivity|]. intros k Ik. rewrite (dget_keyed (fun y => stack (map (entry y) [d]))). destruct (dget k d) as [t|] eqn:Dk; [|reflexivity]. cbn [option_map map]. f_equal. unfold entry. rewrite Dk. symmetry. apply stack_one.
        apply dget_In in Dk. rewrite Forall_forall in SD. apply (SD _ Dk).
    - destruct (o_val o) as [t|l] eqn:Vo; [|reflexivity]. rewrite <- VN. cbn [view i_val]. rewrite Vo. reflexivity.
  Qed.
  Lemma call_split c (f f' : ifn) o : call_all true c f = (f', Ok o) -> match o with
    | None => exists s, call_value c (if_state f) = (s, Ok None) /\ f' = IFn s (h_lists f) (h_dicts f) (if_scores f) /\ if_scores f = None
    | Some o => exists s r, call_value c (if_state f) = (s, Ok (Some r)) /\ let f0 := IFn s (h_lists f) (h_dicts f) (if_scores f) in (let (f1, o) := alloc r f0 in merge_saved o f1) = (f', Ok tt) /\ o = snd (alloc r f0)
    end.
  Proof.
    unfold SpecInfluence.call_all, compute_influence_all. intros E. apply sbind_ok in E. destruct E as (f1 & r & Er & E). fold (call_value c (if_state f)) in Er.
    destruct (call_value c (if_state f)) as [s rv]. injection Er as <- ->. destruct r as [r|].
    - apply sbind_ok in E. destruct E as (f2 & q & Eq & E). destruct (alloc r _) as [f3 o3] eqn:EA. injection Eq as <- <-. apply sbind_ok in E. destruct E as (f4 & [] & Em & E). injection E as <- <-. exists s, r. split; [reflexivity|]. cbv zeta. rewrite EA. auto.
    - cbv [sbind sget] in E. cbn [if_scores] in E. destruct (if_scores f) eqn:SF; [discriminate E|]. cbv [sret] in E. injection E as <- <-. exists s. auto.
  Qed.
  (** the rest of a history *)
  Lemma rest : forall cs (f f' : ifn) a o0 os r0 rs objs, inv f a o0 os r0 rs -> calls_all cs f = (f', Ok objs) ->
    exists a' os' rs', objs = map Some os' /\ calls_value cs (if_state f) = (if_state f', Ok (map Some rs')) /\ inv f' a' o0 (os ++ os') r0 (rs ++ rs').
  Proof.
    induction cs as [|c cs IH]; intros f f' a o0 os r0 rs objs IV E; cbn [SpecInfluence.calls_all SpecInfluence.calls_value] in *.
    - injection E as <- <-. exists a, [], []. rewrite !app_nil_r. auto.
    - apply sbind_ok in E. destruct E as (f1 & o & Eo & E). apply sbind_ok in E. destruct E as (f2 & os1 & E1 & E). injection E as <- <-. pose proof (call_split c f f1 o Eo) as CS. destruct o as [o|].
      + destruct CS as (s & r & Ev & Em & Eo'). cbv zeta in Em, Eo'.
        assert (IV0 : inv (IFn s (h_lists f) (h_dicts f) (if_scores f)) a o0 os r0 rs) by exact IV.
        destruct (step _ _ _ _ _ _ r f1 IV0 (value_dict c _ _ _ Ev) Em) as (a1 & IV1 & S1). rewrite <- Eo' in IV1. cbn [if_state] in S1.
        destruct (IH f1 f2 a1 o0 _ r0 _ os1 IV1 E1) as (a' & os' & rs' & -> & Ev' & IV'). exists a', (o :: os'), (r :: rs'). split; [reflexivity|]. rewrite <- !app_assoc in IV'. split; [|exact IV'].
        rewrite (sbind_run _ _ _ _ _ Ev). rewrite S1 in Ev'. rewrite (sbind_run _ _ _ _ _ Ev'). reflexivity.
      + destruct CS as (s & _ & _ & SN). destruct IV as (SC & _). rewrite SC in SN. discriminate SN.
  Qed.
  Theorem saved_history c cs (f f' : ifn) o objs : if_scores f = None -> calls_all (c :: cs) f = (f', Ok (Some o :: objs)) ->
    exists a os r rs, objs = map Some os /\ calls_value (c :: cs) (if_state f) = (if_state f', Ok (map Some (r :: rs))) /\ if_scores f' = Some a /\ i_src (view f' a) = concat (map i_src (r :: rs)) /\ i_tgt (view f' a) = i_tgt r /\ stacked (r :: rs) (i_val (view f' a)) /\ map (view f') os = rs /\ view f' o = InfRes (i_src (view f' a)) (i_tgt r) (match i_val r with Mat t => Mat t | Grp _ => i_val (view f' a) end).
  Proof.
    intros SN E. cbn [SpecInfluence.calls_all SpecInfluence.calls_value] in *. apply sbind_ok in E. destruct E as (f1 & o1 & Eo & E). apply sbind_ok in E. destruct E as (f2 & os1 & E1 & E). injection E as <- -> <-.
    destruct (call_split c f f1 (Some o) Eo) as (s & r & Ev & Em & Eo'). cbv zeta in Em, Eo'.
    destruct (first r (IFn s (h_lists f) (h_dicts f) (if_scores f)) (value_dict c _ _ _ Ev) SN) as (f3 & o3 & Em3 & Eo3 & IV & S3). rewrite Em in Em3. injection Em3 as <-. rewrite <- Eo' in Eo3. subst o3. cbn [if_state] in S3.
    destruct (rest cs f1 f2 o o [] r [] os1 IV E1) as (a & os & rs & -> & Evs & IV'). cbn [app] in IV'. exists a, os, r, rs. split; [reflexivity|]. split; [rewrite (sbind_run _ _ _ _ _ Ev); rewrite S3 in Evs; rewrite (sbind_run _ _ _ _ _ Evs); reflexivity|].
    destruct IV' as (SC & OA & SO & TO & IS & IT & ST & VO & DV & FA). repeat (split; [assumption|]). split.
    - clear - FA. induction FA as [|x y l l' (V & _) _ IH]; [reflexivity|]. cbn [map]. rewrite V, IH. reflexivity.
    - unfold view at 1. rewrite SO, TO. change (nth (o_src a) (h_lists f2) []) with (i_src (view f2 a)). change (nth (o_tgt a) (h_lists f2) []) with (i_tgt (view f2 a)). rewrite IT. f_equal. destruct (o_val o) as [t|l].
      + rewrite VO. reflexivity.
      + destruct ST as [(ts & M & S0)|(d0 & ds & M & S0)].
        * cbn [view i_val] in S0. rewrite VO in S0. discriminate S0.
        * injection M as M _. rewrite M. cbn [view i_val]. rewrite VO. reflexivity.
  Qed.
  (** the outcomes of a further call *)
  Lemma call_some save c (f : ifn) s r : call_value c (if_state f) = (s, Ok (Some r)) ->
    let f0 := IFn s (h_lists f) (h_dicts f) (if_scores f) in let (f1, o) := alloc r f0 in
    call_all save c f = (if save then match merge_saved o f1 with (f2, Ok _) => (f2, Ok (Some o)) | (f2, Err e) => (f2, Err e) end else (f1, Ok (Some o))).
  Proof.
    intros Ev. cbv zeta. destruct (alloc r _) as [f1 o] eqn:EA. unfold SpecInfluence.call_all, compute_influence_all, sbind. fold (call_value c (if_state f)). rewrite Ev, EA. destruct save; [|reflexivity]. destruct (merge_saved o f1) as [f2 [[]|e]]; reflexivity.
  Qed.
  Theorem saved_empty save c (f : ifn) s : call_value c (if_state f) = (s, Ok None) ->
    call_all save c f = (IFn s (h_lists f) (h_dicts f) (if_scores f), if save then match if_scores f with Some _ => Err KeyError | None => Ok None end else Ok None).
  Proof.
    intros Ev. unfold SpecInfluence.call_all, compute_influence_all, sbind. fold (call_value c (if_state f)). rewrite Ev. cbv [sget]. cbn [if_scores]. destruct save; [|reflexivity]. destruct (if_scores f); reflexivity.
  Qed.
  Theorem saved_error save c (f : ifn) s e : call_value c (if_state f) = (s, Err e) -> call_all save c f = (IFn s (h_lists f) (h_dicts f) (if_scores f), Err e).
  Proof. intros Ev. unfold SpecInfluence.call_all, compute_influence_all, sbind. fold (call_value c (if_state f)). rewrite Ev. reflexivity. Qed.
  Theorem unsaved c (f : ifn) s r : call_value c (if_state f) = (s, Ok (Some r)) ->
    exists f' o, call_all false c f = (f', Ok (Some o)) /\ view f' o = r /\ if_state f' = s /\ if_scores f' = if_scores f /\ (forall q, obj_ok f q -> view f' q = view f q).
  Proof.
    intros Ev. pose proof (call_some false c f s r Ev) as E. cbv zeta in E. pose proof (alloc_ok r (IFn s (h_lists f) (h_dicts f) (if_scores f))) as AL. destruct (alloc r _) as [f1 o]. destruct AL as (VN & ON & ES & EC & KEEP). exists f1, o. repeat (split; [assumption|]). intros q Q. apply (KEEP q Q).
  Qed.
  Lemma history_inv c cs (f f' : ifn) o objs : if_scores f = None -> calls_all (c :: cs) f = (f', Ok (Some o :: objs)) -> exists a os r rs, inv f' a o os r rs.
  Proof.
    intros SN E. cbn [SpecInfluence.calls_all] in *. apply sbind_ok in E. destruct E as (f1 & o1 & Eo & E). apply sbind_ok in E. destruct E as (f2 & os1 & E1 & E). injection E as <- -> <-.
    destruct (call_split c f f1 (Some o) Eo) as (s & r & Ev & Em & Eo'). cbv zeta in Em, Eo'.
    destruct (first r (IFn s (h_lists f) (h_dicts f) (if_scores f)) (value_dict c _ _ _ Ev) SN) as (f3 & o3 & Em3 & Eo3 & IV & S3). rewrite Em in Em3. injection Em3 as <-. rewrite <- Eo' in Eo3. subst o3.
    destruct (rest cs f1 f2 o o [] r [] os1 IV E1) as (a & os & rs & _ & _ & IV'). eauto.
  Qed.
  Lemma tcat0_clash (u v : tensor) : same_shape (tl (shape u)) (tl (shape v)) = false -> tcat0 u v = Err RuntimeError.
  Proof. unfold tcat0. destruct (shape u), (shape v); try reflexivity. cbn [tl]. intros ->. reflexivity. Qed.
  Theorem saved_failed c cs (f f1 : ifn) o objs c' s r e a : if_scores f = None -> calls_all (c :: cs) f = (f1, Ok (Some o :: objs)) ->
    call_value c' (if_state f1) = (s, Ok (Some r)) -> if_scores f1 = Some a -> clash (i_val (view f1 a)) (i_val r) = Some e ->
    exists f2, call_all true c' f1 = (f2, Err e) /\ if_scores f2 = Some a /\
      view f2 a = InfRes (i_src (view f1 a) ++ i_src r) (i_tgt (view f1 a)) (i_val (view f1 a)).
  Proof.
    intros SN EH Ev SA CL. destruct (history_inv c cs f f1 o objs SN EH) as (a' & os & r0 & rs & SC & OA & _). rewrite SA in SC. injection SC as <-.
    pose proof (call_some true c' f1 s r Ev) as E. cbv zeta in E. pose proof (alloc_ok r (IFn s (h_lists f1) (h_dicts f1) (if_scores f1))) as AL. destruct (alloc r _) as [f3 o3]. destruct AL as (VN & ON & ES & EC & KEEP).
    destruct (KEEP a OA) as (VA & OA1 & AP). change (view (IFn s (h_lists f1) (h_dicts f1) (if_scores f1)) a) with (view f1 a) in VA. rewrite <- VA in *. clear VA. cbn [if_scores] in EC. rewrite SA in EC.
    unfold merge_saved in E. rewrite EC in E. pose proof OA1 as (La & Lt & Ne & Ld).
    assert (G : forall ds sc, view (IFn (if_state f3) (upd (h_lists f3) (o_src a) (nth (o_src a) (h_lists f3) [] ++ nth (o_src o3) (h_lists f3) [])) ds sc) a = InfRes (i_src (view f3 a) ++ i_src r) (i_tgt (view f3 a)) (match o_val a with OMat t => Mat t | ODict l => Grp (nth l ds []) end)).
    { intros ds sc. unfold view. cbn [h_lists h_dicts i_src i_tgt]. rewrite nth_upd_same by exact La. rewrite nth_upd_other by auto. rewrite <- VN. reflexivity. }
    assert (VR : i_val r = match o_val o3 with OMat t => Mat t | ODict l => Grp (nth l (h_dicts f3) []) end) by (rewrite <- VN; reflexivity).
    assert (VV : i_val (view f3 a) = match o_val a with OMat t => Mat t | ODict l => Grp (nth l (h_dicts f3) []) end) by reflexivity.
    rewrite VR, VV in CL. rewrite VV.
    destruct (o_val o3) as [t|l] eqn:Vo, (o_val a) as [u|k] eqn:Va; cbn [clash] in CL; try discriminate CL.
    - destruct (same_shape _ _) eqn:SS; [discriminate CL|]. injection CL as <-. rewrite (tcat0_clash u t SS) in E. eexists. split; [exact E|]. split; [reflexivity|]. apply G.
    - injection CL as <-. eexists. split; [exact E|]. split; [reflexivity|]. apply G.
    - injection CL as <-. eexists. split; [exact E|]. split; [reflexivity|]. apply G.
  Qed.
  Lemma cat_in_place_missing (e : dict string tensor) : forall ks (d : dict string tensor), NoDup ks -> (forall k, In k ks -> In k (dkeys d)) -> (exists k, In k ks /\ dget k e = None) ->
    (forall k u v, In k ks -> dget k d = Some u -> dget k e = Some v -> exists c, tcat0 u v = Ok c) -> exists d', cat_in_place ks e d = (d', Err KeyError).
  Proof.
    induction ks as [|k ks IH]; intros d N IN (x & Ix & Dx) OKC; [destruct Ix|]. apply NoDup_cons_iff in N. destruct N as (Nk & N). cbn [cat_in_place]. destruct (proj2 (dget_In_keys k d) (IN k (or_introl eq_refl))) as (u & Du). unfold dgetM at 1. rewrite Du. cbn [bind]. unfold dgetM. destruct (dget k e) as [v|] eqn:Dv; cbn [bind]; [|eauto].
    destruct (OKC k u v (or_introl eq_refl) Du Dv) as (c & Ec). rewrite Ec. destruct Ix as [->|Ix]; [congruence|]. apply IH; [exact N| |eauto|].
    - intros y Iy. rewrite dkeys_dset_in; [apply IN; right; exact Iy|]. apply IN. left. reflexivity.
    - intros y u1 v1 Iy D1 D2. rewrite dget_dset_neq in D1 by (intros ->; contradiction). eapply OKC; eauto. right. exact Iy.
  Qed.
  Theorem saved_missing_group c cs (f f1 : ifn) o objs c' s r a d e : if_scores f = None -> calls_all (c :: cs) f = (f1, Ok (Some o :: objs)) ->
    call_value c' (if_state f1) = (s, Ok (Some r)) -> if_scores f1 = Some a -> i_val (view f1 a) = Grp d -> i_val r = Grp e ->
    (exists k, In k (dkeys d) /\ dget k e = None) -> (forall k u v, dget k d = Some u -> dget k e = Some v -> tl (shape u) = tl (shape v)) ->
    exists f2, call_all true c' f1 = (f2, Err KeyError) /\ if_scores f2 = Some a /\ i_src (view f2 a) = i_src (view f1 a) ++ i_src r.
  Proof.
    intros SN EH Ev SA VD VE MISS COL. destruct (history_inv c cs f f1 o objs SN EH) as (a' & os & r0 & rs & SC & OA & _ & _ & _ & _ & ST & _ & DV & _). rewrite SA in SC. injection SC as <-.
    pose proof (value_dict c' _ _ _ Ev) as DE. rewrite VE in DE. destruct DE as (_ & SE).
    assert (ND : NoDup (dkeys d) /\ forall k u, dget k d = Some u -> shape u <> []).
    { destruct ST as [(ts & M & S0)|(d0 & ds & M & S0)]; rewrite VD in S0; [discriminate S0|]. injection S0 as S0. injection M as M _. rewrite M in DV. destruct DV as (ND & _). split.
      - rewrite S0. unfold dkeys. rewrite map_map. exact ND.
      - intros k u Du. rewrite S0, (dget_keyed (fun y => stack (entry y d0 :: map (entry y) ds))) in Du. destruct (dget k d0); [|discriminate Du]. injection Du as <-. discriminate. }
    destruct ND as (ND & SD).
    pose proof (call_some true c' f1 s r Ev) as E. cbv zeta in E. pose proof (alloc_ok r (IFn s (h_lists f1) (h_dicts f1) (if_scores f1))) as AL. destruct (alloc r _) as [f3 o3]. destruct AL as (VN & ON & ES & EC & KEEP).
    destruct (KEEP a OA) as (VA & OA1 & AP). change (view (IFn s (h_lists f1) (h_dicts f1) (if_scores f1)) a) with (view f1 a) in VA. rewrite <- VA in *. clear VA. cbn [if_scores] in EC. rewrite SA in EC.
    unfold merge_saved in E. rewrite EC in E. pose proof OA1 as (La & Lt & Ne & Ld).
    assert (VR : i_val r = match o_val o3 with OMat t => Mat t | ODict l => Grp (nth l (h_dicts f3) []) end) by (rewrite <- VN; reflexivity).
    assert (VV : i_val (view f3 a) = match o_val a with OMat t => Mat t | ODict l => Grp (nth l (h_dicts f3) []) end) by reflexivity.
    rewrite VE in VR. rewrite VD in VV. destruct (o_val o3) as [t|l] eqn:Vo; [discriminate VR|]. destruct (o_val a) as [u|k] eqn:Va; [discriminate VV|]. injection VR as VR. injection VV as VV. subst e d.
    destruct (cat_in_place_missing _ _ _ ND (fun _ I0 => I0) MISS) as (d' & EP).
    { intros x u v _ Du Dv. specialize (COL x u v Du Dv). specialize (SD x u Du). apply dget_In in Dv. rewrite Forall_forall in SE. specialize (SE _ Dv). cbn [snd] in SE. unfold tcat0. destruct (shape u), (shape v); try congruence. cbn [tl] in COL. subst l1. rewrite same_shape_refl. eauto. }
    rewrite EP in E. eexists. split; [exact E|]. split; [reflexivity|]. cbn [view i_src h_lists]. rewrite nth_upd_same by exact La. f_equal. rewrite <- VN. reflexivity.
  Qed.
End Proofs.
