(** Merged logs. *)
From Verif Require Import Py PyStr Field Tensor ModelGrad Monad ModelState ModelInfluence SpecGrad SpecState SpecInfluence SpecLogs GradProofs1 StateProofs1 InfProofs1 InfProofs2 InfProofs13.
Local Open Scope nat_scope.

Section Proofs.
  Context {F : Type} `{OField F}.
  Notation tensor := (tensor F).
  Notation sval := (@sval F).
  Notation dten := (@dten F).
  Notation tlog := (@tlog F).

  Section Fold.
    Context {V E : Type} (g : option V -> E -> res V).
    Definition put (a : dict string V) (q : string * E) : res (dict string V) := let* y := g (dget (fst q) a) (snd q) in Ok (dset (fst q) y a).
    Lemma put_fold : forall L M, NoDup (dkeys L) ->
      match foldM put L M with
      | Ok M' => (forall k, match dget k L with None => dget k M' = dget k M | Some v => exists y, g (dget k M) v = Ok y /\ dget k M' = Some y end) /\ (NoDup (dkeys M) -> NoDup (dkeys M'))
      | Err e => exists k v, dget k L = Some v /\ g (dget k M) v = Err e
      end.
    Proof.
      induction L as [|[k v] L IH]; intros M N; cbn [foldM]; [split; [intros k; reflexivity|auto]|]. cbn [dkeys map fst] in N. apply NoDup_cons_iff in N. destruct N as (Nk & N). unfold put at 1. cbn [fst snd]. destruct (g (dget k M) v) as [y|e] eqn:Eg; cbn [bind].
      - specialize (IH (dset k y M) N). destruct (foldM put L (dset k y M)) as [M'|e].
        + destruct IH as (A & B). split; [|intros NM; apply B; apply NoDup_dset; exact NM]. intros x. cbn [dget]. destruct (eqb_spec x k) as [->|Nx].
          * specialize (A k). rewrite (proj2 (dget_None_keys k L) Nk) in A. exists y. split; [exact Eg|]. rewrite A. apply dget_dset_eq.
          * specialize (A x). destruct (dget x L) as [w|]; rewrite dget_dset_neq in A by exact Nx; exact A.
        + destruct IH as (x & w & D & G). assert (Nx : x <> k) by (intros ->; rewrite (proj2 (dget_None_keys k L) Nk) in D; discriminate D). exists x, w. cbn [dget]. rewrite dget_dset_neq in G by exact Nx. destruct (eqb_spec x k); [contradiction|]. auto.
      - exists k, v. cbn [dget]. rewrite eqb_refl. auto.
    Qed.
  End Fold.

  Definition padd (o : option dten) (x : dten) : res dten :=
    match o with
    | None => Ok x
    | Some t => if dev_eqb (fst t) (fst x) then let* c := tcat0 (snd t) (snd x) in Ok (fst t, c) else Err RuntimeError
    end.
  Definition madd (o : option (dict string dten)) (e : dict string dten) : res (dict string dten) := foldM (put padd) e (match o with Some a => a | None => [] end).
  Definition ladd (M L : tlog) : res tlog := foldM (put madd) L M.
  Definition up {A B} (f : A -> B) (r : res A) : res B := match r with Ok a => Ok (f a) | Err e => Err e end.
  Lemma map_dset {A B} (f : A -> B) k v (d : dict string A) : map (fun p => (fst p, f (snd p))) (dset k v d) = dset k (f v) (map (fun p => (fst p, f (snd p))) d).
  Proof. induction d as [|[x w] d IH]; [reflexivity|]. cbn [dset map fst snd]. destruct (eqb k x); cbn [map fst snd]; [reflexivity|]. rewrite IH. reflexivity. Qed.
  Lemma merge_leafs : forall e a : dict string dten, merge_log_dict (leafs a) (leafs e) = up leafs (foldM (put padd) e a).
  Proof.
    unfold leafs. induction e as [|[k x] e IH]; intros a; [reflexivity|]. cbn [merge_log_dict map foldM fst snd] in IH |- *. unfold put at 1. cbn [fst snd].
    rewrite (dget_map (fun x : dten => Leaf (VT x))). destruct (dget k a) as [t|] eqn:Da; cbn [option_map padd].
    - destruct (dev_eqb (fst t) (fst x)); [|reflexivity]. destruct (tcat0 (snd t) (snd x)) as [c|]; cbn [bind]; [|reflexivity]. rewrite <- (map_dset (fun x : dten => Leaf (VT x)) k (fst t, c) a). apply IH.
    - cbn [bind]. rewrite <- (map_dset (fun x : dten => Leaf (VT x)) k x a). apply IH.
  Qed.
  Definition node (e : dict string dten) : nd sval := Node (map (fun q => (fst q, Leaf (VT (snd q)))) e).
  Lemma merge_log (M L : tlog) : merge_log_dict (log_nd M) (log_nd L) = up log_nd (ladd M L).
  Proof.
    unfold log_nd, ladd. revert M. induction L as [|[k x] L IH]; intros M; [reflexivity|]. cbn [merge_log_dict map foldM fst snd] in IH |- *. unfold put at 1. cbn [fst snd].
    rewrite (dget_map node). set (sub := match option_map node (dget k M) with Some y => y | None => Node [] end).
    assert (ES : sub = leafs (match dget k M with Some y => y | None => [] end)) by (unfold sub; destruct (dget k M); reflexivity).
    change (Node (map (fun q => (fst q, Leaf (VT (snd q)))) x)) with (leafs x). 
    pose proof (merge_leafs x (match dget k M with Some y => y | None => [] end)) as ML. rewrite <- ES in ML. change (foldM (put padd) x (match dget k M with Some y => y | None => [] end)) with (madd (dget k M) x) in ML.
    match goal with |- bind ?e _ = _ => change e with (merge_log_dict sub (leafs x)) end. rewrite ML. destruct (madd (dget k M) x) as [y|e]; cbn [up bind]; [|reflexivity].
    etransitivity; [|exact (IH (dset k y M))]. f_equal. f_equal. symmetry. exact (map_dset node k y M).
  Qed.
  Lemma ladd_spec (M L : tlog) : ok_log L -> match ladd M L with
    | Ok M' => (forall m t, match look L m t with None => look M' m t = look M m t | Some v => exists y, padd (look M m t) v = Ok y /\ look M' m t = Some y end) /\ (ok_log M -> ok_log M')
    | Err e => exists m t v, look L m t = Some v /\ padd (look M m t) v = Err e
    end.
  Proof.
    intros (NL & NE). assert (NM : forall m e, dget m L = Some e -> NoDup (dkeys e)). { intros m e D. apply dget_In in D. rewrite Forall_forall in NE. apply (NE _ D). }
    pose proof (put_fold madd L M NL) as P. unfold ladd. destruct (foldM (put madd) L M) as [M'|e].
    - destruct P as (P & NN). split.
      + intros m t. specialize (P m). unfold look. destruct (dget m L) as [e|] eqn:Dm; [|rewrite P; reflexivity]. destruct P as (y & Ey & Dy). unfold madd in Ey. pose proof (put_fold padd e (match dget m M with Some a => a | None => [] end) (NM m e Dm)) as Q. rewrite Ey in Q. destruct Q as (Q & _). specialize (Q t). rewrite Dy.
        destruct (dget t e) as [v|]; destruct (dget m M); exact Q.
      + intros (M1 & M2). split; [apply NN; exact M1|]. apply Forall_forall. intros [m e'] I'. cbn [snd]. apply In_dget in I'; [|apply NN; exact M1]. specialize (P m). rewrite I' in P. rewrite Forall_forall in M2.
        assert (MM : NoDup (dkeys (match dget m M with Some a => a | None => [] end))). { destruct (dget m M) as [a|] eqn:Da; [|constructor]. apply dget_In in Da. apply (M2 _ Da). }
        destruct (dget m L) as [e|] eqn:Dm.
        * destruct P as (y & Ey & Dy). injection Dy as <-. unfold madd in Ey. pose proof (put_fold padd e (match dget m M with Some a => a | None => [] end) (NM m e Dm)) as Q. rewrite Ey in Q. apply Q. exact MM.
        * rewrite <- P in MM. exact MM.
    - destruct P as (m & w & Dm & Em). unfold madd in Em. pose proof (put_fold padd w (match dget m M with Some a => a | None => [] end) (NM m w Dm)) as Q. rewrite Em in Q. destruct Q as (t & v & Dt & Et). exists m, t, v. unfold look. rewrite Dm. split; [exact Dt|]. destruct (dget m M); exact Et.
  Qed.
  Definition padds (o : option dten) (ps : list dten) : res (option dten) := foldM (fun o x => let* y := padd o x in Ok (Some y)) ps o.
  Definition lmerge (logs : list (list string * tlog)) (acc : list string * tlog) : res (list string * tlog) :=
    foldM (fun acc l => let* d := ladd (snd acc) (snd l) in Ok (fst acc ++ fst l, d)) logs acc.
  Lemma merge_lmerge : forall logs acc, foldM (fun acc l => let* d := merge_log_dict (snd acc) (snd l) in Ok (fst acc ++ fst l, d)) (as_logs logs) (fst acc, log_nd (snd acc)) = up (fun p => (fst p, log_nd (snd p))) (lmerge logs acc).
  Proof.
    induction logs as [|l logs IH]; intros acc; [reflexivity|]. cbn [as_logs map foldM fst snd lmerge]. rewrite merge_log. unfold lmerge. cbn [foldM]. destruct (ladd (snd acc) (snd l)) as [M|e]; cbn [up bind]; [|reflexivity]. apply (IH (fst acc ++ fst l, M)).
  Qed.
  Lemma lmerge_spec : forall logs ids (M : tlog), Forall (fun p => ok_log (snd p)) logs -> ok_log M ->
    match lmerge logs (ids, M) with
    | Ok (ids', M') => ids' = ids ++ concat (map fst logs) /\ ok_log M' /\ forall m t, padds (look M m t) (pieces m t logs) = Ok (look M' m t)
    | Err e => exists m t, padds (look M m t) (pieces m t logs) = Err e
    end.
  Proof.
    induction logs as [|[is L] logs IH]; intros ids M FO OM.
    - cbn. rewrite app_nil_r. auto.
    - unfold lmerge. cbn [foldM fst snd]. inversion FO as [|? ? OL FO']; subst. cbn [snd] in OL. pose proof (ladd_spec M L OL) as SP. destruct (ladd M L) as [M1|e]; cbn [bind].
      + destruct SP as (SP & O1). specialize (IH (ids ++ is) M1 FO' (O1 OM)). fold (lmerge logs (ids ++ is, M1)).
        assert (EQ : forall m t, padds (look M m t) (pieces m t ((is, L) :: logs)) = padds (look M1 m t) (pieces m t logs)).
        { intros m t. specialize (SP m t). unfold pieces, padds. cbn [flat_map snd]. destruct (look L m t) as [v|]; cbn [app foldM]; [|rewrite SP; reflexivity]. destruct SP as (y & Ey & Dy). rewrite Ey, Dy. reflexivity. }
        destruct (lmerge logs (ids ++ is, M1)) as [[ids' M']|e].
        * destruct IH as (A & B & C). split; [rewrite A; cbn [map concat fst]; rewrite app_assoc; reflexivity|]. split; [exact B|]. intros m t. rewrite EQ. apply C.
        * destruct IH as (m & t & C). exists m, t. rewrite EQ. exact C.
      + destruct SP as (m & t & v & Dv & Ev). exists m, t. unfold pieces, padds. cbn [flat_map snd]. rewrite Dv. cbn [app foldM]. rewrite Ev. reflexivity.
  Qed.
  Lemma padd_eq d u (x : dten) : padd (Some (d, u)) x = if dev_eqb d (fst x) then let* c := tcat0 u (snd x) in Ok (d, c) else Err RuntimeError.
  Proof. reflexivity. Qed.
  Lemma dev_eqb_true a b : dev_eqb a b = true -> b = a.
  Proof. destruct a, b; cbn; congruence. Qed.
  Lemma padds_stack rest : forall ps ts d, ts <> [] -> tl (shape (hd (T [] []) ts)) = rest ->
    ((forall q, In q ps -> fst q = d /\ exists n, shape (snd q) = n :: rest) /\ padds (Some (d, stack ts)) ps = Ok (Some (d, stack (ts ++ map snd ps)))) \/
    (~ (forall q, In q ps -> fst q = d /\ exists n, shape (snd q) = n :: rest) /\ padds (Some (d, stack ts)) ps = Err RuntimeError).
  Proof.
    induction ps as [|[d' t] ps IH]; intros ts d NE TS.
    - left. split; [intros q []|]. cbn. rewrite app_nil_r. reflexivity.
    - unfold padds. cbn [foldM]. rewrite padd_eq. cbn [fst snd].
      destruct (dev_eqb d d') eqn:Ed; [|right; split; [|reflexivity]; intros A; destruct (A (d', t) (or_introl eq_refl)) as (Q & _); cbn [fst] in Q; subst d'; destruct d; discriminate Ed]. apply dev_eqb_true in Ed. subst d'.
      destruct (tcat0 (stack ts) t) as [c|e] eqn:Ec; cbn [bind].
      + assert (SH : exists n, shape t = n :: rest). { unfold tcat0, stack in Ec. cbn [shape] in Ec. destruct (shape t) as [|n r]; [discriminate Ec|]. destruct (same_shape _ _) eqn:SS; [|discriminate Ec]. apply same_shape_true in SS. exists n. congruence. }
        rewrite (stack_snoc ts t (stack ts) c eq_refl NE Ec). fold (padds (Some (d, stack (ts ++ [t]))) ps).
        assert (NE' : ts ++ [t] <> []) by (destruct ts; discriminate). assert (TS' : tl (shape (hd (T [] []) (ts ++ [t]))) = rest) by (destruct ts; [congruence|exact TS]).
        destruct (IH (ts ++ [t]) d NE' TS') as [(A & B)|(A & B)].
        * left. split; [intros q [<-|Iq]; [split; [reflexivity|exact SH]|apply A; exact Iq]|]. etransitivity; [exact B|]. rewrite <- app_assoc. reflexivity.
        * right. split; [|exact B]. intros Q. apply A. intros q Iq. apply Q. right. exact Iq.
      + right. split.
        * intros A. destruct (A (d, t) (or_introl eq_refl)) as (_ & n & Sn). cbn [snd] in Sn. unfold tcat0, stack in Ec. cbn [shape] in Ec. rewrite Sn, TS, same_shape_refl in Ec. discriminate Ec.
        * unfold tcat0 in Ec. destruct (shape (stack ts)), (shape t); try (injection Ec as <-; reflexivity). destruct (same_shape _ _); [discriminate Ec|]. injection Ec as <-. reflexivity.
  Qed.
  Lemma padds_fit ps : (fit ps /\ padds None ps = Ok (joined ps)) \/ (~ fit ps /\ padds None ps = Err RuntimeError).
  Proof.
    destruct ps as [|[d t] ps]; [left; split; [exact Logic.I|reflexivity]|]. unfold padds. cbn [foldM padd bind]. fold (padds (Some (d, t)) ps). destruct ps as [|q ps]; [left; split; [exact Logic.I|reflexivity]|].
    destruct (shape t) as [|n rest] eqn:St.
    - right. split.
      + intros (rest & A). destruct (A (d, t) (or_introl eq_refl)) as (_ & n & Sn). cbn [snd] in Sn. congruence.
      + unfold padds. cbn [foldM]. rewrite padd_eq. unfold tcat0. rewrite St. destruct (dev_eqb _ _); reflexivity.
    - assert (S1 : stack [t] = t) by (apply stack_one; rewrite St; discriminate). destruct (padds_stack rest (q :: ps) [t] d ltac:(discriminate)) as [(A & B)|(A & B)]; [cbn [hd]; rewrite St; reflexivity| |]; rewrite S1 in B.
      + left. split; [|exact B]. exists rest. intros x [<-|Ix]; [|apply A; exact Ix]. cbn [fst snd]. split; [reflexivity|]. exists n. exact St.
      + right. split; [|exact B]. intros (rest' & A'). apply A. assert (rest' = rest) as ->. { destruct (A' (d, t) (or_introl eq_refl)) as (_ & n' & Sn'). cbn [snd] in Sn'. congruence. } intros x Ix. apply A'. right. exact Ix.
  Qed.
  Definition nolog : tlog := [].
  Theorem merge_ok (logs : list (list string * tlog)) : Forall (fun p => ok_log (snd p)) logs -> (forall m t, fit (pieces m t logs)) ->
    exists M : tlog, merge_logs (as_logs logs) = Ok (concat (map fst logs), log_nd M) /\ ok_log M /\ forall m t, look M m t = joined (pieces m t logs).
  Proof.
    intros FO FT. unfold merge_logs. change ([], @Node sval []) with (fst (@nil string, nolog), log_nd (snd (@nil string, nolog))). rewrite merge_lmerge.
    pose proof (lmerge_spec logs [] nolog FO ltac:(split; constructor)) as SP. destruct (lmerge logs ([], nolog)) as [[ids M]|e]; cbn [up].
    - destruct SP as (-> & OM & LK). exists M. split; [reflexivity|]. split; [exact OM|]. intros m t. specialize (LK m t). change (look nolog m t) with (@None dten) in LK. destruct (padds_fit (pieces m t logs)) as [(_ & E)|(NF & _)]; [|destruct (NF (FT m t))]. rewrite E in LK. congruence.
    - destruct SP as (m & t & E). change (look nolog m t) with (@None dten) in E. destruct (padds_fit (pieces m t logs)) as [(_ & E')|(NF & _)]; [|destruct (NF (FT m t))]. congruence.
  Qed.
  Theorem merge_misfit (logs : list (list string * tlog)) m t : Forall (fun p => ok_log (snd p)) logs -> ~ fit (pieces m t logs) -> merge_logs (as_logs logs) = Err RuntimeError.
  Proof.
    intros FO NF. unfold merge_logs. change ([], @Node sval []) with (fst (@nil string, nolog), log_nd (snd (@nil string, nolog))). rewrite merge_lmerge.
    pose proof (lmerge_spec logs [] nolog FO ltac:(split; constructor)) as SP. destruct (lmerge logs ([], nolog)) as [[ids M]|e]; cbn [up].
    - destruct SP as (_ & _ & LK). specialize (LK m t). change (look nolog m t) with (@None dten) in LK. destruct (padds_fit (pieces m t logs)) as [(FT & _)|(_ & E)]; [destruct (NF FT)|]. rewrite E in LK. discriminate LK.
    - destruct SP as (m' & t' & E). change (look nolog m' t') with (@None dten) in E. destruct (padds_fit (pieces m' t' logs)) as [(_ & E')|(_ & E')]; rewrite E' in E; congruence.
  Qed.
  Lemma lsum_cons a l : list_sum (a :: l) = a + list_sum l.
  Proof. reflexivity. Qed.
  (** sample counts: rows of merged tensors are rows of the logs that have the entry *)
  Theorem merge_size m t logs (x : dten) : joined (pieces m t logs) = Some x ->
    size x = list_sum (map (fun p => match look (snd p) m t with Some q => size q | None => 0 end) logs).
  Proof.
    intros J. assert (E : size x = list_sum (map size (pieces m t logs))).
    { destruct (pieces m t logs) as [|p [|q ps]]; [discriminate J| |]; injection J as <-; [cbn [map list_sum fold_right]; rewrite Nat.add_0_r; reflexivity|]. unfold size. cbn [fst snd stack shape hd map]. rewrite map_map. reflexivity. }
    rewrite E. clear. unfold pieces. induction logs as [|l logs IH]; [reflexivity|]. cbn [flat_map map]. rewrite lsum_cons, map_app, list_sum_app, IH. destruct (look (snd l) m t); cbn [map]; rewrite ?lsum_cons; cbn [list_sum fold_right]; lia.
  Qed.
  Lemma stack_slice rest : forall (ts : list tensor) i j, (forall t, In t ts -> twf t /\ exists n, shape t = n :: rest) -> i < length ts -> j < hd 0 (shape (nth i ts (T [] []))) ->
    slice (stack ts) (list_sum (map (fun t => hd 0 (shape t)) (firstn i ts)) + j) = slice (nth i ts (T [] [])) j.
  Proof.
    intros ts i j FT Li Lj. assert (HT : tl (shape (stack ts)) = rest). { destruct ts as [|t ts]; [cbn in Li; lia|]. cbn [stack shape tl hd]. destruct (FT t (or_introl eq_refl)) as (_ & n & ->). reflexivity. }
    destruct (FT (nth i ts (T [] [])) (nth_In _ _ Li)) as (Wi & n & Sn). unfold slice. rewrite HT, Sn. cbn [tl]. f_equal. rewrite Sn in Lj. cbn [hd] in Lj.
    cbn [stack data]. clear HT. revert i Li Sn Wi. induction ts as [|t ts IH]; intros i Li Sn Wi; [cbn in Li; lia|]. destruct (FT t (or_introl eq_refl)) as (Wt & k & Sk).
    assert (Dt : length (data t) = k * prod rest) by (unfold twf in Wt; rewrite Wt, Sk, prod_cons; reflexivity).
    destruct i as [|i]; cbn [nth firstn map concat] in *; [change (list_sum []) with 0|rewrite lsum_cons].
    - rewrite Sn in Sk. injection Sk as <-. rewrite Nat.add_0_l. rewrite skipn_app, firstn_app. assert (B : (j + 1) * prod rest <= n * prod rest) by (apply Nat.mul_le_mono_r; lia). replace (prod rest - length (skipn (j * prod rest) (data t))) with 0 by (rewrite skipn_length; lia). cbn [firstn]. rewrite app_nil_r. reflexivity.
    - rewrite <- (IH (fun x Ix => FT x (or_intror Ix)) i ltac:(cbn in Li; lia) Sn Wi). rewrite Sk. cbn [hd]. f_equal. rewrite skipn_app. rewrite skipn_all2 by (rewrite Dt; apply Nat.mul_le_mono_r; lia). cbn [app]. f_equal. rewrite Dt. rewrite <- Nat.mul_sub_distr_r. f_equal. lia.
  Qed.
  Theorem merge_rows m t (logs : list (list string * tlog)) (x : dten) i j q : joined (pieces m t logs) = Some x -> (forall p, In p logs -> look (snd p) m t <> None) -> fit (pieces m t logs) ->
    (forall p, In p (pieces m t logs) -> twf (snd p) /\ shape (snd p) <> []) -> nth_error logs i = Some q -> j < length (fst q) -> (forall p y, In p logs -> look (snd p) m t = Some y -> size y = length (fst p)) ->
    exists y, look (snd q) m t = Some y /\ nth_error (concat (map fst logs)) (length (concat (map fst (firstn i logs))) + j) = nth_error (fst q) j /\
      slice (snd x) (length (concat (map fst (firstn i logs))) + j) = slice (snd y) j.
  Proof.
    intros J ALL FT WF NQ Lj SZ. destruct (look (snd q) m t) as [y|] eqn:Dy; [|destruct (ALL q (nth_error_In _ _ NQ) Dy)]. exists y. split; [reflexivity|].
    assert (SP : logs = firstn i logs ++ q :: skipn (S i) logs). { apply nth_error_split in NQ. destruct NQ as (l1 & l2 & -> & <-). rewrite firstn_app, Nat.sub_diag, firstn_all. cbn [firstn]. rewrite app_nil_r. rewrite skipn_app. rewrite skipn_all2 by lia. replace (S (length l1) - length l1) with 1 by lia. reflexivity. }
    split.
    - rewrite SP at 1. rewrite map_app, concat_app. cbn [map concat]. rewrite nth_error_app2 by lia. replace (_ + j - _) with j by lia. apply nth_error_app1. exact Lj.
    - assert (PL : forall l : list (list string * tlog), (forall p, In p l -> look (snd p) m t <> None) -> length (pieces m t l) = length l). { clear. induction l as [|p l IH]; intros A; [reflexivity|]. unfold pieces. cbn [flat_map]. rewrite app_length. fold (pieces m t l). rewrite IH by (intros r Ir; apply A; right; exact Ir). specialize (A p (or_introl eq_refl)). destruct (look (snd p) m t); [reflexivity|congruence]. }
      assert (PP : pieces m t logs = pieces m t (firstn i logs) ++ y :: pieces m t (skipn (S i) logs)). { rewrite SP at 1. unfold pieces. rewrite flat_map_app. cbn [flat_map]. rewrite Dy. reflexivity. }
      assert (Li : i < length logs) by (apply nth_error_Some; congruence).
      assert (LF : length (pieces m t (firstn i logs)) = i). { rewrite PL; [apply firstn_length_le; lia|]. intros p Ip. apply ALL. rewrite <- (firstn_skipn i logs). apply in_or_app. left. exact Ip. }
      assert (XS : snd x = stack (map snd (pieces m t logs))). { destruct (pieces m t logs) as [|p [|p' ps]]; [discriminate J| |]; injection J as <-; [|reflexivity]. cbn [map]. symmetry. apply stack_one. apply WF. left. reflexivity. }
      assert (LN : nth i (map snd (pieces m t logs)) (T [] []) = snd y). { rewrite PP, map_app, app_nth2 by (rewrite map_length; lia). rewrite map_length, LF, Nat.sub_diag. reflexivity. }
      assert (OFF : length (concat (map fst (firstn i logs))) = list_sum (map (fun t => hd 0 (shape t)) (firstn i (map snd (pieces m t logs))))).
      { rewrite PP, map_app, firstn_app, map_length, LF, Nat.sub_diag. cbn [firstn]. rewrite app_nil_r, (firstn_all2 (map snd (pieces m t (firstn i logs)))) by (rewrite map_length; apply Nat.eq_le_incl; exact LF). rewrite map_map.
        assert (A1 : forall p, In p (firstn i logs) -> In p logs) by (intros p Ip; rewrite <- (firstn_skipn i logs); apply in_or_app; left; exact Ip).
        revert A1. generalize (firstn i logs). intros l. induction l as [|p l IH]; intros A1; [reflexivity|]. unfold pieces. cbn [map concat flat_map]. rewrite app_length, IH by (intros r Ir; apply A1; right; exact Ir). rewrite map_app, list_sum_app. f_equal. destruct (look (snd p) m t) as [z|] eqn:Dz; [|destruct (ALL p (A1 p (or_introl eq_refl)) Dz)]. cbn [map list_sum fold_right]. rewrite <- (SZ p z (A1 p (or_introl eq_refl)) Dz). unfold size. lia. }
      assert (RS : exists rest, forall u, In u (map snd (pieces m t logs)) -> twf u /\ exists n, shape u = n :: rest).
      { unfold fit in FT. destruct (pieces m t logs) as [|p [|p' ps]].
        - exists []. intros u [].
        - destruct (shape (snd p)) as [|n rest] eqn:Sp; [destruct (proj2 (WF p (or_introl eq_refl)) Sp)|]. exists rest. intros u [<-|[]]. split; [apply WF; left; reflexivity|]. exists n. exact Sp.
        - destruct FT as (rest & FT). exists rest. intros u Iu. apply in_map_iff in Iu. destruct Iu as (z & <- & Iz). split; [apply WF; exact Iz|]. apply (FT z Iz). }
      destruct RS as (rest & RS). rewrite XS, OFF, <- LN. apply (stack_slice rest _ i j RS); [rewrite map_length, PP, app_length, LF; cbn [length]; lia|]. rewrite LN. change (hd 0 (shape (snd y))) with (size y). rewrite (SZ q y (nth_error_In _ _ NQ) Dy). exact Lj.
  Qed.
End Proofs.
