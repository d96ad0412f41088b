(** Source samples handed over in several calls. *)
From Verif Require Import Py PyStr Field Tensor ModelGrad Monad ModelState ModelInfluence SpecGrad SpecState SpecInfluence SpecRows GradProofs1 GradProofs2 StateProofs1 InfProofs1 InfProofs2 InfProofs10 InfProofs13 InfProofs14 InfProofs15 InfProofs16 InfProofs17 InfProofs18.
Local Open Scope string_scope.
Local Open Scope list_scope.
Local Open Scope nat_scope.

Section Proofs.
  Context {F : Type} `{OField F}.
  Notation tensor := (tensor F).
  Notation lstate := (@lstate F).
  Notation dten := (@dten F).
  Notation tlog := (@tlog F).
  Notation ifn := (@ifn F).
  Notation infres := (@infres F).
  Variable eigh : tensor -> res (tensor * tensor).
  Variable inverse : tensor -> res tensor.
  Variable fsqrt : F -> F.
  Notation precondition := (precondition eigh inverse).
  Notation influence_all := (influence_all eigh inverse fsqrt).
  Notation call_all := (call_all eigh inverse fsqrt).
  Notation call_value := (call_value eigh inverse fsqrt).
  Notation calls_all := (calls_all eigh inverse fsqrt).

  Lemma cat_rest (e : dict string tensor) : forall rest pre r, NoDup (dkeys (pre ++ rest)) -> cat_groups true rest e = Ok r ->
    cat_in_place (dkeys rest) e (pre ++ rest) = (pre ++ r, Ok tt).
  Proof.
    induction rest as [|[k t] rest IH]; intros pre r N E; unfold cat_groups in E; cbn [mapM] in E; [injection E as <-; reflexivity|]. apply bind_ok in E. destruct E as (q & E1 & E). apply bind_ok in E. destruct E as (r1 & E2 & E). injection E as <-.
    cbn [fst snd] in E1. apply bind_ok in E1. destruct E1 as (u & E1 & E3). apply bind_ok in E3. destruct E3 as (c & E3 & E4). injection E4 as <-. cbn [dkeys map fst cat_in_place].
    assert (Nk : ~ In k (dkeys pre)). { unfold dkeys in *. rewrite map_app in N. cbn [map fst] in N. apply NoDup_remove_2 in N. intros J. apply N. apply in_or_app. left. exact J. }
    assert (G : dget k (pre ++ (k, t) :: rest) = Some t). { clear -Nk. induction pre as [|[x v] pre IH]; cbn [app dget]; [rewrite eqb_refl; reflexivity|]. cbn [dkeys map fst] in Nk. rewrite eqb_neq by (intros ->; apply Nk; left; reflexivity). apply IH. intros J. apply Nk. right. exact J. }
    assert (D : dset k c (pre ++ (k, t) :: rest) = (pre ++ [(k, c)]) ++ rest). { clear -Nk. induction pre as [|[x v] pre IH]; cbn [app dset]; [rewrite eqb_refl; reflexivity|]. cbn [dkeys map fst] in Nk. rewrite eqb_neq by (intros ->; apply Nk; left; reflexivity). f_equal. apply IH. intros J. apply Nk. right. exact J. }
    unfold dgetM at 1. rewrite G. cbn [bind]. rewrite E1. cbn [bind]. cbn [cat_axis] in E3. rewrite E3, D.
    change (map fst rest) with (dkeys rest). rewrite (IH (pre ++ [(k, c)]) r1); [rewrite <- app_assoc; reflexivity| |exact E2].
    unfold dkeys in *. rewrite !map_app in *. cbn [map fst] in *. rewrite <- app_assoc. exact N.
  Qed.
  Lemma cat_whole (d e r : dict string tensor) : NoDup (dkeys d) -> cat_groups true d e = Ok r -> cat_in_place (dkeys d) e d = (r, Ok tt).
  Proof. intros N E. apply (cat_rest e d [] r N E). Qed.

  Lemma saved_call c (f : ifn) s r : call_value c (if_state f) = (s, Ok (Some r)) ->
    call_all true c f = (let (f1, o) := alloc r (IFn s (h_lists f) (h_dicts f) (if_scores f)) in (merge_saved o ;; sret (Some o)) f1).
  Proof.
    intros E. unfold SpecInfluence.call_all, compute_influence_all. unfold SpecInfluence.call_value in E. unfold sbind at 1. rewrite E. unfold sbind at 1.
    destruct (alloc r _) as [f1 o]. reflexivity.
  Qed.
  Lemma saved_first c (f : ifn) s r : if_scores f = None -> call_value c (if_state f) = (s, Ok (Some r)) ->
    exists f' o, call_all true c f = (f', Ok (Some o)) /\ if_state f' = s /\ saved f' r.
  Proof.
    intros SN E. rewrite (saved_call c f s r E). pose proof (alloc_ok r (IFn s (h_lists f) (h_dicts f) (if_scores f))) as AL. destruct (alloc r _) as [f1 o]. cbn [if_state if_scores] in AL. destruct AL as (VN & ON & ES & EC & _).
    unfold sbind, merge_saved. rewrite EC, SN. eexists. exists o. split; [reflexivity|]. split; [exact ES|]. exists o. split; [reflexivity|]. split; [exact ON|]. rewrite <- VN. reflexivity.
  Qed.
  Lemma saved_step c (f : ifn) w s r v : saved f w -> call_value c (if_state f) = (s, Ok (Some r)) -> merge_val true (i_val w) (i_val r) = Ok v ->
    match i_val w with Mat _ => True | Grp d => NoDup (dkeys d) end ->
    exists f' o, call_all true c f = (f', Ok (Some o)) /\ if_state f' = s /\ saved f' (InfRes (i_src w ++ i_src r) (i_tgt w) v).
  Proof.
    intros (a & SC & OA & VA) E M N. rewrite (saved_call c f s r E). pose proof (alloc_ok r (IFn s (h_lists f) (h_dicts f) (if_scores f))) as AL. destruct (alloc r _) as [f1 o]. cbn [if_state if_scores] in AL. destruct AL as (VN & ON & ES & EC & KEEP).
    destruct (KEEP a OA) as (VA1 & OA1 & (AP1 & AP2 & AP3)). assert (VA2 : view f1 a = w) by (rewrite VA1, <- VA; reflexivity). clear VA1. pose proof OA1 as (La & Lt & Ne & Ld).
    unfold sbind, merge_saved. rewrite EC, SC. set (ls := upd (h_lists f1) (o_src a) (nth (o_src a) (h_lists f1) [] ++ nth (o_src o) (h_lists f1) [])).
    assert (LL : length ls = length (h_lists f1)) by (apply upd_length; exact La).
    assert (OTH : forall j, j <> o_src a -> nth j ls [] = nth j (h_lists f1) []) by (intros j Nj; apply nth_upd_other; assumption).
    assert (SRC : nth (o_src a) ls [] = i_src w ++ i_src r). { unfold ls. rewrite nth_upd_same by exact La. rewrite <- VA2, <- VN. reflexivity. }
    assert (TG : nth (o_tgt a) ls [] = i_tgt w) by (rewrite OTH by auto; rewrite <- VA2; reflexivity).
    assert (EW : i_val w = match o_val a with OMat t => Mat t | ODict l => Grp (nth l (h_dicts f1) []) end) by (rewrite <- VA2; reflexivity).
    assert (ER : i_val r = match o_val o with OMat t => Mat t | ODict l => Grp (nth l (h_dicts f1) []) end) by (rewrite <- VN; reflexivity).
    rewrite EW, ER in M. rewrite EW in N. destruct (o_val o) as [t|l], (o_val a) as [u|k] eqn:Va; cbn [merge_val] in M; try discriminate M; apply bind_ok in M; destruct M as (x & M & E1); injection E1 as <-.
    - cbn [cat_axis] in M. rewrite M. eexists. exists o. split; [reflexivity|]. split; [exact ES|]. exists (RObj (o_src a) (o_tgt a) (OMat x)). split; [reflexivity|]. split; [repeat split; cbn [o_src o_tgt o_val h_lists]; rewrite ?LL; assumption|].
      unfold view. cbn [o_src o_tgt o_val h_lists]. rewrite SRC, TG. reflexivity.
    - rewrite (cat_whole _ _ _ N M). eexists. exists o. split; [reflexivity|]. split; [exact ES|]. exists a. split; [reflexivity|]. assert (LD : length (upd (h_dicts f1) k x) = length (h_dicts f1)) by (apply upd_length; exact Ld).
      split; [repeat split; cbn [h_lists h_dicts]; rewrite ?LL; try assumption; rewrite Va, LD; exact Ld|]. unfold view. cbn [h_lists h_dicts]. rewrite SRC, TG, Va, nth_upd_same by exact Ld. reflexivity.
  Qed.

  (** consecutive rows *)
  Lemma split_list {X} (l : list X) a b c : firstn b (skipn a l) ++ firstn c (skipn (a + b) l) = firstn (b + c) (skipn a l).
  Proof. rewrite (Nat.add_comm a b), <- skipn_skipn. revert c. generalize (skipn a l). clear. intros l. revert b. induction l as [|x l IH]; intros b c; [rewrite skipn_nil, !firstn_nil; reflexivity|]. destruct b; [reflexivity|]. cbn [firstn skipn app plus]. f_equal. apply IH. Qed.
  Lemma rows_join (t : tensor) off a b : tcat0 (rows off a t) (rows (off + a) b t) = Ok (rows off (a + b) t).
  Proof.
    unfold tcat0, rows. cbn [shape tl data]. rewrite same_shape_refl. f_equal. f_equal. rewrite !Nat.mul_add_distr_r. apply split_list.
  Qed.
  Lemma rows_id (t : tensor) n : samples n t -> rows 0 n t = t.
  Proof. intros (r & St & W). destruct t as [sh l]. cbn [shape] in St. subst sh. unfold rows. cbn [shape tl data]. f_equal. cbn [Nat.mul skipn]. apply firstn_all2. unfold twf in W. cbn [shape data prod] in W. rewrite W. apply Nat.le_refl. Qed.
  Lemma rows_val_join off a b (v : @ival F) : match v with Mat _ => True | Grp d => NoDup (dkeys d) end -> merge_val true (rows_val off a v) (rows_val (off + a) b v) = Ok (rows_val off (a + b) v).
  Proof.
    destruct v as [t|d]; intros N; cbn [rows_val merge_val cat_axis]; [rewrite rows_join; reflexivity|].
    assert (Q : cat_groups true (map (fun q => (fst q, rows off a (snd q))) d) (map (fun q => (fst q, rows (off + a) b (snd q))) d) = Ok (map (fun q => (fst q, rows off (a + b) (snd q))) d)); [|rewrite Q; reflexivity].
    unfold cat_groups. assert (G : forall d0, (forall k t, In (k, t) d0 -> dget k d = Some t) -> mapM (fun p => let* t := dgetM (fst p) (map (fun q => (fst q, rows (off + a) b (snd q))) d) in let* c := cat_axis true (snd p) t in Ok (fst p, c)) (map (fun q => (fst q, rows off a (snd q))) d0) = Ok (map (fun q => (fst q, rows off (a + b) (snd q))) d0)).
    { induction d0 as [|[k t] d0 IH]; intros V; [reflexivity|]. cbn [map mapM fst snd]. unfold dgetM at 1. rewrite (dget_map (rows (off + a) b)), (V k t) by (left; reflexivity). cbn [option_map bind]. rewrite IH by (intros k' t' J; apply V; right; exact J). cbn [cat_axis]. rewrite rows_join. reflexivity. }
    apply G. intros k t J. apply In_dget; assumption.
  Qed.
  Lemma rows_val_id n (v : @ival F) : val_ok n v -> rows_val 0 n v = v.
  Proof. destruct v as [t|d]; cbn [val_ok rows_val]; intros V; [rewrite rows_id by exact V; reflexivity|]. f_equal. induction V as [|[k t] d S0 V IH]; [reflexivity|]. cbn [map fst snd]. cbn [snd] in S0. rewrite (rows_id t n S0), IH. reflexivity. Qed.

  (** what the whole call returns *)
  Lemma all_val n (A : tlog) sids loader mode prec h groups d (s s' : lstate) r : n <> 0 -> uniform n A -> length sids = n ->
    influence_all (sids, Nest (log_nd A)) loader mode prec h groups d s = (s', Ok (Some r)) -> i_src r = sids /\ val_ok n (i_val r).
  Proof.
    intros Nn U Ls E. unfold ModelInfluence.influence_all in *. apply sbind_ok in E. destruct E as (s1 & sl & E1 & E).
    assert (Q : exists P, uniform n P /\ sl = (sids, Nest (log_nd P))).
    { destruct prec; [|injection E1 as <- <-; exists A; auto]. destruct (prec_part eigh inverse 0 n n (Nat.le_refl n) Nn A sids (firstn n (skipn 0 sids)) d h s s1 sl U E1) as (P & -> & UP & _). exists P. auto. }
    destruct Q as (P & UP & ->). apply (loop_part eigh inverse fsqrt 0 n n (Nat.le_refl n) Nn P sids (firstn n (skipn 0 sids)) mode h groups d UP Ls) in E; [|rewrite firstn_length; cbn [skipn]; lia|exact Logic.I]. apply E.
  Qed.

  (** the remaining batches, when the first [off] > 0 samples are done *)
  Definition bcall loader mode prec h groups d (b : @glog F) : icall F := ICall _ b loader mode prec h groups d.
  Lemma rest_batches n (A : tlog) sids loader mode prec h groups d (s' : lstate) r : uniform n A -> length sids = n ->
    plain_state s' -> i_src r = sids -> dict_val (i_val r) -> (forall s2, extends s' s2 -> influence_all (sids, Nest (log_nd A)) loader mode prec h groups d s2 = (s2, Ok (Some r))) ->
    forall ks off (f : ifn), Forall (fun k => k <> 0) ks -> off + fold_right Nat.add 0 ks = n -> saved f (rows_of 0 off r) -> if_state f = s' ->
    exists f' os, calls_all (map (bcall loader mode prec h groups d) (batches off ks sids A)) f = (f', Ok os) /\ if_state f' = s' /\ saved f' (rows_of 0 n r) /\ length os = length ks /\ Forall (fun o => o <> None) os.
  Proof.
    intros U Ls P Sr DV R. induction ks as [|k ks IH]; intros off f V Sm SF ES; cbn [batches map SpecInfluence.calls_all fold_right] in *.
    - exists f, []. rewrite Nat.add_0_r in Sm. subst off. repeat split; auto.
    - inversion V as [|? ? Nk V']; subst. set (s := if_state f) in *. assert (Lk : off + k <= length (i_src r)) by lia.
      assert (E : call_value (bcall loader mode prec h groups d (firstn k (skipn off (i_src r)), Nest (log_nd (part off k A)))) s = (s, Ok (Some (rows_of off k r)))).
      { unfold SpecInfluence.call_value, bcall. cbn [ic_src ic_loader ic_mode ic_prec ic_hessian ic_groups ic_damping]. rewrite (all_part eigh inverse fsqrt off k _ Lk Nk A (i_src r) loader mode prec h groups d s s (Some r) U eq_refl (R s (extends_refl s))). reflexivity. }
      assert (NV : match i_val (rows_of 0 off r) with Mat _ => True | Grp d => NoDup (dkeys d) end). { unfold rows_of. cbn [i_val]. destruct (i_val r) as [t|dd]; cbn [rows_val]; [exact Logic.I|]. destruct DV as (ND & _). unfold dkeys in *. rewrite map_map. exact ND. }
      assert (M : merge_val true (i_val (rows_of 0 off r)) (i_val (rows_of off k r)) = Ok (rows_val 0 (off + k) (i_val r))). { unfold rows_of. cbn [i_val]. apply (rows_val_join 0 off k). destruct (i_val r); [exact Logic.I|]. apply DV. }
      destruct (saved_step _ f _ s _ _ SF E M NV) as (f1 & o & E1 & ES1 & SF1).
      assert (SF2 : saved f1 (rows_of 0 (off + k) r)). { destruct SF1 as (a & Q1 & Q2 & Q3). exists a. split; [exact Q1|]. split; [exact Q2|]. rewrite Q3. unfold rows_of. cbn [i_src i_tgt i_val]. f_equal. apply (split_list (i_src r) 0 off k). }
      destruct (IH (off + k) f1 V') as (f' & os & E2 & ES2 & SF3 & LO & NO); [lia|exact SF2|exact ES1|].
      exists f', (Some o :: os). unfold bcall at 1. fold (bcall loader mode prec h groups d (firstn k (skipn off (i_src r)), Nest (log_nd (part off k A)))). rewrite (sbind_run _ _ _ _ _ E1), (sbind_run _ _ _ _ _ E2). split; [reflexivity|]. split; [exact ES2|]. split; [exact SF3|]. split; [cbn [length]; lia|]. constructor; [discriminate|exact NO].
  Qed.

  Theorem source_batches n (A : tlog) sids loader mode prec h groups d ks (f : ifn) (s' : lstate) r : uniform n A -> length sids = n -> splits ks n ->
    plain_state (if_state f) -> if_scores f = None ->
    influence_all (sids, Nest (log_nd A)) loader mode prec h groups d (if_state f) = (s', Ok (Some r)) ->
    exists f' os, calls_all (map (bcall loader mode prec h groups d) (batches 0 ks sids A)) f = (f', Ok os) /\ if_state f' = s' /\
      saved f' r /\ length os = length ks /\ Forall (fun o => o <> None) os.
  Proof.
    intros U Ls (Nks & V & Sm) P SN E. destruct ks as [|k ks]; [congruence|]. inversion V as [|? ? Nk V']; subst. cbn [fold_right] in Sm. assert (Nn : length sids <> 0) by lia.
    destruct (stable_all eigh inverse fsqrt _ _ _ _ _ _ _ _ _ _ P E) as (P' & _ & R). specialize (R (Some r) eq_refl). destruct (all_val _ A sids loader mode prec h groups d _ _ r Nn U eq_refl E) as (Sr & VO).
    assert (DV : dict_val (i_val r)) by (apply (value_dict eigh inverse fsqrt (ICall _ (sids, Nest (log_nd A)) loader mode prec h groups d) (if_state f) s' r E)).
    assert (Lk : 0 + k <= length sids) by lia.
    assert (E1 : call_value (bcall loader mode prec h groups d (firstn k (skipn 0 sids), Nest (log_nd (part 0 k A)))) (if_state f) = (s', Ok (Some (rows_of 0 k r)))).
    { unfold SpecInfluence.call_value, bcall. cbn [ic_src ic_loader ic_mode ic_prec ic_hessian ic_groups ic_damping]. rewrite (all_part eigh inverse fsqrt 0 k _ Lk Nk A sids loader mode prec h groups d _ s' (Some r) U eq_refl E). reflexivity. }
    destruct (saved_first _ f s' _ SN E1) as (f1 & o & E2 & ES1 & SF).
    destruct (rest_batches (length sids) A sids loader mode prec h groups d s' r U eq_refl P' Sr DV R ks k f1 V' Sm SF ES1) as (f' & os & E3 & ES & SF' & LO & NO).
    exists f', (Some o :: os). cbn [batches map SpecInfluence.calls_all]. rewrite (sbind_run _ _ _ _ _ E2). rewrite Nat.add_0_l. rewrite (sbind_run _ _ _ _ _ E3). split; [reflexivity|]. split; [exact ES|]. split; [|split; [cbn [length]; lia|constructor; [discriminate|exact NO]]].
    replace r with (rows_of 0 (length sids) r); [exact SF'|]. unfold rows_of. rewrite (rows_val_id _ _ VO), Sr. cbn [skipn]. rewrite firstn_all, <- Sr. destruct r; reflexivity.
  Qed.

  (** merging consecutive parts of a log *)
  Lemma madd_part off a b (e : dict string dten) : NoDup (dkeys e) ->
    madd (Some (map (fun q => (fst q, (fst (snd q), rows off a (snd (snd q))))) e)) (map (fun q => (fst q, (fst (snd q), rows (off + a) b (snd (snd q))))) e) = Ok (map (fun q => (fst q, (fst (snd q), rows off (a + b) (snd (snd q))))) e).
  Proof.
    set (f1 := fun x : dten => (fst x, rows off a (snd x))). set (f2 := fun x : dten => (fst x, rows (off + a) b (snd x))). set (f3 := fun x : dten => (fst x, rows off (a + b) (snd x))). unfold madd.
    change (map (fun q => (fst q, (fst (snd q), rows off a (snd (snd q))))) e) with (map (fun q => (fst q, f1 (snd q))) e). change (map (fun q => (fst q, (fst (snd q), rows (off + a) b (snd (snd q))))) e) with (map (fun q => (fst q, f2 (snd q))) e). change (map (fun q => (fst q, (fst (snd q), rows off (a + b) (snd (snd q))))) e) with (map (fun q => (fst q, f3 (snd q))) e).
    assert (G : forall rest pre, NoDup (dkeys (pre ++ rest)) -> foldM (put padd) (map (fun q => (fst q, f2 (snd q))) rest) (pre ++ map (fun q => (fst q, f1 (snd q))) rest) = Ok (pre ++ map (fun q => (fst q, f3 (snd q))) rest)).
    { induction rest as [|[k x] rest IH]; intros pre N; [reflexivity|]. cbn [map foldM fst snd]. unfold put at 1. cbn [fst snd].
      assert (Nk : ~ In k (dkeys pre)). { unfold dkeys in *. rewrite map_app in N. cbn [map fst] in N. apply NoDup_remove_2 in N. intros J. apply N. apply in_or_app. left. exact J. }
      assert (GG : forall rr, dget k (pre ++ (k, f1 x) :: rr) = Some (f1 x)). { intros rr. clear -Nk. induction pre as [|[y v] pre IH]; cbn [app dget]; [rewrite eqb_refl; reflexivity|]. cbn [dkeys map fst] in Nk. rewrite eqb_neq by (intros ->; apply Nk; left; reflexivity). apply IH. intros J. apply Nk. right. exact J. }
      assert (D : forall rr, dset k (f3 x) (pre ++ (k, f1 x) :: rr) = (pre ++ [(k, f3 x)]) ++ rr). { intros rr. clear -Nk. induction pre as [|[y v] pre IH]; cbn [app dset]; [rewrite eqb_refl; reflexivity|]. cbn [dkeys map fst] in Nk. rewrite eqb_neq by (intros ->; apply Nk; left; reflexivity). f_equal. apply IH. intros J. apply Nk. right. exact J. }
      rewrite GG. replace (padd (Some (f1 x)) (f2 x)) with (Ok (f3 x)). 2: { unfold padd, f1, f2, f3. cbn [fst snd]. destruct x as [dv t]. cbn [fst snd]. replace (dev_eqb dv dv) with true by (destruct dv; reflexivity). rewrite rows_join. reflexivity. }
      cbn [bind]. rewrite D. rewrite IH; [rewrite <- app_assoc; reflexivity|]. unfold dkeys in *. rewrite !map_app in *. cbn [map fst] in *. rewrite <- app_assoc. exact N. }
    intros N. apply (G e [] N).
  Qed.
  Lemma ladd_part off a b (L : tlog) : ok_log L -> ladd (part off a L) (part (off + a) b L) = Ok (part off (a + b) L).
  Proof.
    intros (NL & NE). unfold ladd.
    assert (G : forall rest pre : tlog, NoDup (dkeys (pre ++ rest)) -> Forall (fun p => NoDup (dkeys (snd p))) rest -> foldM (put madd) (part (off + a) b rest) (pre ++ part off a rest) = Ok (pre ++ part off (a + b) rest)).
    { induction rest as [|[k e] rest IH]; intros pre N V; [reflexivity|]. inversion V as [|? ? Ne V']; subst. cbn [snd] in Ne. unfold part in *. cbn [map foldM fst snd]. unfold put at 1. cbn [fst snd].
      assert (Nk : ~ In k (dkeys pre)). { unfold dkeys in *. rewrite map_app in N. cbn [map fst] in N. apply NoDup_remove_2 in N. intros J. apply N. apply in_or_app. left. exact J. }
      set (e1 := map (fun q => (fst q, (fst (snd q), rows off a (snd (snd q))))) e). set (e2 := map (fun q => (fst q, (fst (snd q), rows (off + a) b (snd (snd q))))) e). set (e3 := map (fun q => (fst q, (fst (snd q), rows off (a + b) (snd (snd q))))) e).
      assert (GG : forall rr, dget k (pre ++ (k, e1) :: rr) = Some e1). { intros rr. clear -Nk. induction pre as [|[y v] pre IH]; cbn [app dget]; [rewrite eqb_refl; reflexivity|]. cbn [dkeys map fst] in Nk. rewrite eqb_neq by (intros ->; apply Nk; left; reflexivity). apply IH. intros J. apply Nk. right. exact J. }
      assert (D : forall rr, dset k e3 (pre ++ (k, e1) :: rr) = (pre ++ [(k, e3)]) ++ rr). { intros rr. clear -Nk. induction pre as [|[y v] pre IH]; cbn [app dset]; [rewrite eqb_refl; reflexivity|]. cbn [dkeys map fst] in Nk. rewrite eqb_neq by (intros ->; apply Nk; left; reflexivity). f_equal. apply IH. intros J. apply Nk. right. exact J. }
      rewrite GG. unfold e1 at 1, e2 at 1. rewrite (madd_part off a b e Ne). fold e3. cbn [bind]. rewrite D. rewrite IH; [rewrite <- app_assoc; reflexivity| |exact V']. unfold dkeys in *. rewrite !map_app in *. cbn [map fst] in *. rewrite <- app_assoc. exact N. }
    apply (G L [] NL NE).
  Qed.
  Lemma merge_part off a b (L : tlog) : ok_log L -> merge_log_dict (log_nd (part off a L)) (log_nd (part (off + a) b L)) = Ok (log_nd (part off (a + b) L)).
  Proof. intros O. rewrite merge_log, (ladd_part off a b L O). reflexivity. Qed.
End Proofs.
