(** Preconditioned logs have the shape of the original; self-influence; l2 and cosine. *)
From Verif Require Import Py PyStr Field Tensor ModelGrad Monad ModelState ModelInfluence SpecGrad SpecState SpecInfluence GradProofs1 GradProofs2 StateProofs1 StateProofs3 StateProofs7 StateProofs10 InfAlg InfProofs1 InfProofs2 InfProofs3 InfProofs4 InfProofs5 InfProofs6.
Local Open Scope string_scope.
Local Open Scope list_scope.
Local Open Scope nat_scope.

Section Proofs.
  Context {F : Type} `{OField F}.
  Add Field FfI8 : f_theory.
  Notation tensor := (tensor F).
  Notation sval := (@sval F).
  Notation lstate := (@lstate F).
  Notation dten := (@dten F).
  Notation tlog := (@tlog F).
  Variable eigh : tensor -> res (tensor * tensor).
  Variable inverse : tensor -> res tensor.
  Variable fsqrt : F -> F.
  Notation precondition := (precondition eigh inverse).
  Notation compute_influence := (compute_influence eigh inverse fsqrt).
  Notation compute_self_influence := (compute_self_influence eigh inverse).
  Notation prec_step := (prec_step eigh inverse).

  Lemma sandwich_inv (u g v r : tensor) : sandwich u g v = Ok r -> exists n a b b' c c' d, shape u = [a; b] /\ shape g = [n; b'; c] /\ shape v = [c'; d] /\ shape r = [n; a; d] /\ twf r.
  Proof.
    unfold sandwich. destruct (shape u) as [|a [|b [|]]]; try discriminate. destruct (shape g) as [|n [|b' [|c [|]]]]; try discriminate. destruct (shape v) as [|c' [|d [|]]]; try discriminate.
    destruct (esize b b'); [|discriminate]. destruct (esize c c'); [|discriminate]. cbn [bind]. intros [= <-]. exists n, a, b, b', c, c', d. rewrite shape_tgen. repeat (split; [reflexivity|]). apply tgen_wf.
  Qed.
  Lemma div_each_inv (g e r : tensor) : div_each g e = Ok r -> shape r = shape g.
  Proof.
    unfold div_each. destruct (shape g) as [|n [|b' [|c [|]]]]; try discriminate. destruct (shape e) as [|x [|y [|]]]; try discriminate. destruct ((b' =? x) && (c =? y)); [|discriminate]. intros [= <-]. reflexivity.
  Qed.
  Lemma core_shape (vb g vf e rot pr out : tensor) n i j : shape g = [n; i; j] -> sandwich (transpose vb) g vf = Ok rot -> div_each rot e = Ok pr -> sandwich vb pr (transpose vf) = Ok out ->
    exists x y, shape out = [n; x; y] /\ twf out.
  Proof.
    intros Sg E1 E2 E3. apply sandwich_inv in E1. destruct E1 as (n1 & a1 & b1 & b1' & c1 & c1' & d1 & U1 & G1 & V1 & R1 & _). apply div_each_inv in E2. apply sandwich_inv in E3. destruct E3 as (n3 & a3 & b3 & b3' & c3 & c3' & d3 & U3 & G3 & V3 & R3 & W3).
    rewrite Sg in G1. injection G1 as <- <- <-. rewrite E2, R1 in G3. injection G3 as <- _ _. eauto.
  Qed.
  Lemma kfac_module_shape (s s' : lstate) evn ec L m d dv n i j g r l : kfac_module evn ec (log_nd L) m d s = (s', Ok (r, l)) -> grad_of L m = Some (dv, g) -> shape g = [n; i; j] ->
    exists p x y, r = (dv, p) /\ shape p = [n; x; y] /\ twf p.
  Proof.
    intros E G Sg. unfold kfac_module in E. apply sbind_ok in E. destruct E as (s1 & g' & Eg & E). unfold lift in Eg. rewrite log_item_look in Eg. unfold grad_of in G. rewrite G in Eg. injection Eg as <- <-.
    apply sbind_ok in E. destruct E as (s2 & fwd & _ & E). apply sbind_ok in E. destruct E as (s3 & bwd & _ & E). apply sbind_ok in E. destruct E as (s4 & ev & _ & E). apply sbind_ok in E. destruct E as (s5 & y & _ & E). apply sbind_ok in E. destruct E as (s6 & full & _ & E).
    cbv zeta in E. apply sbind_ok in E. destruct E as (s7 & u & _ & E). apply sbind_ok in E. destruct E as (s8 & rot & E1 & E). apply sbind_ok in E. destruct E as (s9 & pr & E2 & E). apply sbind_ok in E. destruct E as (s10 & out & E3 & E).
    unfold lift in E1, E2, E3. cbn [snd fst] in *. injection E1 as _ E1. injection E2 as _ E2. injection E3 as _ E3. injection E as _ <- _. destruct (core_shape _ _ _ _ _ _ _ n i j Sg E1 E2 E3) as (x & y' & S & W). exists out, x, y'. auto.
  Qed.
  (** the preconditioned gradients *)
  Definition shaped dv n (L : tlog) (m : string) (x : dten) : Prop := exists i j a, grad_of L m = Some (dv, a) /\ shape a = [n; i; j] /\ fst x = dv /\ (exists i' j', shape (snd x) = [n; i'; j']) /\ twf (snd x).
  Lemma kfac_loop_shape dv n evn ec L : forall ms dn d (s s' : lstate) out, (forall m, In m ms -> exists a i j, grad_of L m = Some (dv, a) /\ shape a = [n; i; j] /\ twf a) -> NoDup (map fst dn ++ ms) ->
    kfac_loop evn ec (log_nd L) ms d (log_nd (plog dn)) s = (s', Ok out) -> exists l, out = log_nd (plog (dn ++ l)) /\ map fst l = ms /\ Forall (fun q => shaped dv n L (fst q) (snd q)) l.
  Proof.
    induction ms as [|m ms IH]; intros dn d s s' out P N E.
    - cbn in E. injection E as _ <-. exists []. rewrite app_nil_r. auto.
    - cbn [kfac_loop] in E. apply sbind_ok in E. destruct E as (s1 & (r & l0) & E1 & E). destruct (P m (or_introl eq_refl)) as (a & i & j & G & Sa & Wa). destruct (kfac_module_shape _ _ _ _ _ _ _ _ _ _ _ _ _ _ E1 G Sa) as (p & i' & j' & -> & Sp & Wp).
      cbn [fst snd] in E. apply sbind_ok in E. destruct E as (s2 & out' & E2 & E). unfold lift in E2. rewrite plog_set in E2 by (intros I; apply NoDup_remove_2 in N; apply N; apply in_or_app; left; exact I). injection E2 as <- <-.
      apply IH in E; [|intros x I; apply P; right; exact I|rewrite map_app, <- app_assoc; exact N]. destruct E as (l & -> & M & Fl). exists ((m, (dv, p)) :: l). rewrite <- app_assoc. split; [reflexivity|]. cbn [map fst]. rewrite M. split; [reflexivity|]. constructor; [|exact Fl].
      exists i, j, a. cbn [fst snd]. eauto 10.
  Qed.
  Lemma raw_module_shape dv n ci L m r : (exists a i j, grad_of L m = Some (dv, a) /\ shape a = [n; i; j] /\ twf a) -> raw_module ci (log_nd L) m = Ok r -> shaped dv n L m r.
  Proof.
    intros (a & i & j & G & Sa & Wa) E. unfold raw_module in E. rewrite log_item_look in E. pose proof G as G'. unfold grad_of in G'. rewrite G' in E. cbn [bind snd fst] in E.
    destruct (log_item ci m "grad") as [iv|e]; cbn [bind] in E; [|discriminate E]. destruct (make_2d a None "grad") as [g2|e]; cbn [bind] in E; [|discriminate E].
    destruct (matmul g2 (snd iv)) as [p|e] eqn:Em; cbn [bind] in E; [|discriminate E]. destruct (reshape p (shape a)) as [q|e] eqn:Er; cbn [bind] in E; [|discriminate E]. injection E as <-.
    unfold reshape in Er. destruct (Nat.eqb_spec (prod (shape p)) (prod (shape a))) as [Q|]; [|discriminate Er]. injection Er as <-. exists i, j, a. cbn [fst snd shape]. split; [assumption|]. split; [assumption|]. split; [reflexivity|]. split; [eauto|].
    unfold twf. cbn [shape data]. rewrite <- Q. unfold matmul in Em. destruct (shape g2) as [|x [|y [|]]]; try discriminate Em. destruct (shape (snd iv)) as [|z [|w [|]]]; try discriminate Em. destruct (y =? z); [|discriminate Em]. injection Em as <-. apply tgen_wf.
  Qed.
  Lemma raw_fold_shape dv n ci L : forall ms dn out, (forall m, In m ms -> exists a i j, grad_of L m = Some (dv, a) /\ shape a = [n; i; j] /\ twf a) -> NoDup (map fst dn ++ ms) ->
    foldM (fun out m => let* p := raw_module ci (log_nd L) m in nd_set2 out m "grad" (VT p)) ms (log_nd (plog dn)) = Ok out ->
    exists l, out = log_nd (plog (dn ++ l)) /\ map fst l = ms /\ Forall (fun q => shaped dv n L (fst q) (snd q)) l.
  Proof.
    induction ms as [|m ms IH]; intros dn out P N E.
    - cbn in E. injection E as <-. exists []. rewrite app_nil_r. auto.
    - cbn [foldM] in E. destruct (raw_module ci (log_nd L) m) as [r|e] eqn:E1; cbn [bind] in E; [|discriminate E]. pose proof (raw_module_shape dv n ci L m r (P m (or_introl eq_refl)) E1) as SH.
      rewrite plog_set in E by (intros I; apply NoDup_remove_2 in N; apply N; apply in_or_app; left; exact I). cbn [bind] in E.
      apply IH in E; [|intros x I; apply P; right; exact I|rewrite map_app, <- app_assoc; exact N]. destruct E as (l & -> & M & Fl). exists ((m, r) :: l). rewrite <- app_assoc. split; [reflexivity|]. cbn [map fst]. rewrite M. split; [reflexivity|]. constructor; [exact SH|exact Fl].
  Qed.
  Lemma plog_twins dv n L l : map fst l = dkeys L -> NoDup (dkeys L) -> Forall (fun q => shaped dv n L (fst q) (snd q)) l -> plain_log dv n L -> same_sizes L (plog l) ->
    forall m, In m (dkeys L) -> twin_grads dv n L (plog l) m.
  Proof.
    intros M N Fl (_ & PL) SS m I. rewrite <- M in I. apply in_map_iff in I. destruct I as ([k x] & <- & I). rewrite Forall_forall in Fl. destruct (Fl _ I) as (i & j & a & G & Sa & Ex & _ & Wx). cbn [fst snd] in *.
    assert (Im : In k (dkeys L)) by (rewrite <- M; apply in_map_iff; exists (k, x); auto). destruct (PL k Im) as (a' & i' & j' & G' & Sa' & Wa'). rewrite G in G'. injection G' as <-.
    assert (D : dget k l = Some x). { apply In_dget; [|exact I]. change (dkeys l) with (map fst l). rewrite M. exact N. }
    assert (Gx : grad_of (plog l) k = Some (dv, snd x)) by (unfold grad_of; rewrite plog_look, D; destruct x; cbn [fst] in Ex; subst; reflexivity).
    pose proof (SS k _ _ G Gx) as Sx. cbn [snd] in Sx. rewrite Sa in Sx. exists a, (snd x), i, j. auto 10.
  Qed.
  Theorem prec_out ids dv n L prec d h (s s' : lstate) r : plain_log dv n L -> keeps_shapes (prec_step prec (ids, Nest (log_nd L)) d h) L s -> prec_step prec (ids, Nest (log_nd L)) d h s = (s', Ok r) ->
    exists P, r = (ids, Nest (log_nd P)) /\ dkeys P = dkeys L /\ (forall m, In m (dkeys L) -> twin_grads dv n L P m) /\
      (P = L \/ exists l, P = plog l /\ map fst l = dkeys L).
  Proof.
    intros PL KS E. pose proof PL as (N & Q). pose proof (fun P X => KS s' ids P (eq_trans E (f_equal (fun z => (s', Ok z)) X))) as KE. clear KS. unfold InfProofs2.prec_step in E.
    assert (SELF : exists P, (ids, Nest (log_nd L)) = (ids, Nest (log_nd P)) /\ dkeys P = dkeys L /\ (forall m, In m (dkeys L) -> twin_grads dv n L P m) /\ (P = L \/ exists l, P = plog l /\ map fst l = dkeys L)).
    { exists L. split; [reflexivity|]. split; [reflexivity|]. split; [|left; reflexivity]. intros m I. destruct (Q m I) as (a & i & j & G & Sa & Wa). exists a, a, i, j. auto 10. }
    destruct prec; [|injection E as _ <-; exact SELF].
    unfold ModelInfluence.precondition in E. destruct (mem h ["auto"; "kfac"; "raw"]); [|discriminate E]. apply sbind_ok in E. destruct E as (s1 & cs & _ & E). cbn [snd fst] in E.
    apply sbind_ok in E. destruct E as (s2 & ms & E1 & E). unfold lift in E1. rewrite log_nd_keys in E1. injection E1 as <- <-. apply sbind_ok in E. destruct E as (s3 & cms & _ & E).
    destruct (forallb _ _); [|injection E as _ <-; exact SELF]. apply sbind_ok in E. destruct E as (s4 & raw & _ & E). apply sbind_ok in E. destruct E as (s5 & p & Ep & E). injection E as _ <-.
    assert (G : exists l, p = log_nd (plog l) /\ map fst l = dkeys L /\ Forall (fun q => shaped dv n L (fst q) (snd q)) l).
    { destruct raw.
      - unfold ModelInfluence.precondition_raw in Ep. apply sbind_ok in Ep. destruct Ep as (s6 & ci & _ & Ep). apply sbind_ok in Ep. destruct Ep as (s7 & ms & E1 & Ep). unfold lift in E1, Ep. rewrite log_nd_keys in E1. injection E1 as <- <-. injection Ep as _ Ep.
        change (@Node sval []) with (log_nd (@plog F [])) in Ep. apply (raw_fold_shape dv n) in Ep; [|exact Q|exact N]. exact Ep.
      - unfold ModelInfluence.precondition_kfac in Ep. apply sbind_ok in Ep. destruct Ep as (s6 & vw & _ & Ep). apply sbind_ok in Ep. destruct Ep as (s6' & s0 & _ & Ep). cbv zeta in Ep. apply sbind_ok in Ep. destruct Ep as (s7 & ms & E1 & Ep). unfold lift in E1. rewrite log_nd_keys in E1. injection E1 as <- <-.
        change (@Node sval []) with (log_nd (@plog F [])) in Ep. apply (kfac_loop_shape dv n) in Ep; [|exact Q|exact N]. exact Ep. }
    destruct G as (l & -> & M & Fl). exists (plog l). split; [reflexivity|]. split; [rewrite plog_keys; exact M|]. split; [apply plog_twins; try assumption; apply KE; reflexivity|]. right. eauto.
  Qed.

  Lemma keeps_of (f : SM lstate (@glog F)) (L P : tlog) (s s1 : lstate) ids : f s = (s1, Ok (ids, Nest (log_nd P))) -> same_sizes L P -> keeps_shapes f L s.
  Proof.
    intros E SS s2 ids' P' E'. rewrite E in E'. injection E' as _ _ EP. apply (f_equal Node) in EP. apply (log_inj P P') in EP. subst P'. exact SS.
  Qed.
  Lemma prec_twins ids dv n L P prec d h (s s' : lstate) : plain_log dv n L -> prec_step prec (ids, Nest (log_nd L)) d h s = (s', Ok (ids, Nest (log_nd P))) -> same_sizes L P ->
    dkeys P = dkeys L /\ forall m, In m (dkeys L) -> twin_grads dv n L P m.
  Proof.
    intros PL E SS. destruct (prec_out ids dv n L prec d h s s' _ PL (keeps_of _ _ _ _ _ _ E SS) E) as (P' & EP & K & TW & _). injection EP as EP. apply (f_equal Node) in EP. apply (log_inj P P') in EP. subst P'. auto.
  Qed.
  Lemma sizes_refl (L : tlog) : same_sizes L L.
  Proof. intros m a p G1 G2. rewrite G1 in G2. injection G2 as <-. reflexivity. Qed.

  (** influence with a given preconditioned source *)
  Lemma influence_prec A B mode prec h groups d (s s1 : lstate) sids tids P : mem mode ["dot"; "l2"; "cosine"] = true ->
    prec_step prec (sids, Nest (log_nd A)) d h s = (s1, Ok (sids, Nest (log_nd P))) ->
    compute_influence (sids, Nest (log_nd A)) (tids, B) mode prec h groups d s = compute_influence (sids, Nest (log_nd P)) (tids, B) mode false h groups d s1.
  Proof. intros M E. unfold ModelInfluence.compute_influence. rewrite M. unfold InfProofs2.prec_step in E. rewrite (sbind_run _ _ s s1 _ E). reflexivity. Qed.
  Lemma influence_prec_err A B mode prec h groups d (s s1 : lstate) sids tids e : mem mode ["dot"; "l2"; "cosine"] = true ->
    prec_step prec (sids, Nest (log_nd A)) d h s = (s1, Err e) ->
    compute_influence (sids, Nest (log_nd A)) (tids, B) mode prec h groups d s = (s1, Err e).
  Proof. intros M E. unfold ModelInfluence.compute_influence. rewrite M. unfold InfProofs2.prec_step in E. apply sbind_err. exact E. Qed.
  Lemma self_prec_err A prec h groups d (s s1 : lstate) ids e : prec_step prec (ids, Nest (log_nd A)) d h s = (s1, Err e) ->
    compute_self_influence (ids, Nest (log_nd A)) prec h groups d s = (s1, Err e).
  Proof. intros E. unfold ModelInfluence.compute_self_influence. cbn [snd]. unfold InfProofs2.prec_step in E. apply sbind_err. exact E. Qed.
  (** the head of a preconditioned log *)
  Lemma head_prec dv n (L P B : tlog) : plain_log dv n L -> (forall m, In m (dkeys L) -> twin_grads dv n L P m) -> grad_first B -> (forall m, In m (dkeys B) -> In m (dkeys L)) -> head_on dv P B.
  Proof.
    intros PL TW GF SUB. unfold head_on, grad_first in *. destruct (log_keys B) as [|[m t] r] eqn:K; [contradiction|]. subst t.
    assert (I : In m (dkeys B)). { assert (X : In (m, "grad") (log_keys B)) by (rewrite K; left; reflexivity). unfold log_keys in X. apply in_concat in X. destruct X as (l & X1 & X2). apply in_map_iff in X1. destruct X1 as (q & <- & Iq). apply in_map_iff in X2. destruct X2 as (q2 & [= <- _] & _). apply in_map. exact Iq. }
    destruct (TW m (SUB m I)) as (a & p & i & j & _ & G & _). exists p. exact G.
  Qed.
  Lemma final_ext acc acc' groups ms : (forall l, incl l ms -> acc l = acc' l) -> @final F acc groups ms = final acc' groups ms.
  Proof.
    intros E. unfold final. destruct groups as [gs|]; [|f_equal; apply E; intros x I; exact I]. f_equal. f_equal; [f_equal; apply E; intros x I; exact I|]. apply map_ext. intros g. f_equal. apply E. intros x I. apply filter_In in I. apply I.
  Qed.
  Lemma twin_sym dv n (A P : tlog) m : twin_grads dv n A P m -> twin_grads dv n P A m.
  Proof. intros (a & p & i & j & G1 & G2 & S1 & S2 & W1 & W2). exists p, a, i, j. auto 10. Qed.
  Lemma twin_pair dv n (A P : tlog) m : twin_grads dv n A P m -> paired_grads dv n n P A m.
  Proof. intros (a & p & i & j & G1 & G2 & S1 & S2 & W1 & W2). exists p, a, dv, [i; j]. auto 10. Qed.
  Lemma fmul_comm' (a b : F) : fmul a b = fmul b a.
  Proof. ring. Qed.
  Lemma dot_comm (a b : tensor) : length (data a) = length (data b) -> dot a b = dot b a.
  Proof. intros E. unfold dot. rewrite E. apply sum_ext. intros k _. ring. Qed.
  Lemma score_comm dv n (A B : tlog) l i j : (forall m, In m l -> twin_grads dv n A B m) -> i < n -> j < n -> score A B l i j = score B A l j i.
  Proof.
    intros TW Li Lj. unfold score. f_equal. apply map_ext_in. intros m I. destruct (TW m I) as (a & p & x & y & G1 & G2 & S1 & S2 & W1 & W2). unfold gdot. rewrite G1, G2. apply dot_comm. cbn [snd].
    rewrite (slice_length_t n [x; y] a i), (slice_length_t n [x; y] p j) by assumption. reflexivity.
  Qed.
  Lemma diag_final n (f : list string -> nat -> nat -> F) groups ms :
    diagonal (final (fun l => mgen n n (f l)) groups ms) = final (fun l => tgen [n] (fun x => f l (ix 0 x) (ix 0 x))) groups ms.
  Proof.
    assert (D : forall g, diag (mgen n n g) = tgen [n] (fun x => g (ix 0 x) (ix 0 x))).
    { intros g. unfold diag. rewrite shape_mgen. cbn [nth]. apply tgen_ext. intros idx V. inversion V as [|x ? ? ? Lx V']; subst. inversion V'; subst. unfold ix. cbn [nth]. rewrite mget_mgen by assumption. reflexivity. }
    unfold final, diagonal. destruct groups as [gs|]; cbn [map fst snd]; rewrite ?map_map; cbn [fst snd]; rewrite D; [|reflexivity]. f_equal. f_equal. apply map_ext. intros g. rewrite D. reflexivity.
  Qed.
  (** C49 *)
  Theorem self_diagonal dv L ids prec groups h d (s : lstate) : L <> [] -> plain_log dv (length ids) L -> keeps_shapes (prec_step prec (ids, Nest (log_nd L)) d h) L s -> grad_first L -> groups_ok groups -> groups_hit groups (dkeys L) ->
    let log := (ids, Nest (log_nd L)) in
    match compute_influence log log "dot" prec h groups d s with
    | (s', Ok r) => i_src r = ids /\ i_tgt r = ids /\ compute_self_influence log prec h groups d s = (s', Ok (ids, diagonal (i_val r)))
    | (s', Err e) => compute_self_influence log prec h groups d s = (s', Err e)
    end.
  Proof.
    intros NL PL KS GF GO GH log. unfold log. destruct (prec_step prec (ids, Nest (log_nd L)) d h s) as [s1 [r|e]] eqn:E.
    - destruct (prec_out ids dv (length ids) L prec d h s s1 r PL KS E) as (P & -> & K & TW & _).
      rewrite (influence_prec L (Nest (log_nd L)) "dot" prec h groups d s s1 ids ids P eq_refl E).
      rewrite (influence_dot eigh inverse fsqrt dv P L ids ids groups h d s1); rewrite ?K; auto.
      + cbn [i_src i_tgt i_val]. split; [reflexivity|]. split; [reflexivity|]. rewrite (self_ok eigh inverse dv L P ids ids prec groups h d s s1 NL GO GH E TW). f_equal. f_equal. f_equal.
        unfold score_matrix. rewrite diag_final. apply final_ext. intros l IL. apply tgen_ext. intros idx V. inversion V as [|x ? ? ? Lx V']; subst. apply (score_comm dv (length ids)); [auto|exact Lx|exact Lx].
      + intros ->. apply NL. destruct L; [reflexivity|discriminate K].
      + intros m I. apply twin_pair. auto.
      + eapply head_prec; eauto.
    - rewrite (influence_prec_err L (Nest (log_nd L)) "dot" prec h groups d s s1 ids ids e eq_refl E). apply self_prec_err. exact E.
  Qed.

  (** C53 *)
  Lemma all_moved dv (L : tlog) : all_on dv L -> moved dv L = L.
  Proof.
    unfold all_on, moved. induction 1 as [|[m e] L Fe _ IH]; [reflexivity|]. cbn [map fst snd]. rewrite IH. f_equal. f_equal. clear IH. cbn [snd] in Fe. induction Fe as [|[t [x y]] e' Q _ IHe]; [reflexivity|]. cbn [map fst snd] in *. subst x. rewrite IHe. reflexivity.
  Qed.
  Lemma by_column_mgen f n k g v : by_column f (mgen n k g) (tgen [k] (fun x => v (ix 0 x))) = mgen n k (fun i j => f (g i j) (v j)).
  Proof.
    unfold by_column. rewrite shape_mgen. cbn [nth]. apply mgen_ext. intros i j Li Lj. rewrite mget_mgen by assumption. rewrite tget_tgen by (repeat constructor; exact Lj). reflexivity.
  Qed.
  (** the adjusted dictionary, picked *)
  Lemma combine_final f n k (sc : list string -> nat -> nat -> F) (nm : list string -> nat -> F) groups msA msB : groups_ok groups ->
    combine f (final (fun l => mgen n k (sc l)) groups msA) (final (fun l => tgen [k] (fun x => nm l (ix 0 x))) groups msB) =
    match groups with
    | None => Mat (mgen n k (fun i j => f (sc msA i j) (nm msB j)))
    | Some gs => Grp (("total", mgen n k (fun i j => f (sc msA i j) (nm msB j))) :: map (fun g => (g, mgen n k (fun i j => f (sc (in_group g msA) i j) (nm (in_group g msB) j)))) gs)
    end.
  Proof.
    intros GO. unfold final, combine. destruct groups as [gs|]; [|rewrite by_column_mgen; reflexivity]. cbn [map fst snd dget]. rewrite eqb_refl, by_column_mgen. f_equal. f_equal. rewrite map_map. cbn [fst snd]. cbn in GO. inversion GO as [|? ? G1 G2]; subst.
    apply map_ext_in. intros g Ig. rewrite (eqb_neq g "total") by (intros ->; contradiction). rewrite (dget_fun (fun g => tgen [k] (fun x => nm (in_group g msB) (ix 0 x))) gs g Ig). rewrite by_column_mgen. reflexivity.
  Qed.
  Lemma finish_adjusted (n k : nat) (v0 : tensor) (vg : string -> tensor) groups : (shape v0 = [n; k]) -> (forall g, shape (vg g) = [n; k]) -> groups_ok groups ->
    (let* vals := mapM (fun p : string * option dten => let* v := chk2 n k (snd p) in Ok (fst p, v)) (("total", Some (Cpu, v0)) :: map (fun g => (g, Some (Cpu, vg g))) (match groups with Some l => l | None => [] end)) in pick groups vals) =
    Ok (match groups with None => Mat v0 | Some gs => Grp (("total", v0) :: map (fun g => (g, vg g)) gs) end).
  Proof.
    intros S0 Sg GO. cbn [mapM fst snd chk2]. rewrite S0, !Nat.eqb_refl. cbn [andb bind].
    assert (K : forall l, mapM (fun p : string * option dten => let* v := chk2 n k (snd p) in Ok (fst p, v)) (map (fun g => (g, Some (Cpu, vg g))) l) = Ok (map (fun g => (g, vg g)) l)).
    { induction l as [|g l IH]; [reflexivity|]. cbn [map mapM fst snd chk2]. rewrite Sg, !Nat.eqb_refl. cbn [andb bind]. rewrite IH. reflexivity. }
    rewrite K. destruct groups as [gs|]; cbn [bind pick]; [reflexivity|]. unfold dgetM. cbn [dget]. rewrite eqb_refl. reflexivity.
  Qed.
  Definition adj (mode : string) : F -> F -> F := if String.eqb mode "cosine" then (fun v n => fdiv v (fsqrt n)) else (fun v n => fsub v (fmul half n)).
  (** scores of a nested log before normalising, then the target's self-influence *)
  Lemma influence_adjust dv P B mode h groups d (s s2 : lstate) sids tids Q ids' : mode = "l2" \/ mode = "cosine" -> P <> [] -> B <> [] -> groups_ok groups -> groups_hit groups (dkeys P) -> groups_hit groups (dkeys B) ->
    (forall m, In m (dkeys P) -> paired_grads dv (length sids) (length tids) P B m) -> head_on dv P B ->
    precondition (tids, Nest (log_nd (moved dv B))) d h s = (s2, Ok (ids', Nest (log_nd Q))) -> (forall m, In m (dkeys B) -> twin_grads dv (length tids) (moved dv B) Q m) ->
    compute_influence (sids, Nest (log_nd P)) (tids, Nest (log_nd B)) mode false h groups d s =
    (s2, match dv with
         | Cpu => Ok (InfRes sids tids (combine (adj mode) (final (fun l => score_matrix P B l (length sids) (length tids)) groups (dkeys P))
                    (final (fun l => tgen [length tids] (fun x => score (moved dv B) Q l (ix 0 x) (ix 0 x))) groups (dkeys B))))
         | Gpu => Err RuntimeError
         end).
  Proof.
    intros MD NP NB GO GHP GHB PR HD EQ TW. unfold ModelInfluence.compute_influence.
    replace (mem mode ["dot"; "l2"; "cosine"]) with true by (destruct MD as [-> | ->]; reflexivity).
    assert (NK : log_keys B <> []). { destruct P as [|[m e] P]; [congruence|]. eapply pair_keys. apply (PR m). left. reflexivity. }
    assert (KM : dkeys (moved dv B) = dkeys B) by (unfold moved, dkeys; rewrite map_map; reflexivity).
    assert (SF : compute_self_influence (tids, Nest (log_nd (moved dv B))) true h groups d s = (s2, Ok (tids, final (fun l => tgen [length tids] (fun x => score (moved dv B) Q l (ix 0 x) (ix 0 x))) groups (dkeys B)))).
    { rewrite (self_ok eigh inverse dv (moved dv B) Q tids ids' true groups h d s s2); rewrite ?KM; auto. destruct B; [congruence|discriminate]. }
    set (norm := final (fun l => tgen [length tids] (fun x => score (moved dv B) Q l (ix 0 x) (ix 0 x))) groups (dkeys B)) in *.
    set (n := length sids) in *. set (k := length tids) in *.
    assert (BODY : forall f : F -> F -> F,
      (let! tot := (let! nv := compute_self_influence (tids, Nest (log_nd (moved dv B))) true h groups d in lift (adjust_all f (snd nv) (form (acc2 dv P B n k) groups (dkeys P)))) in
       let! vals := lift (mapM (fun p => match snd p with
                                        | None => Err AttributeError
                                        | Some x => match shape (snd x) with
                                                    | [a; b] => if (a =? n) && (b =? k) then Ok (fst p, snd x) else Err AssertionError
                                                    | _ => Err IndexError
                                                    end
                                        end) tot) in
       let! v := lift (pick groups vals) in
       sret (InfRes sids tids v)) s =
      (s2, match dv with Cpu => Ok (InfRes sids tids (combine f (final (fun l => score_matrix P B l n k) groups (dkeys P)) norm)) | Gpu => Err RuntimeError end)).
    { intros f. cbv [sbind lift sret]. rewrite SF. cbn [snd]. unfold norm. clear norm SF. destruct dv.
      - assert (NP' : dkeys P <> []) by (destruct P; [congruence|discriminate]).
        pose proof (adjust_form f (acc2 Cpu P B n k) (score P B) (fun l j => score (moved Cpu B) Q l j j) groups (dkeys P) (dkeys B) n k GO GHP NP' (fun l => eq_refl)) as AF.
        rewrite AF. cbv beta iota.
        change (dev * tensor)%type with dten. rewrite (mapM_chk (chk2 n k)).
        + pose proof (finish_adjusted n k (mgen n k (fun i j => f (score P B (dkeys P) i j) (score (moved Cpu B) Q (dkeys B) j j)))
            (fun g => mgen n k (fun i j => f (score P B (in_group g (dkeys P)) i j) (score (moved Cpu B) Q (in_group g (dkeys B)) j j))) groups (shape_mgen _ _ _) (fun g => shape_mgen _ _ _) GO) as FA.
          destruct (mapM _ _) as [vals|e]; cbn [bind] in FA; [|discriminate FA]. rewrite FA. f_equal. f_equal. f_equal.
          symmetry. exact (combine_final f n k (score P B) (fun l j => score (moved Cpu B) Q l j j) groups (dkeys P) (dkeys B) GO).
        + intros [key [x|]]; [|reflexivity]. cbn [snd fst chk2]. destruct (shape (snd x)) as [|a [|b [|]]]; try reflexivity. destruct ((a =? n) && (b =? k)); reflexivity.
      - assert (AE : forall nf, adjust_all f (final (fun l => tgen [k] (nf l)) groups (dkeys B)) (form (acc2 Gpu P B n k) groups (dkeys P)) = Err RuntimeError).
        { intros nf. unfold adjust_all, form. cbn [mapM fst snd]. unfold val. destruct (dkeys P) as [|x r] eqn:DP; [destruct P; [congruence|discriminate DP]|]. rewrite <- DP. unfold final. destruct groups; cbn [bind dgetM dget]; unfold dgetM; cbn [dget]; rewrite ?eqb_refl; cbn [bind]; unfold adjust; cbn [tgen shape]; reflexivity. }
        rewrite AE. reflexivity. }
    destruct MD as [-> | ->].
    - specialize (BODY (adj "l2")). change (String.eqb "l2" "cosine") with false. change (String.eqb "l2" "l2") with true.
      cbv [sbind sret lift] in BODY |- *. cbn [fst snd] in BODY |- *. rewrite (sync_ok dv P B HD NK). rewrite log_nd_keys. rewrite (nested_scores dv P B _ _ groups GO PR). cbn [fst snd]. exact BODY.
    - specialize (BODY (adj "cosine")). change (String.eqb "cosine" "cosine") with true.
      cbv [sbind sret lift] in BODY |- *. cbn [fst snd] in BODY |- *. rewrite (sync_ok dv P B HD NK). rewrite log_nd_keys. rewrite (nested_scores dv P B _ _ groups GO PR). cbn [fst snd]. exact BODY.
  Qed.
  Lemma influence_adjust_err dv P B mode h groups d (s s2 : lstate) sids tids e : mode = "l2" \/ mode = "cosine" -> P <> [] -> groups_ok groups ->
    (forall m, In m (dkeys P) -> paired_grads dv (length sids) (length tids) P B m) -> head_on dv P B ->
    precondition (tids, Nest (log_nd (moved dv B))) d h s = (s2, Err e) ->
    compute_influence (sids, Nest (log_nd P)) (tids, Nest (log_nd B)) mode false h groups d s = (s2, Err e).
  Proof.
    intros MD NP GO PR HD EQ. unfold ModelInfluence.compute_influence.
    replace (mem mode ["dot"; "l2"; "cosine"]) with true by (destruct MD as [-> | ->]; reflexivity).
    assert (NK : log_keys B <> []). { destruct P as [|[m x] P]; [congruence|]. eapply pair_keys. apply (PR m). left. reflexivity. }
    pose proof (self_prec_err (moved dv B) true h groups d s s2 tids e EQ) as SF.
    destruct MD as [-> | ->].
    - change (String.eqb "l2" "cosine") with false. change (String.eqb "l2" "l2") with true. cbv [sbind sret lift]. cbn [fst snd]. rewrite (sync_ok dv P B HD NK). rewrite log_nd_keys. rewrite (nested_scores dv P B _ _ groups GO PR). cbn [fst snd]. rewrite SF. reflexivity.
    - change (String.eqb "cosine" "cosine") with true. cbv [sbind sret lift]. cbn [fst snd]. rewrite (sync_ok dv P B HD NK). rewrite log_nd_keys. rewrite (nested_scores dv P B _ _ groups GO PR). cbn [fst snd]. rewrite SF. reflexivity.
  Qed.
  Lemma plain_moved dv n (B : tlog) : plain_log dv n B -> plain_log dv n (moved dv B) /\ forall m, grad_of (moved dv B) m = option_map (fun x => (dv, snd x)) (grad_of B m).
  Proof.
    intros (N & P). assert (KM : dkeys (moved dv B) = dkeys B) by (unfold moved, dkeys; rewrite map_map; reflexivity). split; [|intros m; apply grad_moved]. split; [rewrite KM; exact N|]. rewrite KM. intros m I. destruct (P m I) as (a & i & j & G & S1 & W1). exists a, i, j. rewrite grad_moved, G. auto.
  Qed.
  Lemma within_paired dv n k (A P B : tlog) m : plain_log dv n A -> plain_log dv k B -> within A B -> twin_grads dv n A P m -> paired_grads dv n k P B m.
  Proof.
    intros PA PB W (a & p & i & j & Ga & Gp & Sa & Sp & Wa & Wp). destruct (W m _ Ga) as (b & Gb & Sb). cbn [snd] in Sb. rewrite Sa in Sb. cbn [tl] in Sb.
    assert (I : In m (dkeys B)) by (eapply look_in; exact Gb). destruct PB as (_ & PB). destruct (PB m I) as (b' & i' & j' & Gb' & Sb' & Wb'). rewrite Gb in Gb'. injection Gb' as ->. cbn [snd] in Sb. rewrite Sb' in Sb. cbn [tl] in Sb. injection Sb as -> ->.
    exists p, b', dv, [i; j]. auto 10.
  Qed.
  (** C53 *)
  Theorem l2_cosine dv A B mode prec h groups d (s : lstate) sids tids : mode = "l2" \/ mode = "cosine" -> A <> [] -> plain_log dv (length sids) A -> plain_log dv (length tids) B -> all_on dv B -> within A B ->
    keeps_shapes (prec_step prec (sids, Nest (log_nd A)) d h) A s -> keeps_shapes (precondition (tids, Nest (log_nd B)) d h) B (fst (prec_step prec (sids, Nest (log_nd A)) d h s)) ->
    grad_first B -> (forall m, In m (dkeys B) -> In m (dkeys A)) -> groups_ok groups -> groups_hit groups (dkeys A) ->
    let src := (sids, Nest (log_nd A)) in let tgt := (tids, Nest (log_nd B)) in
    match compute_influence src tgt "dot" prec h groups d s with
    | (s1, Ok r) =>
        match compute_self_influence tgt true h groups d s1 with
        | (s2, Ok nv) => compute_influence src tgt mode prec h groups d s =
            (s2, match dv with Cpu => Ok (InfRes sids tids (combine (if String.eqb mode "l2" then (fun v n => fsub v (fmul half n)) else (fun v n => fdiv v (fsqrt n))) (i_val r) (snd nv))) | Gpu => Err RuntimeError end)
        | (s2, Err e) => compute_influence src tgt mode prec h groups d s = (s2, Err e)
        end
    | (s1, Err e) => compute_influence src tgt mode prec h groups d s = (s1, Err e)
    end.
  Proof.
    intros MD NA PA PB AO WI KA KB GF SUB GO GH src tgt. unfold src, tgt. assert (MM : mem mode ["dot"; "l2"; "cosine"] = true) by (destruct MD as [-> | ->]; reflexivity).
    assert (INC : forall m, In m (dkeys A) -> In m (dkeys B)). { intros m I. destruct PA as (_ & PA'). destruct (PA' m I) as (a & i & j & G & _). destruct (WI m _ G) as (b & Gb & _). eapply look_in. exact Gb. }
    assert (GHB : groups_hit groups (dkeys B)). { unfold groups_hit in *. destruct groups as [gs|]; [|exact Logic.I]. intros g Ig E0. apply (GH g Ig). destruct (in_group g (dkeys A)) as [|x r] eqn:EG; [reflexivity|]. exfalso.
      assert (X : In x (in_group g (dkeys A))) by (rewrite EG; left; reflexivity). unfold in_group in *. apply filter_In in X. destruct X as (X1 & X2). assert (Y : In x (filter (contains g) (dkeys B))) by (apply filter_In; auto). rewrite E0 in Y. contradiction. }
    assert (NB : B <> []). { destruct A as [|[m e] A]; [congruence|]. intros ->. apply (INC m). left. reflexivity. }
    destruct (prec_step prec (sids, Nest (log_nd A)) d h s) as [s1 [r|e]] eqn:E.
    - destruct (prec_out sids dv (length sids) A prec d h s s1 r PA KA E) as (P & -> & K & TW & _).
      rewrite (influence_prec A (Nest (log_nd B)) "dot" prec h groups d s s1 sids tids P eq_refl E).
      rewrite (influence_prec A (Nest (log_nd B)) mode prec h groups d s s1 sids tids P MM E).
      assert (PR : forall m, In m (dkeys P) -> paired_grads dv (length sids) (length tids) P B m) by (intros m I; rewrite K in I; eapply within_paired; eauto).
      pose proof (head_prec dv (length sids) A P B PA TW GF SUB) as HD.
      assert (NP : P <> []). { intros ->. apply NA. destruct A; [reflexivity|discriminate K]. }
      rewrite (influence_dot eigh inverse fsqrt dv P B sids tids groups h d s1 NP GO); [|rewrite K; exact GH|exact PR|exact HD]. rewrite K. cbn [i_val].
      pose proof (all_moved dv B AO) as AM.
      destruct (precondition (tids, Nest (log_nd B)) d h s1) as [s2 [r2|e2]] eqn:E2.
      + destruct (prec_out tids dv (length tids) B true d h s1 s2 r2 PB KB E2) as (Q & -> & KQ & TQ & _).
        rewrite (self_ok eigh inverse dv B Q tids tids true groups h d s1 s2 NB GO GHB E2 TQ).
        rewrite (influence_adjust dv P B mode h groups d s1 s2 sids tids Q tids MD NP NB GO); [|rewrite K; exact GH|exact GHB|exact PR|exact HD|rewrite AM; exact E2|rewrite AM; exact TQ].
        rewrite AM, K. cbn [snd]. destruct dv; [|reflexivity]. f_equal. f_equal. f_equal. unfold adj. destruct MD as [-> | ->]; reflexivity.
      + rewrite (self_prec_err B true h groups d s1 s2 tids e2 E2). rewrite (influence_adjust_err dv P B mode h groups d s1 s2 sids tids e2); rewrite ?AM; auto.
    - rewrite (influence_prec_err A (Nest (log_nd B)) "dot" prec h groups d s s1 sids tids e eq_refl E). apply influence_prec_err; assumption.
  Qed.
  Theorem bad_mode src tgt mode prec h groups d (s : lstate) : ~ In mode ["dot"; "l2"; "cosine"] -> compute_influence src tgt mode prec h groups d s = (s, Err AssertionError).
  Proof. intros N. unfold ModelInfluence.compute_influence. replace (mem mode ["dot"; "l2"; "cosine"]) with false; [reflexivity|]. symmetry. apply mem_false. exact N. Qed.

  (** C52 *)
  Theorem uncovered ids C L d h (s : lstate) : In h ["auto"; "kfac"; "raw"] -> holds s "covariance_state" C -> (exists m, In m (dkeys L) /\ ~ In m (dkeys C)) ->
    precondition (ids, Nest (log_nd L)) d h s = (s, Ok (ids, Nest (log_nd L))).
  Proof.
    intros Hh (HC & _) (m & I & N). unfold ModelInfluence.precondition. replace (mem h ["auto"; "kfac"; "raw"]) with true by (symmetry; apply mem_In; exact Hh). cbv [sbind lift attr sret]. cbn [snd fst]. rewrite HC, !log_nd_keys.
    replace (forallb (fun m0 => mem m0 (dkeys C)) (dkeys L)) with false; [reflexivity|]. symmetry. apply not_true_is_false. intros T0. rewrite forallb_forall in T0. specialize (T0 m I). apply mem_In in T0. contradiction.
  Qed.
  Theorem bad_hessian log d h (s : lstate) : ~ In h ["auto"; "kfac"; "raw"] -> precondition log d h s = (s, Err AssertionError).
  Proof. intros N. unfold ModelInfluence.precondition. replace (mem h ["auto"; "kfac"; "raw"]) with false; [reflexivity|]. symmetry. apply mem_false. exact N. Qed.
  Theorem no_covariance log d h (s : lstate) : In h ["auto"; "kfac"; "raw"] -> dget "covariance_state" (attrs s) = None -> precondition log d h s = (s, Err AttributeError).
  Proof. intros Hh N. unfold ModelInfluence.precondition. replace (mem h ["auto"; "kfac"; "raw"]) with true by (symmetry; apply mem_In; exact Hh). cbv [sbind lift attr sret]. rewrite N. reflexivity. Qed.
End Proofs.
