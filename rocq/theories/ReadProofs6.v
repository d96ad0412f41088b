(** Reads of missing entries: what a failed call leaves behind. *)
From Verif Require Import Py PyStr Field Tensor ModelGrad Monad ModelState ModelInfluence ModelReads SpecInfluence SpecFault SpecReads.
From Verif Require Import StateProofs1 InfProofs1 InfProofs2 InfProofs4 InfProofs5 InfProofs7 InfProofs9 InfProofs16 FaultProofs1 ReadProofs1 ReadProofs2 ReadProofs3 ReadProofs4 ReadProofs5.
Local Open Scope string_scope.
Local Open Scope list_scope.
Local Open Scope nat_scope.

Section ReadProofs6.
  Context {F : Type} `{OField F}.
  Notation tensor := (tensor F).
  Notation sval := (@sval F).
  Notation lstate := (@lstate F).
  Notation dten := (@dten F).
  Notation world := (@world F).
  Notation logs := (list (bool * nd sval)).
  Notation tlog := (@tlog F).
  Variable eigh : tensor -> res (tensor * tensor).
  Variable inverse : tensor -> res tensor.
  Variable fsqrt : F -> F.

  Lemma sbind_sret {S A B} (a : A) (f : A -> SM S B) s : sbind (sret a) f s = f a s.
  Proof. reflexivity. Qed.
  Lemma sbind_lift {S A B} (a : A) (f : A -> SM S B) s : sbind (lift (Ok a)) f s = f a s.
  Proof. reflexivity. Qed.
  Theorem influence_follows (w : world) sids tids a b (A : tlog) t c (B : tlog) mode prec h groups d : stands w a b A -> stands w t c B -> a <> t ->
    match compute_influence eigh inverse fsqrt (sids, Nest (log_nd A)) (tids, Nest (log_nd B)) mode prec h groups d (w_st w) with
    | (s', Ok v) => exists w' dv, compute_influence_r eigh inverse fsqrt (sids, At a) (tids, At t) mode prec h groups d w = (w', Ok v) /\ w_st w' = s' /\
        stands w' t c (placed dv B) /\ others_kept w w' [t] /\
        (prec = false -> forall m k l, log_keys B = (m, k) :: l -> exists x, look A m k = Some (dv, x))
    | (_, Err e) => exists w' e', compute_influence_r eigh inverse fsqrt (sids, At a) (tids, At t) mode prec h groups d w = (w', Err e') /\
        (e' = e \/ (b && c = false /\ e' = KeyError))
    end.
  Proof.
    destruct w as [s L]. intros SA SB N. unfold stands in *. cbn [w_logs w_st] in *.
    assert (Hb : b = false -> b && c = false) by (intros ->; reflexivity). assert (Hc : c = false -> b && c = false) by (intros ->; apply andb_false_r).
    pose proof (tr_influence eigh inverse fsqrt (b && c = false) L sids tids a b A t c B mode prec h groups d s SA Hb SB Hc (or_introl N)) as T. unfold tracks in T.
    destruct (compute_influence eigh inverse fsqrt (sids, Nest (log_nd A)) (tids, Nest (log_nd B)) mode prec h groups d s) as [s' [v|e]]; [|exact T].
    destruct T as (w' & v' & E & -> & L' & dv & -> & Dv & T' & O). exists (World s' L'), dv. split; [exact E|]. split; [reflexivity|]. split; [exact T'|]. split.
    - intros r x Nr. apply O. intros ->. apply Nr. left. reflexivity.
    - intros Hp m k l Q. specialize (Dv Hp). unfold dev_from in Dv. rewrite Q in Dv. destruct (look A m k) as [[dv' x]|]; [|discriminate]. injection Dv as ->. eauto.
  Qed.
  Theorem flat_follows (w : world) sids tids a b (A : tlog) u mode prec h groups d : stands w a b A ->
    match compute_influence eigh inverse fsqrt (sids, Nest (log_nd A)) (tids, Flat u) mode prec h groups d (w_st w) with
    | (s', Ok v) => exists w', compute_influence_r eigh inverse fsqrt (sids, At a) (tids, One u) mode prec h groups d w = (w', Ok v) /\ w_st w' = s' /\ others_kept w w' []
    | (_, Err e) => exists w' e', compute_influence_r eigh inverse fsqrt (sids, At a) (tids, One u) mode prec h groups d w = (w', Err e') /\ (e' = e \/ (b = false /\ e' = KeyError))
    end.
  Proof.
    destruct w as [s L]. intros SA. unfold stands in *. cbn [w_logs w_st] in *.
    pose proof (tr_influence_flat eigh inverse fsqrt (b = false) L sids tids a b A u mode prec h groups d s SA (fun x => x)) as T. unfold tracks in T.
    destruct (compute_influence eigh inverse fsqrt _ _ mode prec h groups d s) as [s' [v|e]]; [|exact T].
    destruct T as (w' & v' & E & L' & -> & -> & G). exists (World s' L'). split; [exact E|]. split; [reflexivity|]. intros r x _ Q. apply G. exact Q.
  Qed.
  Theorem self_follows (w : world) ids a b (A : tlog) prec h groups d : stands w a b A ->
    match compute_self_influence eigh inverse (ids, Nest (log_nd A)) prec h groups d (w_st w) with
    | (s', Ok v) => exists w', compute_self_influence_r eigh inverse (ids, At a) prec h groups d w = (w', Ok v) /\ w_st w' = s' /\ others_kept w w' []
    | (_, Err e) => exists w' e', compute_self_influence_r eigh inverse (ids, At a) prec h groups d w = (w', Err e') /\ (e' = e \/ (b = false /\ e' = KeyError))
    end.
  Proof.
    destruct w as [s L]. intros SA. unfold stands in *. cbn [w_logs w_st] in *.
    pose proof (tr_self eigh inverse (b = false) L ids a b A prec h groups d s SA (fun x => x)) as T. unfold tracks in T.
    destruct (compute_self_influence eigh inverse _ prec h groups d s) as [s' [v|e]]; [|exact T].
    destruct T as (w' & v' & E & L' & -> & -> & G). exists (World s' L'). split; [exact E|]. split; [reflexivity|]. intros r x _ Q. apply G. exact Q.
  Qed.

  Lemma dset_new {A} k (v : A) (d : dict string A) : dget k d = None -> dset k v d = d ++ [(k, v)].
  Proof. induction d as [|[k' y] d IH]; [reflexivity|]. cbn [dget dset app]. destruct (eqb k k'); [discriminate|]. intros E. rewrite IH by exact E. reflexivity. Qed.
  (** the read of a missing entry *)
  Lemma read_miss r b (L : tlog) m t (w : world) : stands w r b L -> look L m t = None ->
    read r m t w = if b then (World (w_st w) (upd (w_logs w) r (true, with_hole L m t)), Ok (Node [])) else (w, Err KeyError).
  Proof.
    intros E Q. unfold stands in E. rewrite (read_run r m t w b _ E). unfold getitem2, getitem, log_nd, with_hole. rewrite (dget_map (fun e : dict string dten => Node (map (fun q => (fst q, Leaf (VT (snd q)))) e))). unfold look in Q.
    destruct (dget m L) as [e|] eqn:G; cbn [option_map].
    - rewrite (dget_map (fun d : dten => Leaf (VT d))), Q. cbn [option_map]. destruct b; cbn [fst snd].
      + rewrite (dset_new t) by (rewrite (dget_map (fun d : dten => Leaf (VT d))), Q; reflexivity). reflexivity.
      + rewrite (dset_same m); [|rewrite (dget_map (fun e : dict string dten => Node (map (fun q => (fst q, Leaf (VT (snd q)))) e))), G; reflexivity]. change (Node _) with (log_nd L) at 1. rewrite (upd_same _ _ _ E). destruct w. reflexivity.
    - destruct b; cbn [fst snd].
      + cbn [dget fst snd map app]. rewrite dset_dset. reflexivity.
      + change (Node _) with (log_nd L). rewrite (upd_same _ _ _ E). destruct w. reflexivity.
  Qed.
  Lemma hole_spoiled (L : tlog) m t (w : world) r : nth_error (w_logs w) r = Some (true, with_hole L m t) -> grad_of L m = None -> look L m t = None -> spoiled w r.
  Proof.
    intros E G Q. eexists true, _, m, _, t. split; [exact E|]. split; [apply dget_dset_eq|]. unfold grad_of, look in *.
    assert (X : forall k (l : dict string dten) y, dget k (map (fun q => (fst q, Leaf (VT (snd q)))) l ++ [(t, Node y)]) = match dget k l with Some d => Some (Leaf (VT d)) | None => if eqb k t then Some (@Node sval y) else None end).
    { clear. intros k l y. induction l as [|[k' d] l IH]; [reflexivity|]. cbn [map app dget fst snd]. destruct (eqb k k'); [reflexivity|exact IH]. }
    set (e := match dget m L with Some e => e | None => [] end). assert (Ge : dget "grad" e = None) by (unfold e; destruct (dget m L); [exact G|reflexivity]).
    assert (Qe : dget t e = None) by (unfold e; destruct (dget m L); [exact Q|reflexivity]). split.
    - intros v Z. pose proof (X "grad" e []) as Y. rewrite Ge in Y. unfold e in Y. pose proof (eq_trans (eq_sym Y) Z) as W. destruct (eqb "grad" t); discriminate.
    - pose proof (X t e []) as Y. rewrite Qe, eqb_refl in Y. exact Y.
  Qed.
  Lemma dot_app groups a t l1 l2 : forall d (w : world), dot_loop_r groups a t (l1 ++ l2) d w = (let! d' := dot_loop_r groups a t l1 d in dot_loop_r groups a t l2 d') w.
  Proof.
    induction l1 as [|m l1 IH]; intros d w; [reflexivity|]. cbn [app dot_loop_r]. unfold sbind in *. destruct (read a m "grad" w) as [w1 [x|e]]; [|reflexivity]. destruct (read t m "grad" w1) as [w2 [y|e]]; [|reflexivity].
    unfold lift. destruct (as_dten x); [|reflexivity]. destruct (as_dten y); [|reflexivity]. destruct (cross_dot_product _ _); [|reflexivity]. destruct (add_module groups m _ d); [|reflexivity]. apply IH.
  Qed.
  (** the target has no gradient for a module of the source *)
  Theorem target_hole dv (w : world) sids tids a b (A : tlog) t c (B : tlog) mode h groups d l1 m l2 x :
    stands w a b A -> stands w t c B -> a <> t -> In mode ["dot"; "l2"; "cosine"] -> groups_ok groups -> head_on dv A B -> log_keys B <> [] ->
    dkeys A = l1 ++ m :: l2 -> (forall x, In x l1 -> paired_grads dv (length sids) (length tids) A B x) -> grad_of A m = Some x -> grad_of B m = None ->
    exists w', compute_influence_r eigh inverse fsqrt (sids, At a) (tids, At t) mode false h groups d w = (w', Err (if c then AttributeError else KeyError)) /\
      w_st w' = w_st w /\ others_kept w w' [t] /\
      (if c then nth_error (w_logs w') t = Some (true, with_hole (placed dv B) m "grad") /\ spoiled w' t else stands w' t false (placed dv B)).
  Proof.
    destruct w as [s L]. intros SA SB N MD GO HD NB KA PR GA GB. unfold stands in *. cbn [w_logs w_st] in *.
    unfold compute_influence_r. replace (mem mode ["dot"; "l2"; "cosine"]) with true by (symmetry; apply mem_In; exact MD). rewrite sbind_sret. cbn [fst snd].
    set (L2 := upd L t (c, log_nd (moved dv B))).
    assert (SY : synchronize_device_r a t (World s L) = (World s L2, Ok tt)).
    { pose proof (tr_sync (b = false) L a b c A B t s SA (fun x => x) SB) as T. unfold tracks in T. rewrite (sync_ok dv A B HD NB) in T. destruct T as (w' & u & E & dv' & _ & Z & ->). rewrite E. destruct u. unfold L2. rewrite <- Z. reflexivity. }
    assert (E2 : nth_error L2 a = Some (b, log_nd A)) by (unfold L2; rewrite (nth_error_upd_other _ _ _ _ _ SB N); exact SA).
    assert (T2 : nth_error L2 t = Some (c, log_nd (moved dv B))) by exact (nth_error_upd_same _ _ _ _ SB).
    assert (O2 : forall r x, r <> t -> nth_error L r = Some x -> nth_error L2 r = Some x) by (intros r y Nr Q; unfold L2; rewrite (nth_error_upd_other _ _ _ _ _ SB Nr); exact Q).
    assert (LP : exists tot, dot_loop_r groups a t l1 (init_scores groups) (World s L2) = (World s L2, Ok tot)).
    { pose proof (tr_dot_loop (b && c = false) L2 groups a b A t c (moved dv B) E2) as T. specialize (T ltac:(intros ->; reflexivity) T2 ltac:(intros ->; apply andb_false_r) l1 (init_scores groups) s).
      rewrite (init_form (acc2 dv A B (length sids) (length tids)) groups GO) in T at 1.
      rewrite (add_modules_form (acc2 dv A B (length sids) (length tids)) (acc2_add dv A B (length sids) (length tids)) _ groups l1 GO) in T; [|intros d0 x0 Ix; destruct (paired_cross dv (length sids) (length tids) A B x0 (PR x0 Ix)) as (a0 & b0 & Ea & Eb & Ec); rewrite !log_item_look; unfold grad_of in Ea, Eb; rewrite Ea, Eb; cbn [bind]; rewrite Ec; reflexivity].
      destruct T as (w' & tot & E & -> & _). eauto. }
    destruct LP as (tot & LP).
    assert (MS : look (moved dv B) m "grad" = None) by (rewrite look_moved; unfold grad_of in GB; rewrite GB; reflexivity).
    assert (LM : dot_loop_r groups a t (m :: l2) tot (World s L2) = if c then (World s (upd L2 t (true, with_hole (moved dv B) m "grad")), Err AttributeError) else (World s L2, Err KeyError)).
    { cbn [dot_loop_r]. assert (RA : read a m "grad" (World s L2) = (World s L2, Ok (Leaf (VT x)))).
      { apply (read_hit a m "grad" (World s L2) b (log_nd A)); [exact E2|]. rewrite item_of_look. unfold grad_of in GA. rewrite GA. reflexivity. }
      rewrite (sbind_run _ _ _ _ _ RA). pose proof (read_miss t c (moved dv B) m "grad" (World s L2) T2 MS) as RT. destruct c.
      - rewrite (sbind_run _ _ _ _ _ RT). reflexivity.
      - rewrite (sbind_err _ _ _ _ _ RT). reflexivity. }
    assert (BODY : (let! x := logs_at t in let! src := lift (Ok a) in synchronize_device_r src t ;; let! x := logs_at src in let! ms := lift (nd_keys (snd x)) in dot_loop_r groups src t ms (init_scores groups)) (World s L) =
      if c then (World s (upd L2 t (true, with_hole (moved dv B) m "grad")), Err AttributeError) else (World s L2, Err KeyError)).
    { rewrite (sbind_run _ _ _ _ _ (logs_run t (World s L) _ SB)). rewrite sbind_lift. rewrite (sbind_run _ _ _ _ _ SY). rewrite (sbind_run _ _ _ _ _ (logs_run a (World s L2) _ E2)).
      cbn [snd]. rewrite log_nd_keys, KA. rewrite sbind_lift. rewrite dot_app. rewrite (sbind_run _ _ _ _ _ LP). exact LM. }
    change (placed dv B) with (moved dv B). destruct c.
    - exists (World s (upd L2 t (true, with_hole (moved dv B) m "grad"))). split; [exact (sbind_err _ _ _ _ _ BODY)|]. split; [reflexivity|].
      assert (HT : nth_error (upd L2 t (true, with_hole (moved dv B) m "grad")) t = Some (true, with_hole (moved dv B) m "grad")) by exact (nth_error_upd_same _ _ _ _ T2).
      split; [|split; [exact HT|]].
      + intros r y Nr Q. cbn [w_logs] in *. assert (r <> t) by (intros ->; apply Nr; left; reflexivity). rewrite (nth_error_upd_other _ _ _ _ _ T2) by assumption. apply O2; assumption.
      + apply (hole_spoiled (moved dv B) m "grad"); [exact HT|exact MS|exact MS].
    - exists (World s L2). split; [exact (sbind_err _ _ _ _ _ BODY)|]. split; [reflexivity|]. split; [|exact T2]. intros r y Nr Q. apply O2; [intros ->; apply Nr; left; reflexivity|exact Q].
  Qed.
  (** the source lacks the first entry of the target *)
  Theorem source_hole (w : world) sids tids a b (A : tlog) t c (B : tlog) mode h groups d m k l :
    stands w a b A -> stands w t c B -> a <> t -> In mode ["dot"; "l2"; "cosine"] -> log_keys B = (m, k) :: l -> look A m k = None ->
    exists w', compute_influence_r eigh inverse fsqrt (sids, At a) (tids, At t) mode false h groups d w = (w', Err (if b then AttributeError else KeyError)) /\
      w_st w' = w_st w /\ others_kept w w' [a] /\
      (if b then nth_error (w_logs w') a = Some (true, with_hole A m k) /\ (grad_of A m = None -> spoiled w' a) else w' = w).
  Proof.
    destruct w as [s L]. intros SA SB N MD KB LA. unfold compute_influence_r. replace (mem mode ["dot"; "l2"; "cosine"]) with true by (symmetry; apply mem_In; exact MD). rewrite sbind_sret. cbn [fst snd].
    pose proof (read_miss a b A m k (World s L) SA LA) as R. unfold stands in SA, SB. cbn [w_logs w_st] in *.
    assert (BODY : (let! x := logs_at t in let! src := lift (Ok a) in synchronize_device_r src t ;; let! x := logs_at src in let! ms := lift (nd_keys (snd x)) in dot_loop_r groups src t ms (init_scores groups)) (World s L) =
      if b then (World s (upd L a (true, with_hole A m k)), Err AttributeError) else (World s L, Err KeyError)).
    { rewrite (sbind_run _ _ _ _ _ (logs_run t (World s L) _ SB)). rewrite sbind_lift.
      assert (SY : synchronize_device_r a t (World s L) = if b then (World s (upd L a (true, with_hole A m k)), Err AttributeError) else (World s L, Err KeyError)).
      { unfold synchronize_device_r. rewrite (sbind_run _ _ _ _ _ (logs_run t (World s L) _ SB)). cbn [snd]. rewrite first_item_keys, KB. cbn [hd_error]. assert (RT : read_t a m k (World s L) = if b then (World s (upd L a (true, with_hole A m k)), Err AttributeError) else (World s L, Err KeyError)) by (unfold read_t; destruct b; [rewrite (sbind_run _ _ _ _ _ R); reflexivity|rewrite (sbind_err _ _ _ _ _ R); reflexivity]).
        destruct b; exact (sbind_err _ _ _ _ _ RT). }
      destruct b; exact (sbind_err _ _ _ _ _ SY). }
    destruct b.
    - exists (World s (upd L a (true, with_hole A m k))). split; [exact (sbind_err _ _ _ _ _ BODY)|]. split; [reflexivity|].
      assert (HT : nth_error (upd L a (true, with_hole A m k)) a = Some (true, with_hole A m k)) by exact (nth_error_upd_same _ _ _ _ SA).
      split; [|split; [exact HT|]].
      + intros r y Nr Q. cbn [w_logs] in *. rewrite (nth_error_upd_other _ _ _ _ _ SA); [exact Q|]. intros ->. apply Nr. left. reflexivity.
      + intros G. exact (hole_spoiled A m k (World s (upd L a (true, with_hole A m k))) a HT G LA).
    - exists (World s L). split; [exact (sbind_err _ _ _ _ _ BODY)|]. split; [reflexivity|]. split; [|reflexivity]. intros r y _ Q. exact Q.
  Qed.
  Theorem spoiled_for_good (w : world) r cs ids ids' r' mode prec h groups d : spoiled w r -> let w' := run_calls eigh inverse fsqrt cs w in
    spoiled w' r /\
    (exists w1 e, compute_influence_r eigh inverse fsqrt (ids, At r) (ids', At r') mode prec h groups d w' = (w1, Err e)) /\
    (exists w1 e, compute_influence_r eigh inverse fsqrt (ids', At r') (ids, At r) mode prec h groups d w' = (w1, Err e)) /\
    (exists w1 e, compute_self_influence_r eigh inverse (ids, At r) prec h groups d w' = (w1, Err e)).
  Proof.
    intros S w'. pose proof (spoiled_calls eigh inverse fsqrt cs w r S) as S'. split; [exact S'|]. split; [exact (influence_raises eigh inverse fsqrt ids ids' r r' mode prec h groups d w' (or_introl S'))|].
    split; [exact (influence_raises eigh inverse fsqrt ids' ids r' r mode prec h groups d w' (or_intror S'))|exact (self_raises eigh inverse ids r prec h groups d w' S')].
  Qed.
End ReadProofs6.
