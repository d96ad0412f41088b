(** Influence of degenerate logs. *)
From Verif Require Import Py PyStr Field Tensor ModelGrad Monad ModelState ModelInfluence SpecGrad SpecState SpecInfluence SpecFault GradProofs1 GradProofs2 StateProofs1 StateProofs3 StateProofs7 InfAlg InfProofs1 InfProofs2 InfProofs3 InfProofs4 InfProofs5 InfProofs7 InfProofs8 InfProofs9 FaultProofs1.
Local Open Scope string_scope.
Local Open Scope list_scope.
Local Open Scope nat_scope.

Section Proofs.
  Context {F : Type} `{OField F}.
  Notation tensor := (tensor F).
  Notation sval := (@sval F).
  Notation lstate := (@lstate F).
  Notation dten := (@dten F).
  Notation tlog := (@tlog F).
  Variable eigh : tensor -> res (tensor * tensor).
  Variable inverse : tensor -> res tensor.
  Variable fsqrt : F -> F.
  Notation precondition := (precondition eigh inverse).
  Notation compute_influence := (compute_influence eigh inverse fsqrt).
  Notation compute_self_influence := (compute_self_influence eigh inverse).

  Theorem influence_devices dv A B mode h groups d (s : lstate) sids tids l1 m l2 e a x b ra rb n k : In mode ["dot"; "l2"; "cosine"] -> groups_ok groups -> head_on dv A B -> log_keys B <> [] ->
    dkeys A = l1 ++ m :: l2 -> (forall x, In x l1 -> paired_grads dv (length sids) (length tids) A B x) -> grad_of A m = Some (e, a) -> e <> dv -> grad_of B m = Some (x, b) ->
    shape a = n :: ra -> shape b = k :: rb -> ra = rb ->
    compute_influence (sids, Nest (log_nd A)) (tids, Nest (log_nd B)) mode false h groups d s = (s, Err RuntimeError).
  Proof.
    intros MD GO HD NB KA PR GA ND GB Sa Sb <-.
    assert (EM : (let* a := log_item (log_nd A) m "grad" in let* b := log_item (log_nd (moved dv B)) m "grad" in let* _ := cross_dot_product a b in Ok tt) = Err RuntimeError).
    { pose proof (look_moved dv B m "grad") as LM. unfold grad_of in *. rewrite !log_item_look, GA, LM, GB. cbn [option_map bind]. unfold cross_dot_product. cbn [fst snd]. rewrite Sa, Sb. cbn [tl]. rewrite same_shape_refl.
      rewrite dev_eqb_neq by exact ND. reflexivity. }
    unfold ModelInfluence.compute_influence. replace (mem mode ["dot"; "l2"; "cosine"]) with true by (symmetry; apply mem_In; exact MD). cbv [sbind sret lift]. cbn [fst snd].
    rewrite (sync_ok dv A B HD NB). rewrite log_nd_keys. rewrite (nested_error dv A B (length sids) (length tids) groups l1 m l2 _ GO KA PR EM). reflexivity.
  Qed.
  Theorem influence_nothing (B : tlog) h groups d (s : lstate) sids tids : compute_influence (sids, Nest (log_nd [])) (tids, Nest (log_nd B)) "dot" false h groups d s = (s, Err AttributeError).
  Proof.
    unfold ModelInfluence.compute_influence. change (mem "dot" ["dot"; "l2"; "cosine"]) with true. change (String.eqb "dot" "cosine") with false. change (String.eqb "dot" "l2") with false. cbv [sbind sret lift]. cbn [fst snd].
    unfold synchronize_device. rewrite first_item_keys. destruct (log_keys B) as [|[m t] r]; cbn [hd_error]; [|rewrite log_item_look; reflexivity].
    rewrite log_nd_keys. cbn [dkeys map foldM fst snd].
    assert (Hd : exists r, init_scores (F:=F) groups = ("total", None) :: r).
    { unfold init_scores. assert (G : forall l (r : @scores F), exists r', fold_left (fun d g => dset g None d) l (("total", None) :: r) = ("total", None) :: r').
      { induction l as [|g l IH]; intros r; [exists r; reflexivity|]. cbn [fold_left dset]. destruct (eqb_spec g "total") as [E|E]; [subst g|]; apply IH. }
      apply G. }
    destruct Hd as (r & ->). reflexivity.
  Qed.
  Theorem influence_flat t tgt mode h groups d (s : lstate) sids tids : In mode ["dot"; "l2"; "cosine"] -> 
    match tgt with Nest x => exists B : tlog, x = log_nd B /\ log_keys B <> [] | Flat _ => exists p, watched s p end ->
    compute_influence (sids, Flat t) (tids, tgt) mode false h groups d s = (s, Err IndexError).
  Proof.
    intros MD TG. unfold ModelInfluence.compute_influence. replace (mem mode ["dot"; "l2"; "cosine"]) with true by (symmetry; apply mem_In; exact MD). cbv [sbind sret lift]. cbn [fst snd].
    destruct tgt as [x|u].
    - destruct TG as (B & -> & NB). rewrite first_item_keys. destruct (log_keys B); [congruence|reflexivity].
    - destruct TG as (p & dd & W & _). unfold attr. rewrite W. reflexivity.
  Qed.
  Theorem self_nothing h d (s : lstate) ids : compute_self_influence (ids, Nest (log_nd [])) false h None d s = (s, Err TypeError).
  Proof. reflexivity. Qed.
  Theorem influence_unwatched (A : tlog) t h groups d (s : lstate) sids tids mode : In mode ["dot"; "l2"; "cosine"] -> watched s [] ->
    compute_influence (sids, Nest (log_nd A)) (tids, Flat t) mode false h groups d s = (s, Err RuntimeError).
  Proof.
    intros MD (dd & W & P). unfold ModelInfluence.compute_influence. replace (mem mode ["dot"; "l2"; "cosine"]) with true by (symmetry; apply mem_In; exact MD). cbv [sbind sret lift]. cbn [fst snd].
    unfold attr. rewrite W, P. reflexivity.
  Qed.

  (** a group that has modules in the target only *)
  Lemma adjust_val f (A B : tlog) n k l norm : shape norm = [k] ->
    adjust f (val (acc2 Cpu A B n k) l) norm = Ok (Cpu, by_column f (score_matrix A B l (match l with [] => 1 | _ => n end) k) norm).
  Proof.
    intros Sn. unfold adjust. rewrite Sn. destruct l as [|m l]; cbn [val].
    - f_equal. f_equal. unfold by_column, score_matrix. rewrite shape_mgen. cbn [nth]. apply mgen_ext. intros i j Li Lj. rewrite mget_mgen by assumption. reflexivity.
    - unfold acc2, score_matrix. rewrite shape_mgen, Nat.eqb_refl. cbn [orb]. f_equal. f_equal. unfold by_column. rewrite shape_mgen. cbn [nth]. apply mgen_ext. intros i j Li Lj. rewrite at1_in by exact Lj. reflexivity.
  Qed.
  Theorem target_group A B mode h gs d (s s2 : lstate) sids tids tids' n0 nv : mode = "l2" \/ mode = "cosine" -> A <> [] -> groups_ok (Some gs) ->
    (forall m, In m (dkeys A) -> paired_grads Cpu (length sids) (length tids) A B m) -> head_on Cpu A B -> all_on Cpu B -> (exists g, In g gs /\ in_group g (dkeys A) = []) ->
    compute_self_influence (tids, Nest (log_nd B)) true h (Some gs) d s = (s2, Ok (tids', Grp (("total", n0) :: map (fun g => (g, nv g)) gs))) ->
    shape n0 = [length tids] -> (forall g, In g gs -> shape (nv g) = [length tids]) ->
    compute_influence (sids, Nest (log_nd A)) (tids, Nest (log_nd B)) mode false h (Some gs) d s =
      (s2, if length sids =? 1 then Ok (InfRes sids tids (Grp (("total", by_column (adj_fun fsqrt mode) (score_matrix A B (dkeys A) 1 (length tids)) n0) ::
                                          map (fun g => (g, by_column (adj_fun fsqrt mode) (score_matrix A B (in_group g (dkeys A)) 1 (length tids)) (nv g))) gs)))
           else Err AssertionError).
  Proof.
    intros MD NA GO PR HD AO (g0 & I0 & G0) SI S0 Sg. unfold ModelInfluence.compute_influence. replace (mem mode ["dot"; "l2"; "cosine"]) with true by (destruct MD as [-> | ->]; reflexivity).
    unfold sbind at 1. cbv [sret]. unfold sbind at 1. cbn [fst snd]. unfold lift at 1. unfold sbind at 1. unfold lift at 1. unfold sbind at 1.
    assert (NB : log_keys B <> []). { destruct A as [|[m e] A]; [congruence|]. eapply pair_keys. apply (PR m). left. reflexivity. }
    rewrite (sync_ok Cpu A B HD NB). unfold lift at 1. unfold sbind at 1. rewrite log_nd_keys. unfold lift at 1. unfold sbind at 1. rewrite (nested_scores Cpu A B _ _ (Some gs) GO PR). cbn [fst snd].
    rewrite (all_moved Cpu B AO). set (n := length sids) in *. set (k := length tids) in *.
    assert (NK : dkeys A <> []) by (destruct A; [congruence|discriminate]).
    assert (GD : forall f, adjust_all f (Grp (("total", n0) :: map (fun g => (g, nv g)) gs)) (form (acc2 Cpu A B n k) (Some gs) (dkeys A)) =
      Ok (("total", Some (Cpu, by_column f (score_matrix A B (dkeys A) n k) n0)) :: map (fun g => (g, Some (Cpu, by_column f (score_matrix A B (in_group g (dkeys A)) (match in_group g (dkeys A) with [] => 1 | _ => n end) k) (nv g)))) gs)).
    { intros f. unfold adjust_all, form. cbn [mapM fst snd]. unfold dgetM at 1. cbn [dget]. rewrite eqb_refl. cbn [bind]. rewrite (adjust_val f A B n k (dkeys A) n0 S0). cbn [bind].
      cbn in GO. inversion GO as [|? ? G1 G2]; subst.
      assert (K : forall l, (forall g, In g l -> In g gs) -> mapM (fun p : string * option dten =>
          let* nk := dgetM (fst p) (("total", n0) :: map (fun g => (g, nv g)) gs) in let* v := adjust f (snd p) nk in Ok (fst p, Some v)) (map (fun g => (g, val (acc2 Cpu A B n k) (in_group g (dkeys A)))) l) =
        Ok (map (fun g => (g, Some (Cpu, by_column f (score_matrix A B (in_group g (dkeys A)) (match in_group g (dkeys A) with [] => 1 | _ => n end) k) (nv g)))) l)).
      { induction l as [|g l IH]; intros Sub; [reflexivity|]. cbn [map mapM fst snd]. unfold dgetM at 1. cbn [dget].
        assert (Ig : In g gs) by (apply Sub; left; reflexivity).
        rewrite (eqb_neq g "total") by (intros ->; contradiction). rewrite (dget_fun nv gs g Ig). cbn [bind].
        rewrite (adjust_val f A B n k _ (nv g) (Sg g Ig)). cbn [bind]. rewrite IH by (intros q Iq; apply Sub; right; exact Iq). reflexivity. }
      rewrite K by auto. destruct (dkeys A); [congruence|]. reflexivity. }
    assert (EQ : (if String.eqb mode "cosine" then (let! nv0 := compute_self_influence (tids, Nest (log_nd B)) true h (Some gs) d in lift (adjust_all (fun v n => fdiv v (fsqrt n)) (snd nv0) (form (acc2 Cpu A B n k) (Some gs) (dkeys A))))
       else if String.eqb mode "l2" then (let! nv0 := compute_self_influence (tids, Nest (log_nd B)) true h (Some gs) d in lift (adjust_all (fun v n => fsub v (fmul half n)) (snd nv0) (form (acc2 Cpu A B n k) (Some gs) (dkeys A))))
       else sret (form (acc2 Cpu A B n k) (Some gs) (dkeys A))) s = (s2, Ok (("total", Some (Cpu, by_column (adj_fun fsqrt mode) (score_matrix A B (dkeys A) n k) n0)) :: map (fun g => (g, Some (Cpu, by_column (adj_fun fsqrt mode) (score_matrix A B (in_group g (dkeys A)) (match in_group g (dkeys A) with [] => 1 | _ => n end) k) (nv g)))) gs))).
    { destruct MD as [-> | ->]; unfold adj_fun.
      - change (String.eqb "l2" "cosine") with false. change (String.eqb "l2" "l2") with true. cbv iota. rewrite (sbind_run _ _ _ _ _ SI). unfold lift. cbn [snd]. rewrite GD. reflexivity.
      - change (String.eqb "cosine" "cosine") with true. change (String.eqb "cosine" "l2") with false. cbv iota. rewrite (sbind_run _ _ _ _ _ SI). unfold lift. cbn [snd]. rewrite GD. reflexivity. }
    cbv [sret] in EQ. rewrite (sbind_run _ _ _ _ _ EQ). clear EQ GD. unfold lift at 1. unfold sbind at 1. change (dev * tensor)%type with dten. rewrite (mapM_chk (chk2 n k)).
    2:{ intros [key [x|]]; [|reflexivity]. cbn [snd fst chk2]. destruct (shape (snd x)) as [|a [|b [|]]]; try reflexivity. destruct ((a =? n) && (b =? k)); reflexivity. }
    assert (CK : forall l q norm, chk2 n k (Some (Cpu, by_column (adj_fun fsqrt mode) (score_matrix A B l q k) norm)) = if q =? n then Ok (by_column (adj_fun fsqrt mode) (score_matrix A B l q k) norm) else Err AssertionError).
    { intros l q norm. unfold chk2. cbn [snd]. unfold by_column, score_matrix. rewrite !shape_mgen. cbn [nth]. rewrite Nat.eqb_refl, andb_true_r. reflexivity. }
    cbn [mapM fst snd]. rewrite CK, Nat.eqb_refl. cbn [bind].
    assert (M : mapM (fun p : string * option dten => let* v := chk2 n k (snd p) in Ok (fst p, v))
        (map (fun g => (g, Some (Cpu, by_column (adj_fun fsqrt mode) (score_matrix A B (in_group g (dkeys A)) (match in_group g (dkeys A) with [] => 1 | _ => n end) k) (nv g)))) gs) =
        if n =? 1 then Ok (map (fun g => (g, by_column (adj_fun fsqrt mode) (score_matrix A B (in_group g (dkeys A)) 1 k) (nv g))) gs) else Err AssertionError).
    { destruct (n =? 1) eqn:E1.
      - apply Nat.eqb_eq in E1. rewrite E1. clear. induction gs as [|g gs IH]; [reflexivity|]. cbn [map mapM fst snd].
        replace (match in_group g (dkeys A) with [] => 1 | _ :: _ => 1 end) with 1 by (destruct (in_group g (dkeys A)); reflexivity).
        unfold chk2 at 1. cbn [snd]. unfold by_column at 1, score_matrix at 1 2. rewrite !shape_mgen. cbn [nth]. rewrite !Nat.eqb_refl. cbn [andb bind]. rewrite IH. reflexivity.
      - clear - I0 G0 E1. induction gs as [|g gs IH]; [contradiction|]. cbn [map mapM fst snd].
        assert (CK : forall l q norm, chk2 n k (Some (Cpu, by_column (adj_fun fsqrt mode) (score_matrix A B l q k) norm)) = if q =? n then Ok (by_column (adj_fun fsqrt mode) (score_matrix A B l q k) norm) else Err AssertionError).
        { intros l q norm. unfold chk2. cbn [snd]. unfold by_column, score_matrix. rewrite !shape_mgen. cbn [nth]. rewrite Nat.eqb_refl, andb_true_r. reflexivity. }
        rewrite CK. destruct I0 as [->|I0].
        + rewrite G0. rewrite Nat.eqb_sym, E1. reflexivity.
        + destruct (in_group g (dkeys A)); [rewrite Nat.eqb_sym, E1; reflexivity|]. rewrite Nat.eqb_refl. cbn [bind]. rewrite (IH I0). reflexivity. }
    match goal with |- context [mapM ?f0 (map ?g0 gs)] => change (mapM f0 (map g0 gs)) with (mapM (fun p : string * option dten => let* v := chk2 n k (snd p) in Ok (fst p, v)) (map (fun g => (g, Some (Cpu, by_column (adj_fun fsqrt mode) (score_matrix A B (in_group g (dkeys A)) (match in_group g (dkeys A) with [] => 1 | _ => n end) k) (nv g)))) gs)) end. rewrite M. destruct (n =? 1) eqn:E1; [|reflexivity]. apply Nat.eqb_eq in E1. rewrite E1. cbn [bind]. unfold lift, sbind, sret, pick. reflexivity.
  Qed.
End Proofs.
