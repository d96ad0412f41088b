(** Scores and self-influence as sums of inner products; the shape of preconditioned logs. *)
From Coq Require Import Permutation.
From Verif Require Import Py PyStr Field Tensor ModelGrad Monad ModelState ModelInfluence SpecGrad SpecState SpecInfluence GradProofs1 StateProofs1 StateProofs3 InfProofs1.
Local Open Scope nat_scope.

Section Proofs.
  Context {F : Type} `{OField F}.
  Add Field FfI2 : f_theory.
  Notation tensor := (tensor F).
  Notation sval := (@sval F).
  Notation lstate := (@lstate F).
  Notation dten := (@dten F).
  Notation tlog := (@tlog F).
  Variable eigh : tensor -> res (tensor * tensor).
  Variable inverse : tensor -> res tensor.
  Variable fsqrt : F -> F.
  Notation compute_influence := (compute_influence eigh inverse fsqrt).
  Notation compute_self_influence := (compute_self_influence eigh inverse).
  Notation precondition := (precondition eigh inverse).

  Lemma dev_eqb_refl dv : dev_eqb dv dv = true.
  Proof. destruct dv; reflexivity. Qed.
  Lemma dev_eqb_true a b : dev_eqb a b = true -> a = b.
  Proof. destruct a, b; auto; discriminate. Qed.

  Definition acc2 dv (A B : tlog) n k (l : list string) : dten := (dv, score_matrix A B l n k).
  Lemma acc2_add dv A B n k l m : l <> [] -> iadd_ (acc2 dv A B n k l) (acc2 dv A B n k [m]) = Ok (acc2 dv A B n k (l ++ [m])).
  Proof.
    intros _. rewrite iadd_same by reflexivity. unfold add_, acc2. cbn [fst snd]. rewrite dev_eqb_refl. unfold score_matrix. rewrite mgen_add. cbn [bind]. f_equal. f_equal. apply mgen_ext. intros i j _ _.
    unfold score. rewrite map_app, lsum_app. reflexivity.
  Qed.
  (** self-influence of the samples of [A] against those of [P] *)
  Definition acc1 dv (A P : tlog) n (l : list string) : dten := (dv, tgen [n] (fun x => score A P l (ix 0 x) (ix 0 x))).
  Lemma acc1_add dv A P n l m : l <> [] -> iadd_ (acc1 dv A P n l) (acc1 dv A P n [m]) = Ok (acc1 dv A P n (l ++ [m])).
  Proof.
    intros _. rewrite iadd_same by reflexivity. unfold add_, acc1. cbn [fst snd]. rewrite dev_eqb_refl. rewrite vgen_add. cbn [bind]. f_equal. f_equal. apply tgen_ext. intros i _.
    unfold score. rewrite map_app, lsum_app. reflexivity.
  Qed.

  Lemma grad_moved dv (L : tlog) m : grad_of (moved dv L) m = option_map (fun d => (dv, snd d)) (grad_of L m).
  Proof. apply look_moved. Qed.
  Lemma gdot_moved dv (A B : tlog) i j m : gdot A (moved dv B) i j m = gdot A B i j m.
  Proof. unfold gdot. rewrite grad_moved. destruct (grad_of A m), (grad_of B m); reflexivity. Qed.
  Lemma paired_cross dv n k (A B : tlog) m : paired_grads dv n k A B m ->
    exists a b, grad_of A m = Some a /\ grad_of (moved dv B) m = Some b /\ cross_dot_product a b = Ok (acc2 dv A B n k [m]).
  Proof.
    intros (a & b & e & rest & Ea & Eb & Sa & Sb & Wa & Wb). exists (dv, a), (dv, b). rewrite grad_moved, Eb. split; [exact Ea|]. split; [reflexivity|].
    rewrite (cross_ok dv n k rest a b Sa Sb Wa Wb). unfold acc2. f_equal. f_equal. unfold score_matrix. apply mgen_ext. intros i j _ _. unfold score, lsum. cbn [map fold_right]. unfold gdot. rewrite Ea, Eb. cbn [snd].
    ring.
  Qed.
  Lemma mapM_chk {A B} (chk : A -> res B) (l : list (string * A)) (f : string * A -> res (string * B)) :
    (forall p, f p = let* v := chk (snd p) in Ok (fst p, v)) -> mapM f l = mapM (fun p => let* v := chk (snd p) in Ok (fst p, v)) l.
  Proof. intros E. apply mapM_ext. intros p _. apply E. Qed.

  Definition chk2 n k (o : option dten) : res tensor :=
    match o with
    | None => Err AttributeError
    | Some x => match shape (snd x) with [a; b] => if (a =? n) && (b =? k) then Ok (snd x) else Err AssertionError | _ => Err IndexError end
    end.
  (** the scores of a nested log *)
  Lemma nested_scores dv (A B : tlog) n k groups : groups_ok groups -> (forall m, In m (dkeys A) -> paired_grads dv n k A B m) ->
    foldM (fun d m => let* a := log_item (log_nd A) m "grad" in let* b := log_item (log_nd (moved dv B)) m "grad" in
                      let* x := cross_dot_product a b in add_module groups m x d) (dkeys A) (init_scores groups) = Ok (form (acc2 dv A B n k) groups (dkeys A)).
  Proof.
    intros G P. rewrite (init_form (acc2 dv A B n k) groups G).
    rewrite (add_modules_form (acc2 dv A B n k) (acc2_add dv A B n k) _ groups (dkeys A) G); [reflexivity|]. intros d m Im.
    destruct (paired_cross dv n k A B m (P m Im)) as (a & b & Ea & Eb & Ec). rewrite !log_item_look. unfold grad_of in Ea, Eb. rewrite Ea, Eb. cbn [bind]. rewrite Ec. reflexivity.
  Qed.
  Lemma pair_keys dv (A B : tlog) n k m : paired_grads dv n k A B m -> log_keys B <> [].
  Proof.
    intros (a & b & e & rest & Ea & Eb & _) N. unfold grad_of, look in Eb. destruct (dget m B) as [x|] eqn:D; [|discriminate]. apply dget_In in D. apply dget_In in Eb.
    assert (I : In (m, "grad"%string) (log_keys B)). { unfold log_keys. apply in_concat. eexists. split; [apply in_map; exact D|]. cbn [fst snd]. apply in_map_iff. eexists. split; [|exact Eb]. reflexivity. }
    rewrite N in I. contradiction.
  Qed.
  Lemma final_pick dv (A B : tlog) n k groups : A <> [] -> groups_hit groups (dkeys A) ->
    (let* vals := mapM (fun p : string * option dten => let* v := chk2 n k (snd p) in Ok (fst p, v)) (form (acc2 dv A B n k) groups (dkeys A)) in pick groups vals) =
    Ok (final (fun l => score_matrix A B l n k) groups (dkeys A)).
  Proof.
    intros N Hit. rewrite (finish (acc2 dv A B n k) (chk2 n k) groups (dkeys A)); [reflexivity| |exact Hit|].
    - intros E. apply N. destruct A; [reflexivity|discriminate].
    - intros l _. unfold chk2, acc2. cbn [snd]. unfold score_matrix. cbn [mgen shape tgen]. rewrite !Nat.eqb_refl. reflexivity.
  Qed.
  Theorem influence_dot dv (A B : tlog) sids tids groups h d (s : lstate) : A <> [] -> groups_ok groups -> groups_hit groups (dkeys A) ->
    (forall m, In m (dkeys A) -> paired_grads dv (length sids) (length tids) A B m) -> head_on dv A B ->
    compute_influence (sids, Nest (log_nd A)) (tids, Nest (log_nd B)) "dot" false h groups d s =
    (s, Ok (InfRes sids tids (final (fun l => score_matrix A B l (length sids) (length tids)) groups (dkeys A)))).
  Proof.
    intros N G Hit P Hd. unfold ModelInfluence.compute_influence. cbn [mem].
    change (String.eqb "dot" "cosine") with false. change (String.eqb "dot" "l2") with false. change (eqb "dot"%string "dot"%string) with true. cbv [sbind sret lift]. cbn [fst snd].
    assert (NB : log_keys B <> []). { destruct A as [|[m e] A]; [congruence|]. eapply pair_keys. apply (P m). left. reflexivity. }
    rewrite (sync_ok dv A B Hd NB). rewrite log_nd_keys. rewrite (nested_scores dv A B _ _ groups G P). cbn [fst snd].
    pose proof (final_pick dv A B (length sids) (length tids) groups N Hit) as E.
    rewrite (mapM_chk (chk2 (length sids) (length tids))).
    - destruct (mapM _ (form _ _ _)) as [vals|e]; cbn [bind] in E; [|discriminate E]. rewrite E. reflexivity.
    - intros [key [x|]]; [|reflexivity]. cbn [snd fst chk2]. destruct (shape (snd x)) as [|a [|b [|]]]; try reflexivity. destruct ((a =? length sids) && (b =? length tids)); reflexivity.
  Qed.

  (** two copies of a log of 3-dimensional gradients *)
  Definition twin_grads (dv : dev) (n : nat) (A P : tlog) (m : string) : Prop :=
    exists a p i j, grad_of A m = Some (dv, a) /\ grad_of P m = Some (dv, p) /\ shape a = [n; i; j] /\ shape p = [n; i; j] /\ twf a /\ twf p.
  Lemma twin_self dv n (A P : tlog) m : twin_grads dv n A P m -> self_module (log_nd A) (log_nd P) m = Ok (acc1 dv A P n [m]).
  Proof.
    intros (a & p & i & j & Ea & Ep & Sa & Sp & Wa & Wp). unfold self_module. rewrite !factor_look. unfold grad_of in *. rewrite Ea, Ep. cbn [bind fst snd].
    rewrite dev_eqb_refl, Sa, Sp, bcast_refl. cbn [bind]. unfold acc1. f_equal. f_equal. apply tgen_ext. intros idx V. inversion V as [|x ? ? ? Lx V']; subst. inversion V'; subst. unfold ix. cbn [nth].
    unfold pick_at. rewrite Sa, Sp. cbn [length Nat.sub skipn].
    transitivity (sum i (fun p0 => sum j (fun q => fmul (tget a [x; p0; q]) (tget p [x; p0; q])))).
    { apply sum_ext. intros p0 Lp. apply sum_ext. intros q Lq. rewrite clip_valid by (repeat constructor; assumption). reflexivity. }
    unfold score, lsum. cbn [map fold_right]. unfold gdot, grad_of. rewrite Ea, Ep. cbn [snd]. destruct a as [sa da], p as [sp dp]. cbn [shape data] in *. subst.
    unfold twf in *. cbn [shape data] in *. rewrite dot_slices; [| rewrite Wa; apply prod_cons | rewrite Wp; apply prod_cons | exact Lx | exact Lx].
    replace (prod [i; j]) with (i * j) by (cbn; lia). rewrite sum_mul.
    match goal with |- ?x = fadd ?y f0 => transitivity y; [|ring] end. apply sum_ext. intros p Lp. apply sum_ext. intros q Lq.
    unfold mget, tget. cbn [shape data ravel]. f_equal; f_equal; cbn; lia.
  Qed.
  Definition chk1 n (o : option dten) : res tensor :=
    match o with None => Err TypeError | Some x => let* a := size0 (snd x) in if a =? n then Ok (snd x) else Err AssertionError end.
  Definition prec_step (prec : bool) (log : @glog F) d h : SM lstate (@glog F) := if prec then precondition log d h else sret log.
  Theorem self_ok dv (A P : tlog) ids ids' prec groups h d (s s' : lstate) : A <> [] -> groups_ok groups -> groups_hit groups (dkeys A) ->
    prec_step prec (ids, Nest (log_nd A)) d h s = (s', Ok (ids', Nest (log_nd P))) ->
    (forall m, In m (dkeys A) -> twin_grads dv (length ids) A P m) ->
    compute_self_influence (ids, Nest (log_nd A)) prec h groups d s =
    (s', Ok (ids, final (fun l => tgen [length ids] (fun x => score A P l (ix 0 x) (ix 0 x))) groups (dkeys A))).
  Proof.
    intros N G Hit Ep Tw. unfold ModelInfluence.compute_self_influence. cbn [snd fst]. unfold prec_step in Ep. cbv [sbind sret lift]. unfold sret in Ep. rewrite Ep. cbn [snd fst]. rewrite log_nd_keys.
    rewrite (init_form (acc1 dv A P (length ids)) groups G).
    rewrite (add_modules_form (acc1 dv A P (length ids)) (acc1_add dv A P _) _ groups (dkeys A) G); [|intros dd m Im; rewrite (twin_self dv (length ids) A P m (Tw m Im)); reflexivity].
    cbn [app].
    assert (E : (let* vals := mapM (fun p : string * option dten => let* v := chk1 (length ids) (snd p) in Ok (fst p, v)) (form (acc1 dv A P (length ids)) groups (dkeys A)) in pick groups vals) =
      Ok (final (fun l => tgen [length ids] (fun x => score A P l (ix 0 x) (ix 0 x))) groups (dkeys A))).
    { rewrite (finish (acc1 dv A P (length ids)) (chk1 (length ids)) groups (dkeys A)); [reflexivity| |exact Hit|].
      - intros E. apply N. destruct A; [reflexivity|discriminate].
      - intros l _. unfold chk1, acc1. cbn [snd]. unfold size0. cbn [tgen shape bind]. rewrite Nat.eqb_refl. reflexivity. }
    rewrite (mapM_chk (chk1 (length ids))).
    - destruct (mapM _ (form _ _ _)) as [vals|e]; cbn [bind] in E; [|discriminate E]. rewrite E. reflexivity.
    - intros [key [x|]]; [|reflexivity]. cbn [snd fst chk1]. destruct (size0 (snd x)) as [a|e]; [|reflexivity]. cbn [bind]. destruct (a =? length ids); reflexivity.
  Qed.

  (** adjusting by the norms of the targets *)
  Lemma adjust_form (f : F -> F -> F) (acc : list string -> dten) (sc : list string -> nat -> nat -> F) (nm : list string -> nat -> F) groups msA msB n k :
    groups_ok groups -> groups_hit groups msA -> msA <> [] ->
    (forall l, acc l = (Cpu, mgen n k (sc l))) ->
    adjust_all f (final (fun l => tgen [k] (fun x => nm l (ix 0 x))) groups msB) (form acc groups msA) =
    Ok (("total"%string, Some (Cpu, mgen n k (fun i j => f (sc msA i j) (nm msB j)))) ::
        map (fun g => (g, Some (Cpu, mgen n k (fun i j => f (sc (in_group g msA) i j) (nm (in_group g msB) j))))) (match groups with Some l => l | None => [] end)).
  Proof.
    intros G Hit N A. unfold adjust_all, form. cbn [mapM fst snd].
    assert (AD : forall lA lB, lA <> [] -> adjust f (val acc lA) (tgen [k] (fun x => nm lB (ix 0 x))) = Ok (Cpu, mgen n k (fun i j => f (sc lA i j) (nm lB j)))).
    { intros lA lB NA. unfold adjust. cbn [tgen shape]. replace (val acc lA) with (Some (acc lA)) by (destruct lA; [congruence|reflexivity]). rewrite A.
      cbn [mgen tgen shape]. rewrite Nat.eqb_refl. cbn [orb]. f_equal. f_equal. apply mgen_ext. intros i j Li Lj.
      change (T [n; k] (data (mgen n k (sc lA)))) with (mgen n k (sc lA)).
      change (tgen [n; k] (fun idx => sc lA (nth 0 idx 0) (nth 1 idx 0))) with (mgen n k (sc lA)). rewrite mget_mgen by assumption.
      change {| shape := [k]; data := data (tgen [k] (fun x => nm lB (ix 0 x))) |} with (tgen [k] (fun x => nm lB (ix 0 x))).
      rewrite at1_in, tget_tgen by first [exact Lj | repeat constructor; exact Lj]. reflexivity. }
    assert (Etot : (let* nk := match final (fun l => tgen [k] (fun x => nm l (ix 0 x))) groups msB with Mat t => Ok t | Grp d => dgetM "total"%string d end in
                    let* v := adjust f (val acc msA) nk in Ok ("total"%string, Some v)) = Ok ("total"%string, Some (Cpu, mgen n k (fun i j => f (sc msA i j) (nm msB j))))).
    { destruct groups as [gs|]; cbn [final]; [unfold dgetM; cbn [dget]; rewrite eqb_refl|]; cbn [bind]; rewrite AD by exact N; reflexivity. }
    rewrite Etot. cbn [bind]. destruct groups as [gs|]; [|reflexivity]. cbn [final groups_ok groups_hit] in *. inversion G as [|? ? G1 G2]; subst.
    assert (K : forall l, (forall g, In g l -> In g gs) -> mapM (fun p : string * option dten =>
        let* nk := dgetM (fst p) (("total"%string, tgen [k] (fun x => nm msB (ix 0 x))) :: map (fun g => (g, tgen [k] (fun x => nm (in_group g msB) (ix 0 x)))) gs) in
        let* v := adjust f (snd p) nk in Ok (fst p, Some v)) (map (fun g => (g, val acc (in_group g msA))) l) =
      Ok (map (fun g => (g, Some (Cpu, mgen n k (fun i j => f (sc (in_group g msA) i j) (nm (in_group g msB) j))))) l)).
    { induction l as [|g l IH]; intros Sub; [reflexivity|]. cbn [map mapM fst snd]. unfold dgetM at 1. cbn [dget].
      assert (Ig : In g gs) by (apply Sub; left; reflexivity).
      rewrite (eqb_neq g "total"%string) by (intros ->; contradiction). rewrite (dget_fun (fun g => tgen [k] (fun x => nm (in_group g msB) (ix 0 x))) gs g Ig). cbn [bind].
      rewrite AD by (apply Hit; exact Ig). cbn [bind]. rewrite IH by (intros h I; apply Sub; right; exact I). reflexivity. }
    rewrite K by auto. reflexivity.
  Qed.
End Proofs.
