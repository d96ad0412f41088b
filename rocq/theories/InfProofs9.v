(** Self-influence is non-negative; group sums; errors. *)
From Verif Require Import Py PyStr Field Tensor ModelGrad Monad ModelState ModelInfluence SpecGrad SpecState SpecInfluence GradProofs1 GradProofs2 StateProofs1 StateProofs3 StateProofs7 StateProofs10 InfAlg InfProofs1 InfProofs2 InfProofs3 InfProofs4 InfProofs5 InfProofs6 InfProofs8.
Local Open Scope string_scope.
Local Open Scope list_scope.
Local Open Scope nat_scope.

Section Proofs.
  Context {F : Type} `{OField F}.
  Add Field FfI9 : f_theory.
  Notation tensor := (tensor F).
  Notation sval := (@sval F).
  Notation lstate := (@lstate F).
  Notation dten := (@dten F).
  Notation tlog := (@tlog F).
  Variable eigh : tensor -> res (tensor * tensor).
  Variable inverse : tensor -> res tensor.
  Variable fsqrt : F -> F.
  Notation precondition := (precondition eigh inverse).
  Notation compute_influence := (compute_influence eigh inverse fsqrt).
  Notation compute_self_influence := (compute_self_influence eigh inverse).
  Notation prec_step := (prec_step eigh inverse).

  Lemma gdot_sum (A P : tlog) m k n i j e1 e2 a p : grad_of A m = Some (e1, a) -> grad_of P m = Some (e2, p) -> shape a = [n; i; j] -> shape p = [n; i; j] -> twf a -> twf p -> k < n ->
    gdot A P k k m = sum i (fun x => sum j (fun y => fmul (tget a [k; x; y]) (tget p [k; x; y]))).
  Proof.
    intros Ga Gp Sa Sp Wa Wp Lk. unfold gdot. rewrite Ga, Gp. cbn [snd]. destruct a as [sa da], p as [sp dp]. cbn [shape data] in *. subst. unfold twf in *. cbn [shape data] in *.
    rewrite dot_slices; [| rewrite Wa; apply prod_cons | rewrite Wp; apply prod_cons | exact Lk | exact Lk].
    replace (prod [i; j]) with (i * j) by (cbn; lia). rewrite sum_mul. apply sum_ext. intros x Lx. apply sum_ext. intros y Ly. unfold mget, tget. cbn [shape data ravel]. f_equal; f_equal; cbn; lia.
  Qed.
  Lemma zero_slice (a : tensor) n i j k : shape a = [n; i; j] -> twf a -> k < n -> ((forall x, In x (data (slice a k)) -> x = f0) <-> forall x y, x < i -> y < j -> tget a [k; x; y] = f0).
  Proof.
    intros Sa Wa Lk. pose proof (slice_length_t n [i; j] a k Sa Wa Lk) as LL. change (prod [i; j]) with (i * (j * 1)) in LL. rewrite Nat.mul_1_r in LL.
    assert (G : forall x y, x < i -> y < j -> tget a [k; x; y] = nth (x * j + y) (data (slice a k)) f0).
    { intros x y Lx Ly. assert (x * j + y < i * j) by (apply mul_lt_prod; assumption). rewrite (nth_slice_t n [i; j] a k (x * j + y) Sa) by (change (prod [i; j]) with (i * (j * 1)); lia). unfold tget. rewrite Sa. f_equal. cbn. lia. }
    split.
    - intros Z x y Lx Ly. rewrite G by assumption. apply Z. apply nth_In. rewrite LL. apply mul_lt_prod; assumption.
    - intros Z x Ix. apply (In_nth _ _ f0) in Ix. destruct Ix as (q & Lq & <-). rewrite LL in Lq. assert (Nj : j <> 0) by (intros ->; lia). rewrite (Nat.div_mod q j Nj). rewrite Nat.mul_comm. rewrite <- G; [|apply Nat.div_lt_upper_bound; lia|apply Nat.mod_upper_bound; exact Nj]. apply Z; [apply Nat.div_lt_upper_bound; lia|apply Nat.mod_upper_bound; exact Nj].
  Qed.
  (** from modules to sums *)
  Lemma positive_sum (A P : tlog) dv n : (forall m, In m (dkeys A) -> twin_grads dv n A P m) ->
    (forall m k, In m (dkeys A) -> k < n -> fle f0 (gdot A P k k m) /\ (gdot A P k k m = f0 -> zero_grad A m k)) ->
    positive_form A n (fun l => tgen [n] (fun x => score A P l (ix 0 x) (ix 0 x))).
  Proof.
    intros TW G l k IL Lk. split; [reflexivity|]. rewrite tget_tgen by (repeat constructor; exact Lk). unfold ix. cbn [nth].
    assert (ZG : forall m, In m l -> zero_grad A m k -> gdot A P k k m = f0).
    { intros m I (x & Gx & Z). destruct (TW m (IL m I)) as (a & p & i & j & Ga & Gp & Sa & Sp & Wa & Wp). rewrite Ga in Gx. injection Gx as <-. cbn [snd] in Z. rewrite (gdot_sum A P m k n i j dv dv a p); try assumption.
      apply sum_zero. intros x Lx. apply sum_zero. intros y Ly. rewrite (proj1 (zero_slice a n i j k Sa Wa Lk) Z x y Lx Ly). ring. }
    clear TW. induction l as [|m l IH].
    - unfold score, lsum. cbn [map fold_right]. split; [apply fle_refl|]. split; [intros _ m []|reflexivity].
    - destruct IH as (P0 & Z0); [intros x I; apply IL; right; exact I|intros x I; apply ZG; right; exact I|]. destruct (G m k (IL m (or_introl eq_refl)) Lk) as (P1 & Z1).
      replace (score A P (m :: l) k k) with (fadd (gdot A P k k m) (score A P l k k)) by reflexivity. split; [apply fadd_nonneg; assumption|]. split.
      + intros E. assert (E1 : gdot A P k k m = f0). { destruct (feq_dec (gdot A P k k m) f0) as [|Ne]; [assumption|]. exfalso. revert E. replace (fadd (gdot A P k k m) (score A P l k k)) with (fadd (score A P l k k) (gdot A P k k m)) by ring. apply fadd_pos_neq; assumption. }
        rewrite E1 in E. intros x [<-|I]; [apply Z1; exact E1|]. apply Z0; [|exact I]. rewrite <- E. ring.
      + intros Z. rewrite (ZG m (or_introl eq_refl) (Z m (or_introl eq_refl))). rewrite (proj2 Z0 (fun x I => Z x (or_intror I))). ring.
  Qed.
  Theorem kfac_positive ids dv C L groups h d (s : lstate) : eigh_contract eigh -> kfac_ready eigh s C -> solvable eigh C -> L <> [] -> plain_log dv (length ids) L -> picks_kfac h C L ->
    (forall m, In m (dkeys L) -> kfac_data C L m) -> fle f0 d -> d <> f0 -> groups_ok groups -> groups_hit groups (dkeys L) ->
    exists s' t, compute_self_influence (ids, Nest (log_nd L)) true h groups (Some d) s = (s', Ok (ids, final t groups (dkeys L))) /\ positive_form L (length ids) t.
  Proof.
    intros CT R SO NL PL PK K P0 Pn GO GH. pose proof PL as (N & Q). destruct (prec_kfac_ok eigh inverse ids s C L (Some d) h CT R SO N PK K) as (s' & EV & EC & E & _).
    assert (TW : forall m, In m (dkeys L) -> twin_grads dv (length ids) L (kpre eigh C L d) m).
    { intros m I. destruct (Q m I) as (a & i & j & G & Sa & Wa). pose proof (kfull_ok eigh C L m CT SO (K m I)) as (cf & cb & G' & Sg & Wg & _). rewrite G in G'. injection G' as E1 E2. rewrite <- E2, Sa in Sg. injection Sg as En Ea Eb.
      exists a, (snd (kresult d (kfit_c eigh C L m))), i, j. split; [exact G|]. split; [unfold grad_of; rewrite kpre_look by exact I; unfold kresult; cbn [snd]; rewrite E1; reflexivity|]. unfold kresult. cbn [snd]. rewrite <- En, <- Ea, <- Eb. repeat (split; [assumption || reflexivity|]). apply core_wf. }
    exists s', (fun l => tgen [length ids] (fun x => score L (kpre eigh C L d) l (ix 0 x) (ix 0 x))). split.
    - apply (self_ok eigh inverse dv L (kpre eigh C L d) ids ids true groups h (Some d) s s' NL GO GH E TW).
    - apply (positive_sum L (kpre eigh C L d) dv); [exact TW|]. intros m k I Lk. destruct (TW m I) as (a & p & i & j & Ga & Gp & Sa & Sp & Wa & Wp). rewrite (gdot_sum L (kpre eigh C L d) m k (length ids) i j dv dv a p) by assumption.
      pose proof (kfull_ok eigh C L m CT SO (K m I)) as KF. pose proof (kfull_eig eigh C L m KF) as (Ob & Of & Wb & Wf). cbv zeta in Ob, Of, Wb, Wf. pose proof (kresult_entry eigh C L m d) as KE.
      pose proof KF as (cf & cb & G' & Sg & Wg & _). rewrite Ga in G'. injection G' as E1 E2. set (f := kfit_c eigh C L m) in *. rewrite <- E2, Sa in Sg. injection Sg as En Ea Eb.
      unfold grad_of in Gp. rewrite kpre_look in Gp by exact I. fold f in Gp. unfold kresult in Gp. injection Gp as _ Ep.
      destruct (kron_pos (k_a f) (k_b f) (mget (k_vb f)) (mget (k_vf f)) (mget (tmap (fun e => fadd e d) (kouter f))) (gmat a k)) as (KP1 & KP2); [|exact Ob|exact Of|].
      { intros x y Lx Ly. rewrite (KE x y KF Lx Ly). apply pos_neq; auto. }
      rewrite <- Ea, <- Eb in KP1, KP2.
      assert (QE : sum i (fun x => sum j (fun y => fmul (tget a [k; x; y]) (tget p [k; x; y]))) = sum i (fun x => sum j (fun y => fmul (gmat a k x y) (kout i j (mget (k_vb f)) (mget (k_vf f)) (mget (tmap (fun e => fadd e d) (kouter f))) (gmat a k) x y)))).
      { apply sum_ext. intros x Lx. apply sum_ext. intros y Ly. unfold gmat at 1. f_equal. rewrite <- Ep. rewrite core_get by lia. rewrite <- Ea, <- Eb, <- E2. reflexivity. }
      rewrite QE. split; [exact KP1|]. intros Z. exists (dv, a). split; [exact Ga|]. cbn [snd]. apply (zero_slice a (length ids) i j k Sa Wa Lk). intros x y Lx Ly. apply (KP2 Z x y Lx Ly).
  Qed.
  (** a solution of p (C + d I) = g *)
  Lemma quad_pos n (c : tensor) d (p g : nat -> F) : psd n c -> fle f0 d -> d <> f0 ->
    (forall j, j < n -> sum n (fun q => fmul (p q) (fadd (mget c q j) (fmul d (ident q j)))) = g j) ->
    fle f0 (sum n (fun j => fmul (g j) (p j))) /\ (sum n (fun j => fmul (g j) (p j)) = f0 -> forall j, j < n -> g j = f0).
  Proof.
    intros PS P0 Pn S.
    assert (E : sum n (fun j => fmul (g j) (p j)) = fadd (sum n (fun i => sum n (fun j => fmul (fmul (p i) (mget c i j)) (p j)))) (fmul d (sum n (fun j => fmul (p j) (p j))))).
    { rewrite (sum_swap n n). rewrite <- sum_mul_l, <- sum_add. apply sum_ext. intros j Lj. rewrite <- (S j Lj). rewrite <- sum_mul_r.
      rewrite (sum_ext n _ (fun q => fadd (fmul (fmul (p q) (mget c q j)) (p j)) (if q =? j then fmul d (fmul (p q) (p j)) else f0))).
      - rewrite sum_add. f_equal. rewrite (sum_delta n j (fun q => fmul d (fmul (p q) (p j))) Lj). reflexivity.
      - intros q _. unfold ident. destruct (q =? j); ring. }
    assert (Q0 : fle f0 (sum n (fun j => fmul (p j) (p j)))) by (apply sum_nonneg; intros; apply fsq_nonneg). specialize (PS p).
    split; [rewrite E; apply fadd_nonneg; [exact PS|apply fle_mul; assumption]|].
    intros Z. rewrite E in Z. assert (Z2 : sum n (fun j => fmul (p j) (p j)) = f0).
    { destruct (feq_dec (sum n (fun j => fmul (p j) (p j))) f0) as [|Ne]; [assumption|]. exfalso. revert Z. apply fadd_pos_neq; [exact PS|apply fle_mul; assumption|]. intros M. apply Ne. replace (sum n (fun j => fmul (p j) (p j))) with (fdiv (fmul d (sum n (fun j => fmul (p j) (p j)))) d) by (field; exact Pn). rewrite M. field. exact Pn. }
    intros j Lj. rewrite <- (S j Lj). apply sum_zero. intros q Lq. pose proof (sum_nonneg_0 n _ (fun j _ => fsq_nonneg (p j)) Z2 q Lq) as Zq. cbv beta in Zq. rewrite (fsq_0 _ Zq). ring.
  Qed.
  Theorem raw_positive ids dv C L groups h d (s : lstate) : inverse_contract inverse -> raw_ready inverse s C (Some d) -> invertible inverse (Some d) C -> L <> [] -> plain_log dv (length ids) L -> picks_raw h C L ->
    (forall m, In m (dkeys L) -> raw_data C L m) -> (forall m c, look C m "grad" = Some c -> psd (nth 0 (shape (snd c)) 0) (snd c)) -> fle f0 d -> d <> f0 -> groups_ok groups -> groups_hit groups (dkeys L) ->
    exists s' t, compute_self_influence (ids, Nest (log_nd L)) true h groups (Some d) s = (s', Ok (ids, final t groups (dkeys L))) /\ positive_form L (length ids) t.
  Proof.
    intros CT R IN NL PL PK K PS P0 Pn GO GH. pose proof PL as (N & Q). destruct (raw_solves eigh inverse ids s C L (Some d) h CT R IN N PK K) as (s' & P & E & _ & _ & _ & _ & SOL).
    assert (TW : forall m, In m (dkeys L) -> twin_grads dv (length ids) L P m).
    { intros m I. destruct (Q m I) as (a & i & j & G & Sa & Wa). destruct (K m I) as (dv' & n' & rest & g & e & c & G' & _ & _ & _ & Lc & _). destruct (SOL m dv a (e, c) G Lc) as (p & Gp & n & rs & S1 & S2 & Wp & _). rewrite S1 in Sa. exists a, p, i, j. rewrite S1, S2, Sa. auto 10. }
    exists s', (fun l => tgen [length ids] (fun x => score L P l (ix 0 x) (ix 0 x))). split.
    - apply (self_ok eigh inverse dv L P ids ids true groups h (Some d) s s' NL GO GH E TW).
    - apply (positive_sum L P dv); [exact TW|]. intros m k I Lk. destruct (TW m I) as (a & p & i & j & Ga & Gp & Sa & Sp & Wa & Wp). 
      destruct (K m I) as (dv' & n' & rest & g & e & c & G' & Sg' & _ & _ & Lc & Sc). rewrite Ga in G'. injection G' as <- <-. rewrite Sa in Sg'. injection Sg' as <- <-.
      destruct (SOL m dv a (e, c) Ga Lc) as (p' & Gp' & n & rs & S1 & S2 & _ & EQ). rewrite Gp in Gp'. injection Gp' as <-. rewrite Sa in S1. injection S1 as <- <-. cbn [snd own_damping] in EQ.
      specialize (PS m (e, c) Lc). cbn [snd] in PS. rewrite Sc in PS. cbn [nth] in PS.
      destruct (quad_pos (prod [i; j]) c d (fun q => nth q (data (slice p k)) f0) (fun q => nth q (data (slice a k)) f0) PS P0 Pn (fun q Lq => EQ k q Lk Lq)) as (Q1 & Q2).
      assert (DE : gdot L P k k m = sum (prod [i; j]) (fun q => fmul (nth q (data (slice a k)) f0) (nth q (data (slice p k)) f0))).
      { unfold gdot. rewrite Ga, Gp. unfold dot. cbn [snd]. rewrite (slice_length_t (length ids) [i; j] a k Sa Wa Lk). reflexivity. }
      rewrite DE. split; [exact Q1|]. intros Z. exists (dv, a). split; [exact Ga|]. cbn [snd]. intros x Ix. apply (In_nth _ _ f0) in Ix. destruct Ix as (q & Lq & <-). rewrite (slice_length_t (length ids) [i; j] a k Sa Wa Lk) in Lq. apply (Q2 Z q Lq).
  Qed.
  Theorem plain_positive ids dv L groups h d (s : lstate) : L <> [] -> plain_log dv (length ids) L -> groups_ok groups -> groups_hit groups (dkeys L) ->
    exists t, compute_self_influence (ids, Nest (log_nd L)) false h groups d s = (s, Ok (ids, final t groups (dkeys L))) /\ positive_form L (length ids) t.
  Proof.
    intros NL PL GO GH. pose proof PL as (N & Q).
    assert (TW : forall m, In m (dkeys L) -> twin_grads dv (length ids) L L m). { intros m I. destruct (Q m I) as (a & i & j & G & Sa & Wa). exists a, a, i, j. auto 10. }
    exists (fun l => tgen [length ids] (fun x => score L L l (ix 0 x) (ix 0 x))). split.
    - apply (self_ok eigh inverse dv L L ids ids false groups h d s s NL GO GH eq_refl TW).
    - apply (positive_sum L L dv); [exact TW|]. intros m k I Lk. destruct (TW m I) as (a & p & i & j & Ga & Gp & Sa & Sp & Wa & Wp). rewrite Ga in Gp. injection Gp as <-. rewrite (gdot_sum L L m k (length ids) i j dv dv a a) by assumption.
      assert (NN : forall x, x < i -> fle f0 (sum j (fun y => fmul (tget a [k; x; y]) (tget a [k; x; y])))) by (intros; apply sum_nonneg; intros; apply fsq_nonneg).
      split; [apply sum_nonneg; exact NN|]. intros Z. exists (dv, a). split; [exact Ga|]. cbn [snd]. apply (zero_slice a (length ids) i j k Sa Wa Lk). intros x y Lx Ly.
      pose proof (sum_nonneg_0 i _ NN Z x Lx) as Z1. cbv beta in Z1. pose proof (sum_nonneg_0 j _ (fun y _ => fsq_nonneg (tget a [k; x; y])) Z1 y Ly) as Z2. cbv beta in Z2. apply fsq_0. exact Z2.
  Qed.

  (** C50 *)
  Lemma lsum_delta (gs : list string) g (x : F) : NoDup gs -> In g gs -> forall f : string -> bool, f g = true -> (forall g', In g' gs -> f g' = true -> g' = g) -> lsum (map (fun g' => if f g' then x else f0) gs) = x.
  Proof.
    induction 1 as [|h gs Nh Nd IH]; intros I f Fg U; [contradiction|]. unfold lsum in *. cbn [map fold_right]. destruct I as [->|I].
    - rewrite Fg. assert (Z : fold_right fadd f0 (map (fun g' => if f g' then x else f0) gs) = f0).
      { clear IH. assert (AL : forall g', In g' gs -> f g' = false) by (intros g' Ig; destruct (f g') eqn:E; [|reflexivity]; rewrite (U g' (or_intror Ig) E) in Ig; contradiction). clear - AL. induction gs as [|a gs IH]; [reflexivity|]. cbn [map fold_right]. rewrite (AL a (or_introl eq_refl)), IH by (intros g' Ig; apply AL; right; exact Ig). ring. }
      rewrite Z. ring.
    - replace (f h) with false; [|symmetry; destruct (f h) eqn:E; [|reflexivity]; rewrite (U h (or_introl eq_refl) E) in Nh; contradiction]. rewrite IH; [ring|exact I|exact Fg|]. intros g' Ig. apply U. right. exact Ig.
  Qed.
  Lemma group_sum (A B : tlog) gs ms i j : NoDup gs -> one_group gs ms -> score A B ms i j = lsum (map (fun g => score A B (in_group g ms) i j) gs).
  Proof.
    intros Nd. induction ms as [|m ms IH]; intros OG.
    - unfold score, lsum, in_group. cbn [map filter fold_right]. clear. induction gs as [|g gs IH]; [reflexivity|]. cbn [map fold_right]. rewrite <- IH. ring.
    - destruct (OG m (or_introl eq_refl)) as (g & Ig & Cg & U). replace (score A B (m :: ms) i j) with (fadd (gdot A B i j m) (score A B ms i j)) by reflexivity. rewrite IH by (intros x I; apply OG; right; exact I).
      rewrite <- (lsum_delta gs g (gdot A B i j m) Nd Ig (fun g => contains g m) Cg U) at 1. clear. induction gs as [|g gs IH]; [unfold lsum; cbn; ring|]. unfold lsum in *. cbn [map fold_right]. rewrite <- IH.
      unfold in_group. cbn [filter]. destruct (contains g m).
      + replace (score A B (m :: filter (contains g) ms) i j) with (fadd (gdot A B i j m) (score A B (filter (contains g) ms) i j)) by reflexivity. ring.
      + ring.
  Qed.
  Theorem groups_add_up dv A B prec h gs d (s s' : lstate) sids tids r : A <> [] -> plain_log dv (length sids) A -> plain_log dv (length tids) B -> within A B -> keeps_shapes (prec_step prec (sids, Nest (log_nd A)) d h) A s -> grad_first B -> (forall m, In m (dkeys B) -> In m (dkeys A)) ->
    groups_ok (Some gs) -> groups_hit (Some gs) (dkeys A) -> one_group gs (dkeys A) ->
    compute_influence (sids, Nest (log_nd A)) (tids, Nest (log_nd B)) "dot" prec h (Some gs) d s = (s', Ok r) ->
    exists t vals, i_val r = Grp (("total", t) :: map (fun g => (g, vals g)) gs) /\
      forall i j, i < length sids -> j < length tids -> mget t i j = lsum (map (fun g => mget (vals g) i j) gs).
  Proof.
    intros NA PA PB WI KS GF SUB GO GH OG E. destruct (prec_step prec (sids, Nest (log_nd A)) d h s) as [s1 [r1|e]] eqn:EP.
    - destruct (prec_out eigh inverse sids dv (length sids) A prec d h s s1 r1 PA KS EP) as (P & -> & K & TW & _).
      rewrite (influence_prec eigh inverse fsqrt A (Nest (log_nd B)) "dot" prec h (Some gs) d s s1 sids tids P eq_refl EP) in E.
      assert (PR : forall m, In m (dkeys P) -> paired_grads dv (length sids) (length tids) P B m) by (intros m I; rewrite K in I; eapply within_paired; eauto).
      rewrite (influence_dot eigh inverse fsqrt dv P B sids tids (Some gs) h d s1) in E; [|intros ->; apply NA; destruct A; [reflexivity|discriminate K]|exact GO|rewrite K; exact GH|exact PR|exact (head_prec dv (length sids) A P B PA TW GF SUB)].
      injection E as <- <-. cbn [i_val final]. rewrite K. eexists _, (fun g => score_matrix P B (in_group g (dkeys A)) (length sids) (length tids)). split; [reflexivity|]. intros i j Li Lj. unfold score_matrix. rewrite mget_mgen by assumption.
      rewrite (map_ext _ (fun g => score P B (in_group g (dkeys A)) i j)) by (intros g; rewrite mget_mgen by assumption; reflexivity). apply group_sum; [|exact OG]. cbn in GO. inversion GO; assumption.
    - rewrite (influence_prec_err eigh inverse fsqrt A (Nest (log_nd B)) "dot" prec h (Some gs) d s s1 sids tids e eq_refl EP) in E. discriminate E.
  Qed.
  Theorem group_unmatched dv A B h gs g d (s : lstate) sids tids : A <> [] -> groups_ok (Some gs) -> In g gs -> in_group g (dkeys A) = [] ->
    (forall m, In m (dkeys A) -> paired_grads dv (length sids) (length tids) A B m) -> head_on dv A B ->
    compute_influence (sids, Nest (log_nd A)) (tids, Nest (log_nd B)) "dot" false h (Some gs) d s = (s, Err AttributeError).
  Proof.
    intros N GO Ig GE PR HD. unfold ModelInfluence.compute_influence. change (mem "dot" ["dot"; "l2"; "cosine"]) with true. change (String.eqb "dot" "cosine") with false. change (String.eqb "dot" "l2") with false. cbv [sbind sret lift]. cbn [fst snd].
    assert (NB : log_keys B <> []). { destruct A as [|[m e] A]; [congruence|]. eapply pair_keys. apply (PR m). left. reflexivity. }
    rewrite (sync_ok dv A B HD NB). rewrite log_nd_keys. rewrite (nested_scores dv A B _ _ (Some gs) GO PR). cbn [fst snd]. set (n := length sids) in *. set (k := length tids) in *.
    change (dev * tensor)%type with dten. rewrite (mapM_chk (chk2 n k)).
    - assert (M : mapM (fun p : string * option dten => let* v := chk2 n k (snd p) in Ok (fst p, v)) (form (acc2 dv A B n k) (Some gs) (dkeys A)) = Err AttributeError); [|rewrite M; reflexivity].
      assert (CK : forall l, chk2 n k (val (acc2 dv A B n k) l) = match l with [] => Err AttributeError | _ => Ok (score_matrix A B l n k) end).
      { intros l. unfold val, chk2. destruct l; [reflexivity|]. unfold acc2. cbn [snd]. unfold score_matrix. rewrite shape_mgen, !Nat.eqb_refl. reflexivity. }
      unfold form. cbn [mapM fst snd]. rewrite CK. destruct (dkeys A) as [|x xs] eqn:DA; [destruct A; [congruence|discriminate DA]|]. rewrite <- DA in *. cbn [bind].
      assert (M : mapM (fun p : string * option dten => let* v := chk2 n k (snd p) in Ok (fst p, v)) (map (fun g => (g, val (acc2 dv A B n k) (in_group g (dkeys A)))) gs) = Err AttributeError); [|rewrite M; reflexivity].
      clear GO. induction gs as [|y gs IH]; [contradiction|]. cbn [map mapM fst snd]. rewrite CK. destruct Ig as [->|Ig].
      + rewrite GE. reflexivity.
      + destruct (in_group y (dkeys A)); cbn [bind]; [reflexivity|]. rewrite (IH Ig). reflexivity.
    - intros [key [x|]]; [|reflexivity]. cbn [snd fst chk2]. destruct (shape (snd x)) as [|a [|b [|]]]; try reflexivity. destruct ((a =? n) && (b =? k)); reflexivity.
  Qed.

  Lemma self_group_un dv (L P : tlog) ids ids' prec h gs g d (s s' : lstate) : L <> [] -> groups_ok (Some gs) -> In g gs -> in_group g (dkeys L) = [] ->
    prec_step prec (ids, Nest (log_nd L)) d h s = (s', Ok (ids', Nest (log_nd P))) -> (forall m, In m (dkeys L) -> twin_grads dv (length ids) L P m) ->
    compute_self_influence (ids, Nest (log_nd L)) prec h (Some gs) d s = (s', Err TypeError).
  Proof.
    intros N GO Ig GE Ep Tw. unfold ModelInfluence.compute_self_influence. cbn [snd fst]. unfold prec_step in Ep. cbv [sbind sret lift]. unfold sret in Ep. rewrite Ep. cbn [snd fst]. rewrite log_nd_keys.
    rewrite (init_form (acc1 dv L P (length ids)) (Some gs) GO).
    rewrite (add_modules_form (acc1 dv L P (length ids)) (acc1_add dv L P _) _ (Some gs) (dkeys L) GO); [|intros dd m Im; rewrite (twin_self dv (length ids) L P m (Tw m Im)); reflexivity].
    cbn [app]. set (n := length ids) in *. change (dev * tensor)%type with dten. rewrite (mapM_chk (chk1 n)).
    - assert (CK : forall l, chk1 n (val (acc1 dv L P n) l) = match l with [] => Err TypeError | _ => Ok (tgen [n] (fun x => score L P l (ix 0 x) (ix 0 x))) end).
      { intros l. unfold val, chk1. destruct l; [reflexivity|]. unfold acc1. cbn [snd]. unfold size0. cbn [tgen shape bind]. rewrite Nat.eqb_refl. reflexivity. }
      unfold form. cbn [mapM fst snd]. rewrite CK. destruct (dkeys L) as [|x xs] eqn:DA; [destruct L; [congruence|discriminate DA]|]. rewrite <- DA in *. cbn [bind].
      assert (M : mapM (fun p : string * option dten => let* v := chk1 n (snd p) in Ok (fst p, v)) (map (fun g => (g, val (acc1 dv L P n) (in_group g (dkeys L)))) gs) = Err TypeError); [|rewrite M; reflexivity].
      clear GO. induction gs as [|y gs IH]; [contradiction|]. cbn [map mapM fst snd]. rewrite CK. destruct Ig as [->|Ig].
      + rewrite GE. reflexivity.
      + destruct (in_group y (dkeys L)); cbn [bind]; [reflexivity|]. rewrite (IH Ig). reflexivity.
    - intros [key [x|]]; [|reflexivity]. cbn [snd fst chk1]. destruct (size0 (snd x)) as [a|e]; [|reflexivity]. cbn [bind]. destruct (a =? n); reflexivity.
  Qed.

  Theorem self_group_unmatched dv (L : tlog) ids prec h gs g d (s : lstate) : L <> [] -> plain_log dv (length ids) L -> keeps_shapes (prec_step prec (ids, Nest (log_nd L)) d h) L s -> groups_ok (Some gs) -> In g gs -> in_group g (dkeys L) = [] ->
    let log := (ids, Nest (log_nd L)) in
    compute_self_influence log prec h (Some gs) d s = match (if prec then precondition log d h else sret log) s with (s', Ok _) => (s', Err TypeError) | (s', Err e) => (s', Err e) end.
  Proof.
    intros N PL KS GO Ig GE log. unfold log. destruct ((if prec then precondition (ids, Nest (log_nd L)) d h else sret (ids, Nest (log_nd L))) s) as [s1 [r|e]] eqn:E.
    - destruct (prec_out eigh inverse ids dv (length ids) L prec d h s s1 r PL KS E) as (P & -> & K & TW & _). apply (self_group_un dv L P ids ids prec h gs g d s s1 N GO Ig GE E TW).
    - apply (self_prec_err eigh inverse). exact E.
  Qed.

  (** C41: errors *)
  Theorem influence_head_missing A B mode h groups d (s : lstate) sids tids m t r : In mode ["dot"; "l2"; "cosine"] -> log_keys B = (m, t) :: r -> look A m t = None ->
    compute_influence (sids, Nest (log_nd A)) (tids, Nest (log_nd B)) mode false h groups d s = (s, Err AttributeError).
  Proof.
    intros MD KB LA. unfold ModelInfluence.compute_influence. replace (mem mode ["dot"; "l2"; "cosine"]) with true by (symmetry; apply mem_In; exact MD). cbv [sbind sret lift]. cbn [fst snd].
    unfold synchronize_device. rewrite first_item_keys, KB. cbn [hd_error]. rewrite log_item_look, LA. reflexivity.
  Qed.
  Lemma nested_error dv A B n k groups l1 m l2 e : groups_ok groups -> dkeys A = l1 ++ m :: l2 -> (forall x, In x l1 -> paired_grads dv n k A B x) ->
    (let* a := log_item (log_nd A) m "grad" in let* b := log_item (log_nd (moved dv B)) m "grad" in let* _ := cross_dot_product a b in Ok tt) = Err e ->
    foldM (fun d m => let* a := log_item (log_nd A) m "grad" in let* b := log_item (log_nd (moved dv B)) m "grad" in
                      let* x := cross_dot_product a b in add_module groups m x d) (dkeys A) (init_scores groups) = Err e.
  Proof.
    intros GO KA PR EM. rewrite KA, foldM_app. rewrite (init_form (acc2 dv A B n k) groups GO).
    rewrite (add_modules_form (acc2 dv A B n k) (acc2_add dv A B n k) _ groups l1 GO); [cbn [bind foldM]|intros d x Ix; destruct (paired_cross dv n k A B x (PR x Ix)) as (a & b & Ea & Eb & Ec); rewrite !log_item_look; unfold grad_of in Ea, Eb; rewrite Ea, Eb; cbn [bind]; rewrite Ec; reflexivity].
    destruct (log_item (log_nd A) m "grad") as [a|ea]; cbn [bind] in *; [|injection EM as ->; reflexivity]. destruct (log_item (log_nd (moved dv B)) m "grad") as [b|eb]; cbn [bind] in *; [|injection EM as ->; reflexivity].
    destruct (cross_dot_product a b) as [x|ex]; cbn [bind] in *; [discriminate EM|injection EM as ->; reflexivity].
  Qed.
  (** the first module of the source that does not match decides *)
  Theorem influence_mismatch dv A B mode h groups d (s : lstate) sids tids l1 m l2 a : In mode ["dot"; "l2"; "cosine"] -> groups_ok groups -> head_on dv A B -> log_keys B <> [] ->
    dkeys A = l1 ++ m :: l2 -> (forall x, In x l1 -> paired_grads dv (length sids) (length tids) A B x) -> grad_of A m = Some (dv, a) ->
    (grad_of B m = None -> compute_influence (sids, Nest (log_nd A)) (tids, Nest (log_nd B)) mode false h groups d s = (s, Err AttributeError)) /\
    (forall b, grad_of B m = Some b -> tl (shape (snd b)) <> tl (shape a) -> compute_influence (sids, Nest (log_nd A)) (tids, Nest (log_nd B)) mode false h groups d s = (s, Err AssertionError)).
  Proof.
    intros MD GO HD NB KA PR GA.
    assert (ST : forall e, (let* a := log_item (log_nd A) m "grad" in let* b := log_item (log_nd (moved dv B)) m "grad" in let* _ := cross_dot_product a b in Ok tt) = Err e ->
      compute_influence (sids, Nest (log_nd A)) (tids, Nest (log_nd B)) mode false h groups d s = (s, Err e)).
    { intros e EM. unfold ModelInfluence.compute_influence. replace (mem mode ["dot"; "l2"; "cosine"]) with true by (symmetry; apply mem_In; exact MD). cbv [sbind sret lift]. cbn [fst snd].
      rewrite (sync_ok dv A B HD NB). rewrite log_nd_keys. rewrite (nested_error dv A B (length sids) (length tids) groups l1 m l2 e GO KA PR EM). reflexivity. }
    pose proof (look_moved dv B m "grad") as LM. unfold grad_of in *. split.
    - intros GB. apply ST. rewrite !log_item_look, GA, LM, GB. reflexivity.
    - intros b GB Ns. apply ST. rewrite !log_item_look, GA, LM, GB. cbn [option_map bind]. unfold cross_dot_product. cbn [snd]. replace (same_shape (tl (shape a)) (tl (shape (snd b)))) with false; [reflexivity|].
      symmetry. apply not_true_is_false. intros SS. apply Ns. symmetry. apply same_shape_true. exact SS.
  Qed.
  (** ids that do not match the number of samples *)
  Theorem influence_ids dv A B n k h groups d (s : lstate) sids tids : A <> [] -> groups_ok groups -> (forall m, In m (dkeys A) -> paired_grads dv n k A B m) -> head_on dv A B -> n <> length sids \/ k <> length tids ->
    compute_influence (sids, Nest (log_nd A)) (tids, Nest (log_nd B)) "dot" false h groups d s = (s, Err AssertionError).
  Proof.
    intros N GO PR HD NE. unfold ModelInfluence.compute_influence. change (mem "dot" ["dot"; "l2"; "cosine"]) with true. change (String.eqb "dot" "cosine") with false. change (String.eqb "dot" "l2") with false. cbv [sbind sret lift]. cbn [fst snd].
    assert (NB : log_keys B <> []). { destruct A as [|[m e] A]; [congruence|]. eapply pair_keys. apply (PR m). left. reflexivity. }
    rewrite (sync_ok dv A B HD NB). rewrite log_nd_keys. rewrite (nested_scores dv A B _ _ groups GO PR). cbn [fst snd].
    unfold form. cbn [mapM fst snd]. destruct (dkeys A) as [|x xs] eqn:DA; [destruct A; [congruence|discriminate DA]|]. cbn [val]. unfold acc2 at 1. cbn [snd]. unfold score_matrix. rewrite shape_mgen.
    replace ((n =? length sids) && (k =? length tids)) with false; [reflexivity|]. symmetry. apply andb_false_iff. rewrite !Nat.eqb_neq. exact NE.
  Qed.
End Proofs.
