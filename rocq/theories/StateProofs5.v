(** Repeated finalisation, independence of batch splits and order, symmetry and positivity. *)
From Coq Require Import ZArith Permutation.
From Verif Require Import Py Field Tensor ModelGrad Monad ModelState SpecGrad SpecState GradProofs1 GradProofs2 StateProofs1 StateProofs2 StateProofs3 StateProofs4.
Local Open Scope nat_scope.

Section Proofs.
  Context {F : Type} `{OField F}.
  Add Field FfS5 : f_theory.
  Notation tensor := (tensor F).
  Notation sval := (@sval F).
  Notation lstate := (@lstate F).
  Notation dten := (@dten F).
  Notation binfo := (@binfo F).
  Notation call := (@call F).

  (** permutations *)
  Lemma lsum_perm (a b : list F) : Permutation a b -> lsum a = lsum b.
  Proof.
    induction 1 as [|x a b P IH|x y l|a b c P1 IH1 P2 IH2]; [reflexivity| | |congruence].
    - unfold lsum in *. cbn [fold_right]. rewrite IH. reflexivity.
    - unfold lsum. cbn [fold_right]. ring.
  Qed.
  Lemma concat_perm {A} (a b : list (list A)) : Permutation a b -> Permutation (concat a) (concat b).
  Proof.
    induction 1 as [|x a b P IH|x y l|a b c P1 IH1 P2 IH2]; cbn [concat]; [constructor| | |etransitivity; eassumption].
    - apply Permutation_app_head. exact IH.
    - rewrite !app_assoc. apply Permutation_app_tail. apply Permutation_app_comm.
  Qed.
  Lemma moment_perm st k (a b : list (list F)) n : Permutation a b -> moment st k a n = moment st k b n.
  Proof.
    intros P. destruct st; cbn [moment].
    - apply tgen_ext. intros idx _. f_equal. unfold row_sum. apply lsum_perm. apply Permutation_map. exact P.
    - unfold mgen. apply tgen_ext. intros idx _. f_equal. unfold row_prod. apply lsum_perm. apply Permutation_map. exact P.
  Qed.
  Lemma width_perm st (a b : list (list F)) : Permutation a b -> rows_fit st (width a) a -> rows_fit st (width b) b -> width a = width b.
  Proof.
    assert (HW : forall a b : list (list F), a <> [] -> Permutation a b -> rows_fit st (width b) b -> width a = width b \/ width a = 1).
    { clear. intros [|x a] b N P Fb; [congruence|].
      assert (I : In x b) by (eapply Permutation_in; [exact P|left; reflexivity]).
      destruct (proj1 (Forall_forall _ _) Fb x I) as [E|[_ E]]; cbn [width hd]; auto. }
    intros P Fa Fb. destruct a as [|x a]; [apply Permutation_nil in P; subst; reflexivity|].
    assert (Na : x :: a <> []) by discriminate. assert (Nb : b <> []) by (intros ->; apply Permutation_sym, Permutation_nil in P; discriminate).
    destruct (HW _ _ Na P Fb) as [E|E]; [exact E|]. destruct (HW _ _ Nb (Permutation_sym P) Fa) as [E'|E']; congruence.
  Qed.
  Lemma entries_rows t (cs : list call) : Forall (fun c => k_t c = t) cs ->
    all_rows cs = concat (map (fun e => sample_rows (fst e) t (snd e)) (entries cs)).
  Proof.
    induction 1 as [|c cs E _ IH]; [reflexivity|]. unfold all_rows in *. cbn [map concat]. rewrite IH. unfold entries. cbn [map concat].
    rewrite map_app, concat_app. f_equal. unfold call_rows. rewrite map_map, E. reflexivity.
  Qed.
  Lemma calls_for_t st m t (cs : list call) : Forall (fun c => k_t c = t) (calls_for st m t cs).
  Proof.
    apply Forall_forall. intros c I. apply filter_In in I. destruct I as [_ E]. apply andb_prop in E. destruct E as [_ E].
    apply andb_prop in E. destruct E as [_ E]. apply String.eqb_eq. exact E.
  Qed.
  Lemma entries_count (cs : list call) : Forall unmasked cs -> all_count cs = fnat (length (entries cs)).
  Proof.
    unfold all_count, entries. induction 1 as [|c cs U _ IH]; [reflexivity|]. cbn [map concat lsum fold_right]. fold (lsum (map call_count cs)).
    rewrite IH, app_length, fnat_add, map_length. f_equal. unfold call_count. destruct U as [-> | ->]; [reflexivity|].
    cbn. destruct (b_mask (k_b c)); reflexivity.
  Qed.

  Theorem split_independent dk dk1 cs cs1 s s1 : run_calls cs state_init = (s, Ok tt) -> run_calls cs1 state_init = (s1, Ok tt) ->
    Forall call_ok cs -> Forall call_ok cs1 ->
    forall st m t, Permutation (entries (calls_for st m t cs)) (entries (calls_for st m t cs1)) ->
      all_count (calls_for st m t cs) = all_count (calls_for st m t cs1) ->
      exists s' d' s1' d1', finalize dk s = (s', Ok d') /\ finalize dk1 s1 = (s1', Ok d1') /\ stored s' st m t = stored s1' st m t.
  Proof.
    intros E E1 O O1 st m t P C. destruct (finalize_moments dk cs s E O) as (s' & d' & Ef & _ & M).
    destruct (finalize_moments dk1 cs1 s1 E1 O1) as (s1' & d1' & Ef1 & _ & M1). exists s', d', s1', d1'. split; [exact Ef|]. split; [exact Ef1|].
    specialize (M st m t). specialize (M1 st m t). cbv zeta in M, M1. destruct M as [Mn Mc]. destruct M1 as [Mn1 Mc1].
    set (c := calls_for st m t cs) in *. set (c1 := calls_for st m t cs1) in *.
    assert (PR : Permutation (all_rows c) (all_rows c1)).
    { rewrite (entries_rows t c (calls_for_t _ _ _ _)), (entries_rows t c1 (calls_for_t _ _ _ _)). apply concat_perm. apply Permutation_map. exact P. }
    destruct (list_eq_dec (fun x y : nat => Nat.eq_dec x y) (map (fun _ => 0) c) []) as [N|N].
    - apply map_eq_nil in N. rewrite (Mn N). symmetry. apply Mn1. destruct c1 as [|x l]; [reflexivity|]. exfalso.
      destruct (Mc1 ltac:(discriminate)) as (NR & _). apply NR. rewrite N in PR. cbn in PR. apply Permutation_nil in PR. exact PR.
    - assert (N' : c <> []) by (intros Q; apply N; rewrite Q; reflexivity). destruct (Mc N') as (NR & FR & -> & _).
      assert (N1' : c1 <> []). { intros Q. rewrite Q in PR. cbn in PR. apply Permutation_sym, Permutation_nil in PR. congruence. }
      destruct (Mc1 N1') as (NR1 & FR1 & -> & _). rewrite (width_perm st _ _ PR FR FR1), C. f_equal. apply moment_perm. exact PR.
  Qed.

  (** symmetry and positivity *)
  Lemma moment_sym k rows n i j : i < k -> j < k -> mget (moment (F:=F) SCov k rows n) i j = mget (moment SCov k rows n) j i.
  Proof.
    intros Li Lj. cbn [moment]. rewrite !mget_mgen by assumption. f_equal. unfold row_prod. f_equal. apply map_ext. intros r. ring.
  Qed.
  Lemma quad_rows k (v : nat -> F) rows :
    sum k (fun i => sum k (fun j => fmul (fmul (v i) (row_prod rows i j)) (v j))) =
    lsum (map (fun r => fmul (sum k (fun i => fmul (v i) (nth i r f0))) (sum k (fun i => fmul (v i) (nth i r f0)))) rows).
  Proof.
    induction rows as [|r rows IH].
    - apply sum_zero. intros i _. apply sum_zero. intros j _. unfold row_prod, lsum. cbn [map fold_right]. ring.
    - cbn [map]. unfold lsum at 1. cbn [fold_right]. fold (lsum (map (fun r => fmul (sum k (fun i => fmul (v i) (nth i r f0))) (sum k (fun i => fmul (v i) (nth i r f0)))) rows)).
      rewrite <- IH. rewrite <- sum_mul_r, <- sum_add. apply sum_ext. intros i _. rewrite <- sum_mul_l, <- sum_add. apply sum_ext. intros j _.
      unfold row_prod, lsum. cbn [map fold_right]. ring.
  Qed.
  Lemma lsum_nonneg (l : list F) : Forall (fun x => fle f0 x) l -> fle f0 (lsum l).
  Proof. induction 1 as [|x l Hx _ IH]; [apply fle_refl|]. unfold lsum in *. cbn [fold_right]. apply fadd_nonneg; assumption. Qed.
  Lemma moment_psd k rows n (v : nat -> F) : fle f0 n -> n <> f0 ->
    fle f0 (sum k (fun i => sum k (fun j => fmul (fmul (v i) (mget (moment SCov k rows n) i j)) (v j)))).
  Proof.
    intros P Z. replace (sum k _) with (fdiv (sum k (fun i => sum k (fun j => fmul (fmul (v i) (row_prod rows i j)) (v j)))) n).
    - apply fdiv_nonneg; [|exact P|exact Z]. rewrite quad_rows. apply lsum_nonneg. apply Forall_forall. intros x I. apply in_map_iff in I.
      destruct I as (r & <- & _). apply fsq_nonneg.
    - replace (fdiv (sum k (fun i => sum k (fun j => fmul (fmul (v i) (row_prod rows i j)) (v j)))) n)
        with (fmul (sum k (fun i => sum k (fun j => fmul (fmul (v i) (row_prod rows i j)) (v j)))) (fdiv f1 n)) by (field; exact Z).
      rewrite <- sum_mul_r. apply sum_ext. intros i Li. rewrite <- sum_mul_r. apply sum_ext. intros j Lj. cbn [moment].
      rewrite mget_mgen by assumption. field. exact Z.
  Qed.
  Lemma unmasked_count_pos st m t (cs : list call) : Forall unmasked (calls_for st m t cs) -> all_rows (calls_for st m t cs) <> [] ->
    fle f0 (all_count (calls_for st m t cs)) /\ all_count (calls_for st m t cs) <> f0.
  Proof.
    intros U N. rewrite (entries_count _ U). split; [apply fnat_nonneg|]. apply fnat_neq_0. intros Q. apply N.
    rewrite (entries_rows t _ (calls_for_t _ _ _ _)). apply length_zero_iff_nil in Q. rewrite Q. reflexivity.
  Qed.

  (** Repeated finalisation *)
  Definition rebase (s : lstate) : base := fun st m t =>
    match lookup2 s (stat_name st) m t, lookup2 s (counter_name st) m t with
    | Some (VT (_, t0)), Some (VN c) => Some (t0, c) | _, _ => None end.
  Lemma norm_hist b s done : hist_inv b s done -> st_norm s = base_pairs ->
    exists s', normalize s = (s', Ok tt) /\ registries s' = registries s /\ dkeys (attrs s') = dkeys (attrs s) /\
      hist_inv (rebase s') s' [] /\
      (forall st m t, lookup2 s' (stat_name st) m t = divide (lookup2 s (stat_name st) m t) (lookup2 s (counter_name st) m t)) /\
      (forall st m t, lookup2 s' (counter_name st) m t = lookup2 s (counter_name st) m t).
  Proof.
    intros HI En. destruct (normalize_good s En (hist_pairs _ _ _ HI)) as (s' & E1 & R1 & K1 & P1 & D1 & O1).
    exists s'. split; [exact E1|]. split; [exact R1|]. split; [exact K1|].
    assert (LC : forall st m t, lookup2 s' (counter_name st) m t = lookup2 s (counter_name st) m t).
    { intros st m t. unfold lookup2. rewrite O1; [reflexivity| |]; intros Q; symmetry in Q; revert Q; apply names_neq. }
    split; [|split; [exact D1|exact LC]]. split.
    - intros st. destruct (P1 st) as (x & c & Ex & Ec & Tx & Tc & _). exists x, c. auto.
    - intros st m t. unfold key_inv. cbn [calls_for filter]. unfold rebase. rewrite LC, D1.
      destruct HI as (_ & K). specialize (K st m t). destruct K as [(_ & _ & -> & ->)|(dv & Tn & k & _ & -> & W & S & _ & _ & _ & ->)].
      + left. cbn. auto.
      + right. cbn [divide]. eexists dv, _, k. split; [left; congruence|]. split; [reflexivity|]. split; [apply tmap_wf; exact W|]. split; [exact S|].
        split; [intros T0 c0 [= <- _]; exact S|]. split; [split; [constructor|split; congruence]|]. split.
        * intros idx V. cbn [bent all_rows map concat]. rewrite rowstat_nil. ring.
        * unfold all_count. cbn [map bcnt]. f_equal. f_equal. unfold lsum. cbn [fold_right]. ring.
  Qed.
  Lemma hist_rebase b s done : hist_inv b s done -> hist_inv (rebase s) s [].
  Proof.
    intros (G & K). split; [exact G|]. intros st m t. unfold key_inv. cbn [calls_for filter]. unfold rebase.
    destruct (K st m t) as [(_ & _ & E1 & E2)|(dv & Tn & k & _ & E1 & W & S & _ & _ & _ & E2)]; rewrite E1, E2.
    - left. auto.
    - right. eexists dv, Tn, k. split; [left; congruence|]. split; [reflexivity|]. split; [exact W|]. split; [exact S|].
      split; [intros T0 c0 [= <- _]; exact S|]. split; [split; [constructor|split; congruence]|]. split.
      + intros idx V. cbn [bent all_rows map concat]. rewrite rowstat_nil. ring.
      + unfold all_count. cbn [map bcnt]. f_equal. f_equal. unfold lsum. cbn [fold_right]. ring.
  Qed.

  Definition entry_of (s : lstate) st m t idx : F := match lookup2 s (stat_name st) m t with Some (VT (_, x)) => tget x idx | _ => f0 end.
  Definition cnt_of (s : lstate) st m t : F := match lookup2 s (counter_name st) m t with Some (VN c) => c | _ => f0 end.

  Lemma saved_present (s : lstate) : dkeys (attrs s) = dkeys (attrs (@state_init F)) -> registries s = registries (@state_init F) ->
    forall a, In a (st_save s) -> dget a (attrs s) <> None.
  Proof.
    intros K R a I Q. destruct (init_registries s R) as (_ & Es & _). rewrite Es in I. apply dget_None_keys in Q. apply Q. rewrite K, init_attrs.
    cbn in I |- *. intuition (subst; auto).
  Qed.
  Definition inv5 (s : lstate) : Prop := registries s = registries (@state_init F) /\ dkeys (attrs s) = dkeys (attrs (@state_init F)) /\
    hist_inv (rebase s) s [].
  Lemma phase_step dk s cs s1 : inv5 s -> run_calls cs s = (s1, Ok tt) -> Forall call_ok cs ->
    exists s2 dk2, finalize dk s1 = (s2, Ok dk2) /\ inv5 s2 /\
      forall st m t, let ccs := calls_for st m t cs in
        cnt_of s2 st m t = fadd (cnt_of s st m t) (all_count ccs) /\
        ((lookup2 s2 (stat_name st) m t = None /\ lookup2 s (stat_name st) m t = None /\ ccs = []) \/
         exists dv x k, lookup2 s2 (stat_name st) m t = Some (VT (dv, x)) /\ twf x /\ shape x = zsh st k /\
           rows_fit st k (all_rows ccs) /\ (forall y, stored s st m t = Some y -> shape y = zsh st k) /\
           (lookup2 s (stat_name st) m t <> None \/ ccs <> []) /\
           forall idx, valid (zsh st k) idx -> tget x idx =
             fdiv (fadd (entry_of s st m t idx) (rowstat st (all_rows ccs) idx)) (fadd (cnt_of s st m t) (all_count ccs))).
  Proof.
    intros (R & KK & HI) E O. pose proof (run_inv _ cs _ [] s1 HI O E) as H1. cbn [app] in H1.
    pose proof (run_registries cs s) as R1. rewrite E in R1. cbn [fst] in R1.
    pose proof (run_keeps_keys cs s) as K1. rewrite E in K1. cbn [fst] in K1.
    assert (K1' : dkeys (attrs s1) = dkeys (attrs s)).
    { apply K1. intros st. rewrite KK, init_attrs. destruct st; cbn; intuition. }
    rewrite R in R1. rewrite KK in K1'. destruct (init_registries s1 R1) as (En & Es & _).
    destruct (norm_hist _ _ _ H1 En) as (s2 & E2 & R2 & K2 & H2 & D2 & C2).
    assert (I2 : inv5 s2). { split; [congruence|]. split; [congruence|exact H2]. }
    destruct (save_ok dk s2 (saved_present s2 ltac:(congruence) ltac:(congruence))) as (dk2 & Ed & _).
    exists s2, dk2. split; [unfold finalize; rewrite (sbind_run _ _ _ _ _ E2); exact Ed|]. split; [exact I2|].
    intros st m t ccs. destruct H1 as (_ & KI). specialize (KI st m t). unfold key_inv in KI. fold ccs in KI.
    assert (X : rebase s st m t = None -> lookup2 s (stat_name st) m t = None /\ lookup2 s (counter_name st) m t = None).
    { intros Q. destruct HI as (_ & K0). specialize (K0 st m t). destruct K0 as [(_ & _ & A & B)|(? & ? & ? & [N|N] & _)]; [auto|contradiction|contradiction]. }
    destruct KI as [(B0 & C0 & L1 & L2)|(dv & Tn & k & NE & L1 & W & S & SB & (FR & NR) & V & L2)].
    - destruct (X B0) as [X1 X2]. split.
      + unfold cnt_of. rewrite C2, L2, X2, C0. unfold all_count, lsum. cbn. ring.
      + left. rewrite D2, L1, C0. auto.
    - assert (Cn : bcnt (rebase s st m t) = cnt_of s st m t).
      { unfold cnt_of. destruct (rebase s st m t) as [[x c]|] eqn:Rb; [|destruct (X eq_refl) as [_ ->]; reflexivity].
        unfold rebase in Rb. destruct (lookup2 s (stat_name st) m t) as [[[? ?]| | |]|]; try discriminate Rb.
        destruct (lookup2 s (counter_name st) m t) as [[| | |]|]; try discriminate Rb. injection Rb as <- <-. reflexivity. }
      split; [unfold cnt_of at 1; rewrite C2, L2, Cn; reflexivity|]. right.
      exists dv, (tmap (fun e => fdiv e (fadd (bcnt (rebase s st m t)) (all_count ccs))) Tn), k.
      split; [rewrite D2, L1, L2; reflexivity|]. split; [apply tmap_wf; exact W|]. split; [exact S|]. split; [exact FR|]. split; [|split].
      + intros y Ey. unfold stored in Ey. destruct (lookup2 s (stat_name st) m t) as [[[dy ty]| | |]|] eqn:Ly; try discriminate Ey. injection Ey as <-. cbn [snd].
        destruct (rebase s st m t) as [[x c]|] eqn:Rb; [|destruct (X eq_refl); congruence].
        pose proof (SB x c eq_refl) as Q. unfold rebase in Rb. rewrite Ly in Rb. destruct (lookup2 s (counter_name st) m t) as [[| | |]|]; congruence.
      + destruct NE as [NE|NE]; [left|right; exact NE]. intros Q. apply NE. unfold rebase. rewrite Q. reflexivity.
      + intros idx Vi. rewrite tget_tmap by (try exact W; rewrite S; exact Vi). rewrite V by exact Vi. rewrite Cn. f_equal. f_equal.
        unfold entry_of. destruct (rebase s st m t) as [[x c]|] eqn:Rb; [|destruct (X eq_refl) as [-> _]; reflexivity].
        unfold rebase in Rb. destruct (lookup2 s (stat_name st) m t) as [[[? ?]| | |]|]; try discriminate Rb.
        destruct (lookup2 s (counter_name st) m t) as [[| | |]|]; try discriminate Rb. injection Rb as <- <-. reflexivity.
  Qed.
  Lemma inv5_init : inv5 (@state_init F).
  Proof. split; [reflexivity|]. split; [reflexivity|]. eapply hist_rebase. apply init_hist. Qed.

  (** phases: each a list of calls followed by one finalize *)
  Definition cur (s : lstate) st m t idx : option (F * F) :=
    match lookup2 s (stat_name st) m t, lookup2 s (counter_name st) m t with
    | Some (VT (_, x)), Some (VN c) => Some (tget x idx, c) | _, _ => None end.
  Lemma phases_ok dk ps : forall s, inv5 s -> forall s', run_phases dk ps s = (s', Ok tt) -> Forall (Forall call_ok) ps -> inv5 s' /\
    forall st m t,
      (forall idx, stored s' st m t = None -> fold_left (refinalized st idx) (map (calls_for st m t) ps) (cur s st m t idx) = None) /\
      forall x, stored s' st m t = Some x -> exists k n, shape x = zsh st k /\ twf x /\ lookup2 s' (counter_name st) m t = Some (VN n) /\
        (forall y, stored s st m t = Some y -> shape y = zsh st k) /\
        forall idx, valid (zsh st k) idx -> fold_left (refinalized st idx) (map (calls_for st m t) ps) (cur s st m t idx) = Some (tget x idx, n).
  Proof.
    revert dk. induction ps as [|cs ps IH]; intros dk s I s' E O.
    - cbn in E. injection E as <-. split; [exact I|]. intros st m t. destruct I as (_ & _ & _ & K).
      specialize (K st m t). unfold stored, cur. cbn [map fold_left].
      destruct K as [(_ & _ & L & _)|(dv & Tn & k & _ & L & W & S & _ & _ & _ & L2)]; rewrite L.
      + split; [reflexivity|discriminate].
      + split; [discriminate|]. rewrite L2. cbn [snd]. intros x [= <-]. eexists k, _. split; [exact S|]. split; [exact W|]. split; [reflexivity|].
        split; [intros y [= <-]; exact S|]. intros idx V. reflexivity.
    - inversion O as [|? ? Oc Op]; subst. cbn [run_phases] in E. unfold sbind in E. destruct (run_calls cs s) as [s1 [[]|e]] eqn:E1; [|discriminate].
      destruct (phase_step dk s cs s1 I E1 Oc) as (s2 & dk2 & E2 & I2 & V2). rewrite E2 in E.
      destruct (IH dk2 s2 I2 s' E Op) as (I' & V'). split; [exact I'|]. intros st m t. specialize (V2 st m t). cbv zeta in V2. destruct V2 as [C2 V2].
      specialize (V' st m t). destruct V' as [N' V'].
      assert (Q : forall idx, (forall k, (exists y, stored s2 st m t = Some y /\ shape y = zsh st k) -> valid (zsh st k) idx) ->
                  refinalized st idx (cur s st m t idx) (calls_for st m t cs) = cur s2 st m t idx /\
                  (forall k, (forall y, stored s2 st m t = Some y -> shape y = zsh st k) -> forall y, stored s st m t = Some y -> shape y = zsh st k)).
      { intros idx Vi. destruct V2 as [(L2 & L & Cn)|(dv & y & k' & L2 & Wy & Sy & FR & SB & NE & Gy)].
        - split; [unfold cur; rewrite L2, L, Cn; reflexivity|]. intros k _ y Ey. unfold stored in Ey. rewrite L in Ey. discriminate.
        - assert (Vy : valid (zsh st k') idx). { apply Vi. exists y. unfold stored. rewrite L2. auto. }
          split.
          + unfold cur. rewrite L2. unfold cnt_of in C2, Gy. destruct I2 as (_ & _ & _ & K2). specialize (K2 st m t).
            destruct K2 as [(_ & _ & LL & _)|(? & ? & ? & _ & LL & _ & _ & _ & _ & _ & LC)]; [congruence|]. rewrite LC in C2 |- *. rewrite C2. clear LC LL.
            rewrite (Gy idx Vy). unfold entry_of. destruct I as (_ & _ & _ & K0). specialize (K0 st m t).
            destruct K0 as [(_ & _ & LL & LC)|(? & ? & ? & _ & LL & _ & _ & _ & _ & _ & LC)]; rewrite LL, LC.
            * cbn [refinalized]. destruct (calls_for st m t cs) as [|c0 cr] eqn:Ec; [destruct NE; congruence|]. rewrite <- Ec.
              replace (fadd f0 (rowstat st (all_rows (calls_for st m t cs)) idx)) with (rowstat st (all_rows (calls_for st m t cs)) idx) by ring.
              replace (fadd f0 (all_count (calls_for st m t cs))) with (all_count (calls_for st m t cs)) by ring. reflexivity.
            * reflexivity.
          + intros k Sk z Ez. assert (kk : k' = k). { apply (zsh_inj st). rewrite <- Sy. apply Sk. unfold stored. rewrite L2. reflexivity. }
            subst k'. apply SB. exact Ez. }
      split.
      + intros idx Nn. cbn [map fold_left]. specialize (N' idx Nn).
        destruct V2 as [(L2 & L & Cn)|(dv & y & k' & L2 & _ & _ & _ & _ & _ & _)].
        * replace (refinalized st idx (cur s st m t idx) (calls_for st m t cs)) with (cur s2 st m t idx); [exact N'|]. unfold cur. rewrite L2, L, Cn. reflexivity.
        * exfalso. revert N'. unfold cur. rewrite L2. destruct I2 as (_ & _ & _ & K2). specialize (K2 st m t).
          destruct K2 as [(_ & _ & LL & _)|(? & ? & ? & _ & LL & _ & _ & _ & _ & _ & LC)]; [congruence|]. rewrite LC.
          assert (G : forall l a, fold_left (refinalized st idx) l (Some a) <> None).
          { induction l as [|c l IHl]; intros [v n]; [discriminate|]. cbn [fold_left refinalized]. apply IHl. }
          apply G.
      + intros x Ex. destruct (V' x Ex) as (k & n & S & W & LC & SY & G). exists k, n. split; [exact S|]. split; [exact W|]. split; [exact LC|].
        assert (SB : forall y, stored s st m t = Some y -> shape y = zsh st k).
        { destruct V2 as [(L2 & L & Cn)|(dv & y & k' & L2 & Wy & Sy & FR & SB & NE & Gy)].
          - intros y Ey. unfold stored in Ey. rewrite L in Ey. discriminate.
          - assert (kk : k' = k). { apply (zsh_inj st). rewrite <- Sy. apply SY. unfold stored. rewrite L2. reflexivity. } subst k'. exact SB. }
        split; [exact SB|]. intros idx Vi. cbn [map fold_left]. destruct (Q idx) as [-> _]; [|apply G; exact Vi].
        intros k' (y & Ey & Sy). rewrite (SY y Ey) in Sy. apply zsh_inj in Sy. subst k'. exact Vi.
  Qed.
  Theorem phases_init dk ps s : run_phases dk ps state_init = (s, Ok tt) -> Forall (Forall call_ok) ps ->
    forall st m t,
      (forall idx, stored s st m t = None -> fold_left (refinalized st idx) (map (calls_for st m t) ps) None = None) /\
      forall x, stored s st m t = Some x -> exists k n, shape x = zsh st k /\ twf x /\ lookup2 s (counter_name st) m t = Some (VN n) /\
        forall idx, valid (zsh st k) idx -> fold_left (refinalized st idx) (map (calls_for st m t) ps) None = Some (tget x idx, n).
  Proof.
    intros E O st m t. destruct (phases_ok dk ps _ inv5_init s E O) as (_ & V). specialize (V st m t).
    replace (cur (@state_init F) st m t) with (fun _ : list nat => @None (F * F)) in V.
    - destruct V as [V1 V2]. split; [exact V1|]. intros x Ex. destruct (V2 x Ex) as (k & n & S & W & LC & _ & G). exists k, n. auto.
    - unfold cur, lookup2. rewrite init_attrs. destruct st; reflexivity.
  Qed.
  (** nothing logged after the first phase: sum / count^k *)
  Lemma refinalized_pow st idx (cs : list call) k : cs <> [] ->
    fold_left (refinalized st idx) (cs :: repeat [] k) None =
      Some (fdiv (rowstat st (all_rows cs) idx) (fpow (all_count cs) (S k)), all_count cs) \/ all_count cs = f0.
  Proof.
    intros N. destruct (feq_dec (all_count cs) f0) as [Z|Z]; [right; exact Z|left]. cbn [fold_left refinalized]. destruct cs as [|c0 r]; [congruence|].
    set (cs := c0 :: r) in *.
    assert (G : forall k e, e <> f0 -> fold_left (refinalized st idx) (repeat [] k) (Some (fdiv (rowstat st (all_rows cs) idx) e, all_count cs)) =
       Some (fdiv (rowstat st (all_rows cs) idx) (fmul e (fpow (all_count cs) k)), all_count cs)).
    { induction k0 as [|k0 IHk]; intros e Ne.
      - cbn [repeat fold_left fpow]. f_equal. f_equal. f_equal. ring.
      - cbn [repeat fold_left refinalized]. cbn [all_rows map concat]. rewrite rowstat_nil.
        replace (all_count (@nil call)) with (@f0 F _) by reflexivity.
        replace (fadd (all_count cs) f0) with (all_count cs) by ring.
        replace (fdiv (fadd (fdiv (rowstat st (all_rows cs) idx) e) f0) (all_count cs)) with (fdiv (rowstat st (all_rows cs) idx) (fmul e (all_count cs))) by (field; split; assumption).
        rewrite IHk; [|intros Q; apply fmul_0 in Q; [contradiction|exact Ne]]. f_equal. f_equal. f_equal. cbn [fpow]. ring. }
    rewrite (G k (all_count cs) Z). f_equal.
  Qed.
End Proofs.
