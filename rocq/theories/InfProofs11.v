(** Preconditioning treats every sample on its own. *)
From Verif Require Import Py PyStr Field Tensor ModelGrad Monad ModelState ModelInfluence SpecGrad SpecState SpecInfluence GradProofs1 GradProofs2 StateProofs1 StateProofs3 StateProofs7 StateProofs10 InfAlg InfProofs1 InfProofs2 InfProofs3 InfProofs4 InfProofs5 InfProofs6 InfProofs8 InfProofs9 InfProofs10.
Local Open Scope string_scope.
Local Open Scope list_scope.
Local Open Scope nat_scope.

Section Proofs.
  Context {F : Type} `{OField F}.
  Add Field FfI11 : f_theory.
  Notation tensor := (tensor F).
  Notation sval := (@sval F).
  Notation lstate := (@lstate F).
  Notation dten := (@dten F).
  Notation tlog := (@tlog F).
  Variable eigh : tensor -> res (tensor * tensor).
  Variable inverse : tensor -> res tensor.
  Variable fsqrt : F -> F.
  Notation precondition := (precondition eigh inverse).
  Notation compute_influence := (compute_influence eigh inverse fsqrt).
  Notation influence_all := (influence_all eigh inverse fsqrt).
  Notation prec_step := (prec_step eigh inverse).
  Notation rowwise := (rowwise eigh inverse).
  Notation kfit_c := (kfit_c eigh).

  Lemma tget_rows off k (t : tensor) n a b j x y : shape t = [n; a; b] -> j < k -> x < a -> y < b -> tget (rows off k t) [j; x; y] = tget t [off + j; x; y].
  Proof.
    intros St Lj Lx Ly. unfold tget. rewrite (rows_shape off k t n [a; b] St), St. unfold rows. rewrite St. cbn [tl data]. change (prod [a; b]) with (a * (b * 1)). rewrite Nat.mul_1_r.
    assert (x * b + y < a * b) by (apply mul_lt_prod; assumption). assert (j * (a * b) + (x * b + y) < k * (a * b)) by (apply mul_lt_prod; assumption).
    replace (ravel [k; a; b] [j; x; y]) with (j * (a * b) + (x * b + y)) by (cbn; lia). replace (ravel [n; a; b] [off + j; x; y]) with (off * (a * b) + (j * (a * b) + (x * b + y))) by (cbn; lia).
    apply nth_firstn_skipn. assumption.
  Qed.
  Lemma kout_ext a b (u v E g g' : nat -> nat -> F) i j : (forall x y, x < a -> y < b -> g x y = g' x y) -> kout a b u v E g i j = kout a b u v E g' i j.
  Proof.
    intros EQ. unfold kout, mm at 1 3. apply sum_ext. intros p Lp. f_equal. unfold mm. apply sum_ext. intros q Lq. f_equal. unfold kdiv. f_equal. unfold krot, mm. apply sum_ext. intros r Lr. f_equal. apply sum_ext. intros w Lw. f_equal. apply EQ; assumption.
  Qed.
  Lemma kfit_part (C B : tlog) m off k : kfac_data C B m -> solvable eigh C ->
    kfit_c C (part off k B) m = let f := kfit_c C B m in KFit (k_dv f) k (k_a f) (k_b f) (rows off k (k_g f)) (k_e f) (k_wf f) (k_vf f) (k_wb f) (k_vb f).
  Proof.
    intros (dv & n & a & b & g & e & cf & cb & G & Sg & Wg & Lf & Lb & _) SO. destruct (SO _ _ _ Lf) as ((wf & vf) & Ef). destruct (SO _ _ _ Lb) as ((wb & vb) & Eb). cbn [snd] in Ef, Eb.
    unfold InfProofs5.kfit_c. rewrite part_grad, G, Lf, Lb, Ef, Eb. cbn [option_map fst snd k_dv k_a k_b k_g k_e k_wf k_vf k_wb k_vb]. rewrite ?Ef, ?Eb. unfold rows. rewrite Sg. reflexivity.
  Qed.
  Lemma kfac_data_part (C B : tlog) m off k n dv : plain_log dv n B -> off + k <= n -> In m (dkeys B) -> kfac_data C B m -> kfac_data C (part off k B) m.
  Proof.
    intros (N & PL) Lk I (dv' & n' & a & b & g & e & cf & cb & G & Sg & Wg & R). destruct (PL m I) as (g' & i' & j' & G' & Sg' & _). rewrite G in G'. injection G' as <- <-. rewrite Sg in Sg'. injection Sg' as -> <- <-.
    exists dv', k, a, b, (rows off k g), e, cf, cb. split; [rewrite part_grad, G; reflexivity|]. split; [apply (rows_shape off k g n); exact Sg|]. split; [apply (rows_wf off k g n [a; b]); assumption|exact R].
  Qed.
  Lemma picks_part h (C B : tlog) off k : picks_kfac h C B -> picks_kfac h C (part off k B).
  Proof.
    intros [->|(-> & N & A)]; [left; reflexivity|right]. split; [reflexivity|]. split; [intros E; apply N; destruct B; [reflexivity|discriminate E]|]. unfold auto_raw in *. rewrite part_keys. exact A.
  Qed.
  Lemma kused_part C B off k d : (forall m, In m (dkeys B) -> kfac_data C B m) -> solvable eigh C -> kused eigh C (part off k B) d = kused eigh C B d.
  Proof.
    intros K SO. unfold kused. destruct d; [reflexivity|]. rewrite part_keys. destruct (dkeys B) as [|m r] eqn:E; [reflexivity|]. rewrite kfit_part; [reflexivity|apply K; left; reflexivity|exact SO].
  Qed.
  Lemma kfac_gdot dv n C B m l j : eigh_contract eigh -> solvable eigh C -> plain_log dv n B -> In m (dkeys B) -> kfac_data C B m -> j < n ->
    let f := kfit_c C B m in
    gdot B (kpre eigh C B l) j j m = sum (k_a f) (fun x => sum (k_b f) (fun y => fmul (gmat (k_g f) j x y) (kout (k_a f) (k_b f) (mget (k_vb f)) (mget (k_vf f)) (mget (tmap (fun e => fadd e l) (kouter f))) (gmat (k_g f) j) x y))).
  Proof.
    intros CT SO (N & PL) I K Lj f. pose proof (kfull_ok eigh C B m CT SO K) as (cf & cb & G & Sg & Wg & _). fold f in G, Sg, Wg. destruct (PL m I) as (a & i & b & G' & Sa & _). rewrite G in G'. injection G' as E1 E2. rewrite <- E2, Sg in Sa. injection Sa as En Ea Eb.
    rewrite (gdot_sum B (kpre eigh C B l) m j (k_n f) (k_a f) (k_b f) (k_dv f) (k_dv f) (k_g f) (snd (kresult l f))).
    - apply sum_ext. intros x Lx. apply sum_ext. intros y Ly. unfold gmat at 1. f_equal. unfold kresult. cbn [snd]. rewrite core_get by (assumption || lia). reflexivity.
    - exact G.
    - unfold grad_of. rewrite kpre_look by exact I. reflexivity.
    - exact Sg.
    - reflexivity.
    - exact Wg.
    - apply core_wf.
    - lia.
  Qed.
  Lemma kpre_sizes C B l : eigh_contract eigh -> solvable eigh C -> (forall m, In m (dkeys B) -> kfac_data C B m) -> same_sizes B (kpre eigh C B l).
  Proof.
    intros CT SO K m a p G GP. assert (I : In m (dkeys B)) by (eapply look_in; exact G). pose proof (kfull_ok eigh C B m CT SO (K m I)) as (cf & cb & G' & Sg & _). rewrite G in G'. injection G' as ->. cbn [snd]. rewrite Sg.
    unfold grad_of in GP. rewrite kpre_look in GP by exact I. injection GP as <-. reflexivity.
  Qed.
  Lemma kfac_rowwise ids C B d h (s : lstate) n : eigh_contract eigh -> kfac_ready eigh s C -> solvable eigh C -> plain_log Cpu n B -> picks_kfac h C B -> (forall m, In m (dkeys B) -> kfac_data C B m) ->
    exists s', precondition (ids, Nest (log_nd B)) d h s = (s', Ok (ids, Nest (log_nd (kpre eigh C B (kused eigh C B d))))) /\ kfac_ready eigh s' C /\ same_sizes B (kpre eigh C B (kused eigh C B d)) /\ rowwise h d B (kpre eigh C B (kused eigh C B d)) n s s'.
  Proof.
    intros CT R SO PL PK K. pose proof PL as (N & _). destruct (ready_get_total eigh s C R SO) as (s' & vw & E). destruct (ready_get eigh s C s' vw R E) as (EV & EC & -> & SC & FR).
    assert (Q : forall ids L s0, s0 = s \/ s0 = s' -> NoDup (dkeys L) -> picks_kfac h C L -> (forall m, In m (dkeys L) -> kfac_data C L m) -> precondition (ids, Nest (log_nd L)) d h s0 = (s', Ok (ids, Nest (log_nd (kpre eigh C L (kused eigh C L d)))))).
    { intros ids' L s0 S0 NL PKL KL. assert (R0 : kfac_ready eigh s0 C) by (destruct S0 as [-> | ->]; [exact R|eapply cached_ready; exact SC]). apply (prec_kfac eigh inverse ids' s0 s' C L d h); [apply R0|apply data_covered; exact KL|exact PKL|].
      rewrite (kfac_plain eigh s0 s' C EV EC L (kfit_c C L) d R0); [unfold kpre, kused; reflexivity| |exact NL|].
      - destruct S0 as [-> | ->]; [exact E|apply (cached_get eigh s' C EV EC SC)].
      - intros m I. apply kfull_fits; [apply SC|]. apply kfull_ok; auto. }
    exists s'. split; [apply Q; auto|]. split; [eapply cached_ready; exact SC|]. split; [apply kpre_sizes; auto|].
    exists (fun off k => kpre eigh C (part off k B) (kused eigh C B d)). intros s0 ids' off k S0 Nk Lk.
    assert (KP : forall m, In m (dkeys (part off k B)) -> kfac_data C (part off k B) m) by (intros m I; rewrite part_keys in I; eapply kfac_data_part; eauto).
    pose proof (part_plain Cpu n off k B PL Lk) as PP. assert (PR : precondition (ids', Nest (log_nd (part off k B))) d h s0 = (s', Ok (ids', Nest (log_nd (kpre eigh C (part off k B) (kused eigh C B d)))))).
    { rewrite <- (kused_part C B off k d K SO). apply Q; auto; [rewrite part_keys; exact N|apply picks_part; exact PK]. }
    split; [exact PR|]. split.
    - destruct (prec_twins eigh inverse ids' Cpu k (part off k B) _ true d h s0 s' PP PR) as (_ & TW); [apply kpre_sizes; auto|]. intros m I. apply TW. rewrite part_keys. exact I.
    - intros m j I Lj. rewrite (kfac_gdot Cpu k C (part off k B) m _ j CT SO PP) by (rewrite ?part_keys; auto; apply KP; rewrite part_keys; exact I).
      rewrite (kfac_gdot Cpu n C B m _ (off + j) CT SO PL I (K m I) ltac:(lia)). rewrite (kfit_part C B m off k (K m I) SO). pose proof (kfull_ok eigh C B m CT SO (K m I)) as (cf & cb & G & Sg & _). set (f := kfit_c C B m) in *. cbv zeta. cbn [k_dv k_n k_a k_b k_g k_e k_wf k_vf k_wb k_vb]. unfold kouter. cbn [k_dv k_n k_a k_b k_g k_e k_wf k_vf k_wb k_vb].
      apply sum_ext. intros x Lx. apply sum_ext. intros y Ly. unfold gmat at 1 3. rewrite (tget_rows off k (k_g f) (k_n f) (k_a f) (k_b f) j x y Sg Lj Lx Ly). f_equal. apply kout_ext. intros p q Lp Lq. apply (tget_rows off k (k_g f) (k_n f) (k_a f) (k_b f) j p q Sg Lj Lp Lq).
  Qed.

  (** raw *)
  Lemma raw_data_part (C B : tlog) m off k n dv : plain_log dv n B -> off + k <= n -> k <> 0 -> In m (dkeys B) -> raw_data C B m -> raw_data C (part off k B) m.
  Proof.
    intros (N & PL) Lk Nk I (dv' & n' & rest & g & e & c & G & Sg & Wg & Nz & R). destruct (PL m I) as (g' & i' & j' & G' & Sg' & _). rewrite G in G'. injection G' as <- <-. rewrite Sg in Sg'. injection Sg' as -> ->.
    exists dv', k, [i'; j'], (rows off k g), e, c. split; [rewrite part_grad, G; reflexivity|]. split; [apply (rows_shape off k g n); exact Sg|]. split; [apply (rows_wf off k g n [i'; j']); assumption|]. split; [exact Nk|exact R].
  Qed.
  Lemma picks_raw_part h (C B : tlog) off k : picks_raw h C B -> picks_raw h C (part off k B).
  Proof.
    intros [->|(-> & N & A)]; [left; reflexivity|right]. split; [reflexivity|]. split; [intros E; apply N; destruct B; [reflexivity|discriminate E]|]. unfold auto_raw in *. rewrite part_keys. exact A.
  Qed.
  Definition rpre (IV L : tlog) : tlog := plog (map (fun m => (m, rresult (rfit_c IV L m))) (dkeys L)).
  Lemma raw_gdot n IV (B : tlog) m j g dv e b i k : grad_of B m = Some (dv, g) -> shape g = [n; i; k] -> twf g -> look IV m "grad" = Some (e, b) -> shape b = [prod [i; k]; prod [i; k]] -> j < n ->
    gdot B (rpre IV B) j j m = sum (prod [i; k]) (fun q => fmul (nth q (data (slice g j)) f0) (sum (prod [i; k]) (fun p => fmul (nth p (data (slice g j)) f0) (mget b p q)))).
  Proof.
    intros G Sg Wg Lb Sb Lj. assert (I : In m (dkeys B)) by (eapply look_in; exact G). unfold gdot. assert (GP : grad_of (rpre IV B) m = Some (rresult (rfit_c IV B m))) by (unfold grad_of, rpre; rewrite plog_look; apply (dget_keymap (fun m => rresult (rfit_c IV B m))); exact I).
    rewrite G, GP. unfold rfit_c. rewrite G, Lb, Sg. cbn [hd tl]. unfold rresult. cbn [r_dv r_n r_rest r_g r_e r_iv snd]. unfold dot. rewrite (slice_length_t n [i; k] g j Sg Wg Lj). apply sum_ext. intros q Lq. f_equal.
    rewrite (rresult_row n [i; k] g _ j q Sg Wg Lj Lq). apply sum_ext. intros p Lp. f_equal. rewrite (nth_slice_t n [i; k] g j p Sg Lp). unfold mget, tget. cbn [shape data]. f_equal. cbn. lia.
  Qed.
  Lemma rpre_sizes IV B : (forall m, In m (dkeys B) -> rfits IV B m (rfit_c IV B m)) -> same_sizes B (rpre IV B).
  Proof.
    intros K m a p G GP. assert (I : In m (dkeys B)) by (eapply look_in; exact G). pose proof (K m I) as (G' & Sg & _). rewrite G in G'. injection G' as ->. cbn [snd]. rewrite Sg.
    unfold grad_of, rpre in GP. rewrite plog_look in GP. rewrite (dget_keymap (fun m => rresult (rfit_c IV B m))) in GP by exact I. injection GP as <-. reflexivity.
  Qed.
  Lemma raw_rowwise ids C B d h (s : lstate) n : inverse_contract inverse -> raw_ready inverse s C d -> invertible inverse d C -> plain_log Cpu n B -> n <> 0 -> picks_raw h C B -> (forall m, In m (dkeys B) -> raw_data C B m) ->
    exists s' Q, precondition (ids, Nest (log_nd B)) d h s = (s', Ok (ids, Nest (log_nd Q))) /\ raw_ready inverse s' C d /\ same_sizes B Q /\ rowwise h d B Q n s s'.
  Proof.
    intros CT R IN PL Nn PK K. pose proof PL as (N & _).
    destruct (inv_ready_get eigh inverse s C d R) as (s' & IV & E & SC & FR).
    { intros m t c Lc. destruct (IN m t c Lc) as (q & Sc & Q). destruct (damped_spec (snd c) d q Sc) as (D1 & D2 & D3). apply (Q _ D1 D2 D3). }
    assert (IVS : forall L m, raw_data C L m -> rfits IV L m (rfit_c IV L m)).
    { intros L m (dv & n' & rest & g & e & c & G & Sg & Wg & Nz & Lc & Sc). destruct SC as (_ & _ & SI). specialize (SI m "grad"). rewrite Lc in SI. destruct SI as (a & b & Eb & Lb & Sp).
      destruct (Sp (prod rest) Sc) as (Sa & Wa & Ma). unfold rfit_c, rfits. rewrite G, Lb, Sg. cbn [fst snd r_dv r_n r_rest r_g r_e r_iv hd tl]. cbn [fst snd] in *.
      destruct (CT _ a b Sa Wa Eb) as (Sb & Wb & _). repeat (split; [assumption || reflexivity|]); assumption. }
    assert (Q : forall ids L s0, s0 = s \/ s0 = s' -> NoDup (dkeys L) -> picks_raw h C L -> (forall m, In m (dkeys L) -> raw_data C L m) -> precondition (ids, Nest (log_nd L)) d h s0 = (s', Ok (ids, Nest (log_nd (rpre IV L))))).
    { intros ids' L s0 S0 NL PKL KL. apply (prec_raw eigh inverse ids' s0 s' C L d h); [destruct S0 as [-> | ->]; [apply R|apply SC]| |exact PKL|].
      - intros m I. destruct (KL m I) as (dv & n' & rest & g & e & c & _ & _ & _ & _ & Lc & _). eapply look_in. exact Lc.
      - apply (raw_plain inverse s0 s' IV L (rfit_c IV L) d); [destruct S0 as [-> | ->]; [exact E|eapply inv_cached_get; exact SC]|exact NL|]. intros m I. apply IVS. apply KL. exact I. }
    exists s', (rpre IV B). split; [apply Q; auto|]. split; [eapply inv_cached_ready; exact SC|]. split; [apply rpre_sizes; auto|].
    exists (fun off k => rpre IV (part off k B)). intros s0 ids' off k S0 Nk Lk.
    assert (KP : forall m, In m (dkeys (part off k B)) -> raw_data C (part off k B) m) by (intros m I; rewrite part_keys in I; eapply raw_data_part; eauto).
    pose proof (part_plain Cpu n off k B PL Lk) as PP. assert (PR : precondition (ids', Nest (log_nd (part off k B))) d h s0 = (s', Ok (ids', Nest (log_nd (rpre IV (part off k B)))))) by (apply Q; auto; [rewrite part_keys; exact N|apply picks_raw_part; exact PK]).
    split; [exact PR|]. split.
    - destruct (prec_twins eigh inverse ids' Cpu k (part off k B) _ true d h s0 s' PP PR) as (_ & TW); [apply rpre_sizes; auto|]. intros m I. apply TW. rewrite part_keys. exact I.
    - intros m j I Lj. destruct (K m I) as (dv & n' & rest & g & e & c & G & Sg & Wg & Nz & Lc & Sc). pose proof (IVS B m (K m I)) as (G' & Sg' & _ & _ & Ei & Si).
      pose proof PL as (_ & PL'). destruct (PL' m I) as (g2 & i & q & G2 & Sg2 & _). rewrite G in G2. injection G2 as -> <-. rewrite Sg in Sg2. injection Sg2 as -> ->.
      assert (RR : r_rest (rfit_c IV B m) = [i; q]). { rewrite G in G'. injection G' as G1 G2. rewrite <- G2, Sg in Sg'. injection Sg' as _ X. symmetry. exact X. } rewrite RR in Si.
      rewrite (raw_gdot n IV B m (off + j) g Cpu _ _ i q G Sg Wg Ei Si ltac:(lia)).
      rewrite (raw_gdot k IV (part off k B) m j (rows off k g) Cpu _ _ i q ltac:(rewrite part_grad, G; reflexivity) (rows_shape off k g n [i; q] Sg) (rows_wf off k g n [i; q] Sg Wg Lk) Ei Si Lj).
      rewrite (slice_rows off k j g Lj). reflexivity.
  Qed.
  (** missing covariances: nothing is preconditioned *)
  Lemma uncovered_rowwise C B d h (s : lstate) n : In h ["auto"; "kfac"; "raw"] -> holds s "covariance_state" C -> (exists m, In m (dkeys B) /\ ~ In m (dkeys C)) -> plain_log Cpu n B -> rowwise h d B B n s s.
  Proof.
    intros Ih HC U PL. exists (fun off k => part off k B). intros s0 ids off k S0 Nk Lk. assert (s0 = s) as -> by (destruct S0; assumption). split; [apply (uncovered eigh inverse ids C (part off k B) d h s Ih HC); rewrite part_keys; exact U|]. split.
    - intros m I. destruct (part_plain Cpu n off k B PL Lk) as (_ & PP). destruct (PP m ltac:(rewrite part_keys; exact I)) as (a & i & j & G & Sa & Wa). exists a, a, i, j. auto 10.
    - intros m j I Lj. unfold gdot. rewrite part_grad. destruct (grad_of B m) as [b|]; [|reflexivity]. cbn [option_map snd]. rewrite slice_rows by exact Lj. reflexivity.
  Qed.

  Theorem batches_kfac C A B mode prec h groups d (s : lstate) sids tids ks : mode = "l2" \/ mode = "cosine" -> A <> [] ->
    plain_log Cpu (length sids) A -> plain_log Cpu (length tids) B -> all_on Cpu B -> within A B -> grad_first B -> (forall m, In m (dkeys B) -> In m (dkeys A)) ->
    groups_ok groups -> groups_hit groups (dkeys A) -> splits ks (length tids) ->
    eigh_contract eigh -> kfac_ready eigh s C -> solvable eigh C -> picks_kfac h C B -> picks_kfac h C A -> (forall m, In m (dkeys B) -> kfac_data C B m) -> (forall m, In m (dkeys A) -> kfac_data C A m) ->
    exists s' r, compute_influence (sids, Nest (log_nd A)) (tids, Nest (log_nd B)) mode prec h groups d s = (s', Ok r) /\
      influence_all (sids, Nest (log_nd A)) (batches 0 ks tids B) mode prec h groups d s = (s', Ok (Some r)).
  Proof.
    intros MD NA PA PB AO WI GF SUB GO GH SP CT R SO PKB PKA KB KA.
    assert (E : exists s1 P, prec_step prec (sids, Nest (log_nd A)) d h s = (s1, Ok (sids, Nest (log_nd P))) /\ kfac_ready eigh s1 C /\ same_sizes A P).
    { destruct prec; [|exists s, A; split; [reflexivity|split; [exact R|apply sizes_refl]]]. destruct (kfac_rowwise sids C A d h s (length sids) CT R SO PA PKA KA) as (s1 & E & R1 & SA & _). eauto. }
    destruct E as (s1 & P & E & R1 & SA). destruct (kfac_rowwise tids C B d h s1 (length tids) CT R1 SO PB PKB KB) as (s2 & E2 & R2 & SB & RW).
    destruct (batches_adjusted eigh inverse fsqrt A B mode prec h groups d s s1 s2 sids tids ks P _ MD NA PA PB AO WI GF SUB GO GH SP E E2 SA SB RW) as (r & X & Y). eauto.
  Qed.
  Theorem batches_raw C A B mode prec h groups d (s : lstate) sids tids ks : mode = "l2" \/ mode = "cosine" -> A <> [] ->
    plain_log Cpu (length sids) A -> plain_log Cpu (length tids) B -> all_on Cpu B -> within A B -> grad_first B -> (forall m, In m (dkeys B) -> In m (dkeys A)) ->
    groups_ok groups -> groups_hit groups (dkeys A) -> splits ks (length tids) ->
    inverse_contract inverse -> raw_ready inverse s C d -> invertible inverse d C -> picks_raw h C B -> picks_raw h C A -> (forall m, In m (dkeys B) -> raw_data C B m) -> (forall m, In m (dkeys A) -> raw_data C A m) ->
    exists s' r, compute_influence (sids, Nest (log_nd A)) (tids, Nest (log_nd B)) mode prec h groups d s = (s', Ok r) /\
      influence_all (sids, Nest (log_nd A)) (batches 0 ks tids B) mode prec h groups d s = (s', Ok (Some r)).
  Proof.
    intros MD NA PA PB AO WI GF SUB GO GH SP CT R SO PKB PKA KB KA.
    assert (NT : length tids <> 0). { destruct SP as (NE & NZ & SM). destruct ks as [|k ks]; [congruence|]. inversion NZ; subst. cbn in SM. lia. }
    assert (NS : length sids <> 0). { destruct A as [|[m e] A]; [congruence|]. destruct (KA m (or_introl eq_refl)) as (dv & n & rest & g & x & c & G & Sg & _ & Nz & _). destruct PA as (_ & PA). destruct (PA m (or_introl eq_refl)) as (a & i & j & G' & Sa & _). rewrite G in G'. injection G' as -> <-. rewrite Sg in Sa. injection Sa as <- _. exact Nz. }
    assert (E : exists s1 P, prec_step prec (sids, Nest (log_nd A)) d h s = (s1, Ok (sids, Nest (log_nd P))) /\ raw_ready inverse s1 C d /\ same_sizes A P).
    { destruct prec; [|exists s, A; split; [reflexivity|split; [exact R|apply sizes_refl]]]. destruct (raw_rowwise sids C A d h s (length sids) CT R SO PA NS PKA KA) as (s1 & Q & E & R1 & SA & _). eauto. }
    destruct E as (s1 & P & E & R1 & SA). destruct (raw_rowwise tids C B d h s1 (length tids) CT R1 SO PB NT PKB KB) as (s2 & Q & E2 & R2 & SB & RW).
    destruct (batches_adjusted eigh inverse fsqrt A B mode prec h groups d s s1 s2 sids tids ks P _ MD NA PA PB AO WI GF SUB GO GH SP E E2 SA SB RW) as (r & X & Y). eauto.
  Qed.
  Theorem batches_uncovered C A B mode h groups d (s : lstate) sids tids ks prec : mode = "l2" \/ mode = "cosine" -> A <> [] ->
    plain_log Cpu (length sids) A -> plain_log Cpu (length tids) B -> all_on Cpu B -> within A B -> grad_first B -> (forall m, In m (dkeys B) -> In m (dkeys A)) ->
    groups_ok groups -> groups_hit groups (dkeys A) -> splits ks (length tids) -> In h ["auto"; "kfac"; "raw"] ->
    holds s "covariance_state" C -> (exists m, In m (dkeys B) /\ ~ In m (dkeys C)) ->
    exists r, compute_influence (sids, Nest (log_nd A)) (tids, Nest (log_nd B)) mode prec h groups d s = (s, Ok r) /\
      influence_all (sids, Nest (log_nd A)) (batches 0 ks tids B) mode prec h groups d s = (s, Ok (Some r)).
  Proof.
    intros MD NA PA PB AO WI GF SUB GO GH SP Ih HC (m & I & U).
    assert (E : prec_step prec (sids, Nest (log_nd A)) d h s = (s, Ok (sids, Nest (log_nd A)))). { destruct prec; [|reflexivity]. apply (uncovered eigh inverse sids C A d h s Ih HC). exists m. auto. }
    apply (batches_adjusted eigh inverse fsqrt A B mode prec h groups d s s s sids tids ks A B MD NA PA PB AO WI GF SUB GO GH SP E).
    - apply (uncovered eigh inverse tids C B d h s Ih HC). eauto.
    - apply sizes_refl.
    - apply sizes_refl.
    - eapply uncovered_rowwise; eauto.
  Qed.
End Proofs.
