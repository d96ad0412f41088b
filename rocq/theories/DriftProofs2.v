(** Scores of calls with corrected eigenvalues, call by call. *)
From Coq Require Import Lia.
From Verif Require Import Py PyStr Field Tensor ModelGrad Monad ModelState ModelInfluence SpecGrad SpecState SpecInfluence SpecRows SpecDrift GradProofs1 GradProofs2 StateProofs1 InfProofs1 InfProofs2 InfProofs3 InfProofs4 InfProofs5 InfProofs6 InfProofs7 InfProofs8 InfProofs10 InfProofs12 InfProofs13 InfProofs14 InfProofs15 InfProofs16 InfProofs17 InfProofs18 InfProofs19 DriftProofs1.
Local Open Scope string_scope.
Local Open Scope list_scope.
Local Open Scope nat_scope.

Lemma step_of_lt : forall zs i, i < fold_right Nat.add 0 zs -> step_of zs i < length zs.
Proof. induction zs as [|z r IH]; intros i L; cbn [fold_right step_of length] in *; [lia|]. destruct (Nat.ltb_spec i z); [lia|]. specialize (IH (i - z)). lia. Qed.

Section Proofs.
  Context {F : Type} `{OField F}.
  Notation tensor := (tensor F).
  Notation lstate := (@lstate F).
  Notation dten := (@dten F).
  Notation tlog := (@tlog F).
  Notation ifn := (@ifn F).
  Notation infres := (@infres F).
  Variable eigh : tensor -> res (tensor * tensor).
  Variable inverse : tensor -> res tensor.
  Variable fsqrt : F -> F.
  Notation precondition := (precondition eigh inverse).
  Notation influence_all := (influence_all eigh inverse fsqrt).
  Notation calls_all := (calls_all eigh inverse fsqrt).
  Notation after := (after eigh inverse).

  Lemma slice_eq n rest (t u : tensor) i : shape t = n :: rest -> shape u = n :: rest -> twf t -> twf u -> i < n ->
    (forall idx, valid rest idx -> tget t (i :: idx) = tget u (i :: idx)) -> slice t i = slice u i.
  Proof.
    destruct t as [st dt], u as [su du]. cbn [shape]. intros -> -> Wt Wu L E. unfold twf in Wt, Wu. cbn [shape data] in Wt, Wu. rewrite prod_cons in Wt, Wu.
    rewrite (tgen_tget (slice (T (n :: rest) dt) i)) by (apply slice_wf; assumption). rewrite (tgen_tget (slice (T (n :: rest) du) i)) by (apply slice_wf; assumption).
    change (shape (slice (T (n :: rest) dt) i)) with rest. change (shape (slice (T (n :: rest) du) i)) with rest. apply tgen_ext. intros idx V. rewrite !tget_slice by exact V. apply E, V.
  Qed.

  Section Join.
    Variables (dv : dev) (step : nat -> nat) (Pk : nat -> tlog) (ms : list string).
    Definition jt (m : string) : tensor :=
      match grad_of (Pk 0) m with
      | Some p => tgen (shape (snd p)) (fun idx => match grad_of (Pk (step (hd 0 idx))) m with Some q => tget (snd q) idx | None => f0 end)
      | None => T [] [] end.
    Definition joined : tlog := map (fun m => (m, [("grad", (dv, jt m))])) ms.
    Lemma joined_keys : dkeys joined = ms.
    Proof. unfold joined, dkeys. rewrite map_map. apply map_id. Qed.
    Lemma joined_grad m : In m ms -> grad_of joined m = Some (dv, jt m).
    Proof.
      intros I. assert (E : dget m joined = Some [("grad", (dv, jt m))]); [|unfold grad_of, look; rewrite E; reflexivity]. unfold joined.
      induction ms as [|x l IH]; [contradiction|]. cbn [map dget]. destruct (eqb_spec m x) as [->|N]; [reflexivity|]. apply IH. destruct I as [->|I]; [congruence|exact I].
    Qed.
    Lemma joined_slice m p0 p n a b i : grad_of (Pk 0) m = Some p0 -> grad_of (Pk (step i)) m = Some p -> shape (snd p0) = [n; a; b] -> shape (snd p) = [n; a; b] -> twf (snd p) -> i < n ->
      shape (jt m) = [n; a; b] /\ slice (jt m) i = slice (snd p) i.
    Proof.
      intros G0 G S0 S1 W L. unfold jt. rewrite G0, S0. split; [reflexivity|]. apply (slice_eq n [a; b]); [reflexivity|exact S1|apply tgen_wf|exact W|exact L|].
      intros idx V. rewrite tget_tgen by (constructor; assumption). cbn [hd]. rewrite G. reflexivity.
    Qed.
  End Join.

  Lemma slice_mgen_ext n w (f g : nat -> nat -> F) i : i < n -> (forall j, j < w -> f i j = g i j) -> slice (mgen n w f) i = slice (mgen n w g) i.
  Proof.
    intros L E. apply (slice_eq n [w]); [reflexivity|reflexivity|apply tgen_wf|apply tgen_wf|exact L|]. intros idx V. unfold mgen. rewrite !tget_tgen by (constructor; assumption).
    inversion V as [|y ? ? ? Ly V']; subst. inversion V'; subst. apply E. exact Ly.
  Qed.
  Lemma rows_final off z n w (f g : list string -> nat -> nat -> F) groups ms : off + z <= n -> (forall l i j, incl l ms -> off <= i -> i < off + z -> j < w -> f l i j = g l i j) ->
    rows_val off z (final (fun l => mgen n w (f l)) groups ms) = rows_val off z (final (fun l => mgen n w (g l)) groups ms).
  Proof.
    intros L E. assert (R : forall l, incl l ms -> rows off z (mgen n w (f l)) = rows off z (mgen n w (g l))).
    { intros l I. apply rows_ext; [reflexivity|]. intros i Li. apply slice_mgen_ext; [lia|]. intros j Lj. apply E; auto; lia. }
    unfold final. destruct groups as [gs|]; cbn [rows_val]; [|rewrite R by (intros x I; exact I); reflexivity]. cbn [map fst snd]. rewrite !map_map. cbn [fst snd]. rewrite R by (intros x I; exact I). f_equal. f_equal.
    apply map_ext. intros x. rewrite R; [reflexivity|]. intros y I. apply filter_In in I. apply I.
  Qed.

  (** one whole call in the state after [k] earlier ones *)
  Lemma drift_call k dv C EC E (A B : tlog) h groups d sids tids ks (s : lstate) :
    A <> [] -> plain_log dv (length sids) A -> plain_log dv (length tids) B -> within A B -> grad_first B -> (forall m, In m (dkeys B) -> In m (dkeys A)) -> groups_ok groups -> groups_hit groups (dkeys A) -> splits ks (length tids) ->
    ekfac_state s C EC E -> (forall m, In m (dkeys A) -> ekfac_data dv EC E A m) -> covered C A -> picks_kfac h C A -> fle f0 d -> d <> f0 ->
    exists P, dkeys P = dkeys A /\
      (forall m g vf vb e x, grad_of A m = Some (dv, g) -> look EC m "forward" = Some vf -> look EC m "backward" = Some vb -> dget m E = Some (e, x) ->
        exists p, grad_of P m = Some (dv, p) /\ eig_solution (if dev_eqb e dv then fmul (fnat (S k)) d else d) (snd vb) (snd vf) x p g) /\
      influence_all (sids, Nest (log_nd A)) (batches 0 ks tids B) "dot" true h groups (Some d) (after k sids A d h s) =
        (after (S k) sids A d h s, Ok (Some (InfRes sids tids (final (fun l => score_matrix P B l (length sids) (length tids)) groups (dkeys A))))).
  Proof.
    intros NA PA PB WI GF SUB GO GH SP R K CV PK P0 Pn. destruct (ekfac_drift eigh inverse k sids s dv C EC E A d h R (proj1 PA) K CV PK P0 Pn) as (s1 & P & EP & SOL).
    assert (E1 : after (S k) sids A d h s = s1). { change (after (S k) sids A d h s) with (fst (precondition (sids, Nest (log_nd A)) (Some d) h (after k sids A d h s))). rewrite EP. reflexivity. }
    assert (SS : same_sizes A P). { intros m ga gp Ga Gp. assert (I : In m (dkeys A)) by (eapply look_in; exact Ga). destruct (K m I) as (n & a & b & g & vf & vb & [e x] & Gg & Sg & _ & Lf & _ & Lb & _ & De & _). destruct (SOL m g vf vb e x Gg Lf Lb De) as (p & Gp' & n' & a' & b' & S1 & S2 & _). rewrite Gp in Gp'. injection Gp' as ->. rewrite Ga in Gg. injection Gg as ->. cbn [snd]. congruence. }
    destruct (prec_twins eigh inverse sids dv (length sids) A P true (Some d) h _ s1 PA EP SS) as (KP & TW).
    pose proof (batches_dot eigh inverse fsqrt dv A B true h groups (Some d) (after k sids A d h s) sids tids ks NA PA PB WI (keeps_of _ _ _ _ _ _ EP SS) GF SUB GO GH SP) as BD.
    rewrite (influence_prec eigh inverse fsqrt A (Nest (log_nd B)) "dot" true h groups (Some d) _ s1 sids tids P eq_refl EP) in BD.
    assert (NP : P <> []) by (intros ->; apply NA; destruct A; [reflexivity|discriminate KP]). pose proof GH as GH2. rewrite <- KP in GH2.
    rewrite (influence_dot eigh inverse fsqrt dv P B sids tids groups h (Some d) s1 NP GO GH2) in BD; [|intros m I; rewrite KP in I; eapply within_paired; eauto|exact (head_prec dv (length sids) A P B PA TW GF SUB)]. cbn [bind] in BD.
    exists P. split; [exact KP|]. split; [exact SOL|]. rewrite BD, E1, KP. reflexivity.
  Qed.

  Theorem drift_calls dv C EC E (A B : tlog) h groups d sids tids ks zs (f : ifn) :
    A <> [] -> plain_log dv (length sids) A -> uniform (length sids) A -> plain_log dv (length tids) B -> within A B -> grad_first B -> (forall m, In m (dkeys B) -> In m (dkeys A)) -> groups_ok groups -> groups_hit groups (dkeys A) -> splits ks (length tids) -> splits zs (length sids) ->
    ekfac_state (if_state f) C EC E -> (forall m, In m (dkeys A) -> ekfac_data dv EC E A m) -> covered C A -> picks_kfac h C A -> fle f0 d -> d <> f0 -> if_scores f = None ->
    exists f' os P, calls_all (map (bcall (batches 0 ks tids B) "dot" true h groups (Some d)) (batches 0 zs sids A)) f = (f', Ok os) /\
      saved f' (InfRes sids tids (final (fun l => score_matrix P B l (length sids) (length tids)) groups (dkeys A))) /\ dkeys P = dkeys A /\
      forall m g vf vb e x n a b, grad_of A m = Some (dv, g) -> shape g = [n; a; b] -> look EC m "forward" = Some vf -> look EC m "backward" = Some vb -> dget m E = Some (e, x) ->
        exists p, grad_of P m = Some (dv, p) /\ shape p = shape g /\
          forall i, i < n -> eig_row (if dev_eqb e dv then fmul (fnat (S (step_of zs i))) d else d) (snd vb) (snd vf) x (slice p i) (slice g i) a b.
  Proof.
    intros NA PA UA PB WI GF SUB GO GH SP SZ R K CV PK P0 Pn SN. set (n := length sids) in *. set (w := length tids) in *.
    destruct (bounded_choice _ [] (fun k => drift_call k dv C EC E A B h groups d sids tids ks (if_state f) NA PA PB WI GF SUB GO GH SP R K CV PK P0 Pn) (length zs)) as (Pk & HP). cbv beta in HP. fold n w in HP.
    set (P := joined dv (step_of zs) Pk (dkeys A)). destruct SZ as (Nz & V & Sm).
    assert (L0 : 0 < length zs) by (destruct zs; [congruence|cbn [length]; lia]).
    (* slices of the joined log *)
    assert (SJ : forall m g vf vb e x, grad_of A m = Some (dv, g) -> look EC m "forward" = Some vf -> look EC m "backward" = Some vb -> dget m E = Some (e, x) ->
      exists a b, shape g = [n; a; b] /\ shape (jt (step_of zs) Pk m) = [n; a; b] /\ forall i, i < n -> exists p, grad_of (Pk (step_of zs i)) m = Some (dv, p) /\ slice (jt (step_of zs) Pk m) i = slice p i /\
        eig_row (if dev_eqb e dv then fmul (fnat (S (step_of zs i))) d else d) (snd vb) (snd vf) x (slice p i) (slice g i) a b).
    { intros m g vf vb e x G Lf Lb De. assert (I : In m (dkeys A)) by (eapply look_in; exact G). destruct (proj2 PA m I) as (g' & a & b & G' & Sg & _). rewrite G in G'. injection G' as <-. fold n in Sg.
      exists a, b. split; [exact Sg|]. destruct (HP 0 L0) as (_ & S0 & _). destruct (S0 m g vf vb e x G Lf Lb De) as (p0 & Gp0 & n0 & a0 & b0 & T1 & T2 & T3 & _). rewrite Sg in T1. injection T1 as <- <- <-.
      split; [unfold jt; rewrite Gp0; exact T2|]. intros i Li. assert (Ls : step_of zs i < length zs) by (apply step_of_lt; lia).
      destruct (HP _ Ls) as (_ & S1 & _). destruct (S1 m g vf vb e x G Lf Lb De) as (p & Gp & n1 & a1 & b1 & U1 & U2 & U3 & U4). rewrite Sg in U1. injection U1 as <- <- <-. exists p. split; [exact Gp|].
      destruct (joined_slice (step_of zs) Pk m _ _ n a b i Gp0 Gp T2 U2 U3 Li) as (_ & ->). split; [reflexivity|]. intros u v Lu Lv. apply U4; assumption. }
    assert (GJ : forall i j m, i < n -> In m (dkeys A) -> gdot (Pk (step_of zs i)) B i j m = gdot P B i j m).
    { intros i j m Li I. destruct (K m I) as (n' & a' & b' & g & vf & vb & [e x] & Gg & Sg & _ & Lf & _ & Lb & _ & De & _). destruct (SJ m g vf vb e x Gg Lf Lb De) as (a & b & _ & _ & Q). destruct (Q i Li) as (p & Gp & Es & _).
      unfold gdot. rewrite Gp. unfold P. rewrite (joined_grad dv (step_of zs) Pk (dkeys A) m I). cbn [snd]. rewrite Es. reflexivity. }
    set (Wk := fun k => InfRes sids tids (final (fun l => score_matrix (Pk k) B l n w) groups (dkeys A))). set (RR := InfRes sids tids (final (fun l => score_matrix P B l n w) groups (dkeys A))).
    assert (AG : forall r pre, zs = pre ++ r -> agree Wk RR (length pre) (fold_right Nat.add 0 pre) r).
    { induction r as [|z r IH]; intros pre Ez; cbn [agree]; [exact Logic.I|].
      assert (Lz : fold_right Nat.add 0 pre + z <= n). { rewrite Ez in Sm. rewrite <- Sm. clear. induction pre as [|y pre IH]; cbn [app fold_right]; lia. }
      split.
      - unfold Wk, RR, rows_of. cbn [i_src i_tgt i_val]. f_equal. unfold score_matrix. apply rows_final; [exact Lz|]. intros l i j Il L1 L2 Lj. unfold score. f_equal. apply map_ext_in. intros m Im.
        assert (Es : step_of zs i = length pre) by (rewrite Ez; apply step_of_at; assumption). rewrite <- Es. apply GJ; [lia|apply Il, Im].
      - specialize (IH (pre ++ [z])). rewrite <- app_assoc in IH. specialize (IH Ez). rewrite app_length, Nat.add_comm in IH. cbn [length Nat.add] in IH.
        replace (fold_right Nat.add 0 pre + z) with (fold_right Nat.add 0 (pre ++ [z])); [exact IH|]. clear. induction pre as [|y pre IH]; cbn [app fold_right]; lia. }
    assert (DV : dict_val (i_val RR) /\ val_ok n (i_val RR)).
    { destruct (HP 0 L0) as (_ & _ & E0). assert (Nn : n <> 0). { destruct zs as [|z zs']; [congruence|]. pose proof (Forall_inv V) as Q. cbv beta in Q. cbn [fold_right] in Sm. lia. }
      destruct (all_val eigh inverse fsqrt n A sids _ _ _ _ _ _ _ _ _ Nn UA eq_refl E0) as (_ & VO).
      pose proof (value_dict eigh inverse fsqrt (bcall (batches 0 ks tids B) "dot" true h groups (Some d) (sids, Nest (log_nd A))) _ _ _ E0) as DD. cbn [i_val] in VO, DD. unfold RR. cbn [i_val].
      unfold final in *. destruct groups as [gs|]; [|split; [exact DD|]].
      - split; [split|].
        + destruct DD as (D1 & _). unfold dkeys in *. cbn [map fst] in *. rewrite map_map in *. exact D1.
        + apply Forall_forall. intros q [<-|I]; [discriminate|]. apply in_map_iff in I. destruct I as (g & <- & _). discriminate.
        + apply Forall_forall. intros q I. assert (X : exists l, snd q = score_matrix P B l n w). { destruct I as [<-|I]; [eexists; reflexivity|]. apply in_map_iff in I. destruct I as (g & <- & _). eexists. reflexivity. }
          destruct X as (l & ->). unfold samples. eexists. split; [reflexivity|apply tgen_wf].
      - unfold val_ok, samples. eexists. split; [reflexivity|apply tgen_wf]. }
    destruct DV as (DV & VO).
    destruct (all_calls eigh inverse fsqrt n A sids (batches 0 ks tids B) "dot" true h groups (Some d) (fun k => after k sids A d h (if_state f)) Wk RR UA eq_refl eq_refl DV zs f VO (conj Nz (conj V Sm)) (AG zs [] eq_refl)) as (f' & os & E1 & E2 & E3); [|exact SN|reflexivity|].
    { intros j Lj. destruct (HP j Lj) as (_ & _ & Q). exact Q. }
    exists f', os, P. split; [exact E1|]. split; [exact E3|]. split; [apply joined_keys|].
    intros m g vf vb e x n' a b G Sg Lf Lb De. destruct (SJ m g vf vb e x G Lf Lb De) as (a' & b' & Sg' & Sj & Q). rewrite Sg in Sg'. injection Sg' as -> -> ->.
    exists (jt (step_of zs) Pk m). split; [apply joined_grad; eapply look_in; exact G|]. split; [congruence|]. intros i Li. destruct (Q i Li) as (p & _ & -> & ER). exact ER.
  Qed.
End Proofs.
