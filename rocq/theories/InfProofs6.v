(** Raw preconditioning; the shape of preconditioned logs; corrected eigenvalues. *)
From Verif Require Import Py PyStr Field Tensor ModelGrad Monad ModelState ModelInfluence SpecGrad SpecState SpecInfluence GradProofs1 GradProofs2 StateProofs1 StateProofs3 StateProofs7 StateProofs10 InfAlg InfProofs1 InfProofs2 InfProofs3 InfProofs4 InfProofs5.
Local Open Scope string_scope.
Local Open Scope list_scope.
Local Open Scope nat_scope.

Section Proofs.
  Context {F : Type} `{OField F}.
  Add Field FfI6 : f_theory.
  Notation tensor := (tensor F).
  Notation sval := (@sval F).
  Notation lstate := (@lstate F).
  Notation dten := (@dten F).
  Notation tlog := (@tlog F).
  Notation kfit := (@kfit F).
  Notation rfit := (@rfit F).
  Variable eigh : tensor -> res (tensor * tensor).
  Variable inverse : tensor -> res tensor.
  Notation precondition := (precondition eigh inverse).
  Notation kfit_c := (kfit_c eigh).
  Notation solvable := (solvable eigh).

  (** C46 *)
  Theorem kfac_default ids s C L h m0 r0 g0 n0 a0 b0 dv0 cf cb : eigh_contract eigh -> kfac_ready eigh s C -> solvable C -> NoDup (dkeys L) -> picks_kfac h C L ->
    (forall m, In m (dkeys L) -> kfac_data C L m) -> dkeys L = m0 :: r0 -> grad_of L m0 = Some (dv0, g0) -> shape g0 = [n0; a0; b0] -> a0 <> 0 -> b0 <> 0 ->
    look C m0 "forward" = Some cf -> look C m0 "backward" = Some cb ->
    precondition (ids, Nest (log_nd L)) None h s = precondition (ids, Nest (log_nd L)) (Some (kron_damping (snd cb) (snd cf))) h s.
  Proof.
    intros CT R SO N PK K E0 G0 S0 Na Nb Lf Lb. assert (I0 : In m0 (dkeys L)) by (rewrite E0; left; reflexivity).
    pose proof (kfull_ok eigh C L m0 CT SO (K m0 I0)) as KF. pose proof (kdamp_default eigh C L m0 KF) as KD. cbv zeta in KD.
    pose proof KF as (cf' & cb' & G & Sg & _). rewrite G0 in G. injection G as G1 G2. rewrite <- G2, S0 in Sg. injection Sg as _ Sa Sb.
    rewrite <- Sa, <- Sb in KD. destruct (KD Na Nb) as (cf2 & cb2 & Lf2 & Lb2 & ED). rewrite Lf in Lf2. rewrite Lb in Lb2. injection Lf2 as ->. injection Lb2 as ->. cbn [snd].
    destruct (K m0 I0) as (dv & n & a & b & g & e & cf3 & cb3 & G3 & Sg3 & _ & Lf3 & Lb3 & (Yf & _) & _ & (Yb & _) & _). rewrite G0 in G3. injection G3 as <- <-. rewrite S0 in Sg3. injection Sg3 as <- <- <-.
    rewrite Lf in Lf3. rewrite Lb in Lb3. injection Lf3 as <- <-. injection Lb3 as <- .
    assert (EQ : kused eigh C L None = kron_damping cb2 cf2). { unfold kused. rewrite E0. rewrite ED. unfold kron_damping, mean_diag. rewrite Yf, Yb. reflexivity. }
    destruct (ready_get_total eigh s C R SO) as (s' & vw & E). destruct (ready_get eigh s C s' vw R E) as (EV & EC & -> & SC & FR).
    assert (Q : forall d, precondition (ids, Nest (log_nd L)) d h s = (s', Ok (ids, Nest (log_nd (kpre eigh C L (kused eigh C L d)))))).
    { intros d. apply (prec_kfac eigh inverse ids s s' C L d h); [apply R|apply data_covered; exact K|exact PK|].
      rewrite (kfac_plain eigh s s' C EV EC L (kfit_c C L) d R E N); [unfold kpre, kused; reflexivity|]. intros m I. apply kfull_fits; [apply SC|]. apply kfull_ok; auto. }
    rewrite !Q. unfold kused at 2. rewrite EQ. reflexivity.
  Qed.
  (** with explicit damping each module's result depends only on that module; and calls can be repeated *)
  Lemma kfit_local C L L' m : grad_of L m = grad_of L' m -> kfit_c C L m = kfit_c C L' m.
  Proof. intros E. unfold InfProofs5.kfit_c. rewrite E. reflexivity. Qed.
  Theorem kfac_local ids ids' s s' C L L' d h h' : eigh_contract eigh -> kfac_ready eigh s C -> kfac_ready eigh s' C -> solvable C -> NoDup (dkeys L) -> NoDup (dkeys L') ->
    picks_kfac h C L -> picks_kfac h' C L' -> (forall m, In m (dkeys L) -> kfac_data C L m) -> (forall m, In m (dkeys L') -> kfac_data C L' m) ->
    exists s1 s1' P P', precondition (ids, Nest (log_nd L)) (Some d) h s = (s1, Ok (ids, Nest (log_nd P))) /\
      precondition (ids', Nest (log_nd L')) (Some d) h' s' = (s1', Ok (ids', Nest (log_nd P'))) /\
      forall m, grad_of L m = grad_of L' m -> grad_of P m = grad_of P' m.
  Proof.
    intros CT R R' SO N N' PK PK' K K'. destruct (prec_kfac_ok eigh inverse ids s C L (Some d) h CT R SO N PK K) as (s1 & EV & EC & E & _).
    destruct (prec_kfac_ok eigh inverse ids' s' C L' (Some d) h' CT R' SO N' PK' K') as (s1' & EV' & EC' & E' & _).
    exists s1, s1', (kpre eigh C L d), (kpre eigh C L' d). split; [exact E|]. split; [exact E'|]. intros m G. unfold grad_of in G |- *.
    unfold kpre. rewrite !plog_look.
    assert (X : forall M, dget m (map (fun x => (x, kresult d (kfit_c C M x))) (dkeys M)) = if mem m (dkeys M) then Some (kresult d (kfit_c C M m)) else None).
    { intros M. destruct (mem m (dkeys M)) eqn:Mm; [apply mem_In in Mm; apply (dget_keymap (fun m => kresult d (kfit_c C M m))); exact Mm|]. apply mem_false in Mm. apply dget_None_keys. unfold dkeys at 1. rewrite map_map. cbn [fst]. rewrite map_id. exact Mm. }
    rewrite !X. rewrite (kfit_local C L L' m G).
    destruct (mem m (dkeys L)) eqn:M1, (mem m (dkeys L')) eqn:M2; try reflexivity; exfalso.
    - apply mem_In in M1. destruct (K m M1) as (dv & n & a & b & g & e & cf & cb & Q & _). unfold grad_of in Q. rewrite G in Q. apply look_in in Q. apply mem_false in M2. contradiction.
    - apply mem_In in M2. destruct (K' m M2) as (dv & n & a & b & g & e & cf & cb & Q & _). unfold grad_of in Q. rewrite <- G in Q. apply look_in in Q. apply mem_false in M1. contradiction.
  Qed.
  (** repeated calls *)
  Theorem kfac_repeat ids s C L d h s' r : eigh_contract eigh -> kfac_ready eigh s C -> solvable C -> NoDup (dkeys L) -> picks_kfac h C L ->
    (forall m, In m (dkeys L) -> kfac_data C L m) ->
    precondition (ids, Nest (log_nd L)) d h s = (s', Ok r) -> precondition (ids, Nest (log_nd L)) d h s' = (s', Ok r).
  Proof.
    intros CT R SO N PK K E. destruct (prec_kfac_ok eigh inverse ids s C L d h CT R SO N PK K) as (s1 & EV & EC & E1 & SC & _). rewrite E in E1. injection E1 as <- ->.
    destruct (prec_kfac_ok eigh inverse ids s' C L d h CT (cached_ready _ _ _ _ _ SC) SO N PK K) as (s2 & EV2 & EC2 & E2 & SC2 & St & _). rewrite E2. f_equal. apply St.
    assert (EQ : EV2 = EV /\ EC2 = EC). 2: { destruct EQ as [-> ->]. exact SC. }
    destruct (ready_get_total eigh s' C (cached_ready _ _ _ _ _ SC) SO) as (s3 & vw & E3). rewrite (cached_get eigh s' C EV EC SC) in E3. injection E3 as <- <-.
    destruct SC2 as (_ & _ & (A1 & _) & (A2 & _) & _). destruct SC as (HC & HK & (B1 & B1') & (B2 & B2') & BD).
    assert (S3 : s2 = s').
    { pose proof (prec_kfac eigh inverse ids s' s' C L d h) as PP. destruct R as (_ & _). 
      assert (KP : ModelInfluence.precondition_kfac eigh (log_nd L) d s' = (s', Ok (log_nd (kpre eigh C L (kused eigh C L d))))).
      { rewrite (kfac_plain eigh s' s' C EV EC L (kfit_c C L) d); [unfold kpre, kused; reflexivity| | |exact N|].
        - eapply (cached_ready eigh s' C EV EC). unfold svd_cached, holds; auto 10.
        - apply (cached_get eigh s' C EV EC). unfold svd_cached, holds; auto 10.
        - intros m I. apply kfull_fits; [exact BD|]. apply kfull_ok; auto. }
      specialize (PP _ HC (data_covered C L K) PK KP). rewrite PP in E2. injection E2 as <-. reflexivity. }
    subst s2. rewrite B1 in A1. rewrite B2 in A2. split; [apply (log_inj EV2 EV)|apply (log_inj EC2 EC)]; congruence.
  Qed.

  (** C44 *)
  Lemma rresult_row n rest (g : tensor) (M : nat -> nat -> F) k j : shape g = n :: rest -> twf g -> k < n -> j < prod rest ->
    nth j (data (slice (T (n :: rest) (data (mgen n (prod rest) M))) k)) f0 = M k j.
  Proof.
    intros Sg Wg Lk Lj. rewrite nth_slice by exact Lj.
    rewrite <- (mget_mgen n (prod rest) M k j Lk Lj). unfold mget, tget. rewrite shape_mgen. cbn [data]. f_equal. cbn. lia.
  Qed.
  Lemma mul_lt_prod k n p j : k < n -> j < p -> k * p + j < n * p.
  Proof. intros A B. assert ((k + 1) * p <= n * p) by (apply Nat.mul_le_mono_r; lia). lia. Qed.
  Definition rfit_c (IV L : tlog) (m : string) : rfit :=
    match grad_of L m, look IV m "grad" with
    | Some (dv, g), Some (e, b) => RFit dv (hd 0 (shape g)) (tl (shape g)) g e b
    | _, _ => RFit Cpu 0 [] (T [] []) Cpu (T [] [])
    end.
  Theorem raw_solves ids s C L d h : inverse_contract inverse -> raw_ready inverse s C d -> invertible inverse d C -> NoDup (dkeys L) -> picks_raw h C L ->
    (forall m, In m (dkeys L) -> raw_data C L m) ->
    exists s' P, precondition (ids, Nest (log_nd L)) d h s = (s', Ok (ids, Nest (log_nd P))) /\ raw_ready inverse s' C d /\ dkeys P = dkeys L /\
      (forall n, n <> "covariance_inverse_state" -> dget n (attrs s') = dget n (attrs s)) /\
      (forall m t, t <> "grad" -> look P m t = None) /\
      forall m dv g c, grad_of L m = Some (dv, g) -> look C m "grad" = Some c ->
        exists p, grad_of P m = Some (dv, p) /\ raw_solution (own_damping (snd c) d) (snd c) p g.
  Proof.
    intros CT R IN N PK K.
    destruct (inv_ready_get eigh inverse s C d R) as (s' & IV & E & SC & FR).
    { intros m t c Lc. destruct (IN m t c Lc) as (n & Sc & Q). destruct (damped_spec (snd c) d n Sc) as (D1 & D2 & D3). apply (Q _ D1 D2 D3). }
    assert (RD : forall m, In m (dkeys L) -> rfits IV L m (rfit_c IV L m) /\ exists e c a, look C m "grad" = Some (e, c) /\ inverse a = Ok (r_iv (rfit_c IV L m)) /\
      let n := prod (r_rest (rfit_c IV L m)) in shape a = [n; n] /\ twf a /\ forall i j, i < n -> j < n -> mget a i j = fadd (mget c i j) (fmul (own_damping c d) (ident i j))).
    { intros m I. destruct (K m I) as (dv & n & rest & g & e & c & G & Sg & Wg & Nz & Lc & Sc). destruct SC as (_ & _ & SI). specialize (SI m "grad"). rewrite Lc in SI. destruct SI as (a & b & Eb & Lb & Sp).
      destruct (Sp (prod rest) Sc) as (Sa & Wa & Ma). unfold rfit_c, rfits. rewrite G, Lb, Sg. cbn [fst snd r_dv r_n r_rest r_g r_e r_iv hd tl]. cbn [fst snd] in *.
      destruct (CT _ a b Sa Wa Eb) as (Sb & Wb & _). split; [repeat (split; [assumption || reflexivity|]); assumption|]. exists e, c, a. split; [exact Lc|]. split; [exact Eb|]. auto. }
    exists s', (plog (map (fun m => (m, rresult (rfit_c IV L m))) (dkeys L))). split; [|split; [eapply inv_cached_ready; exact SC|split; [|split; [exact FR|split]]]].
    - apply (prec_raw eigh inverse ids s s' C L d h); [apply R| |exact PK|].
      + intros m I. destruct (K m I) as (dv & n & rest & g & e & c & _ & _ & _ & _ & Lc & _). eapply look_in. exact Lc.
      + apply (raw_plain inverse s s' IV L (rfit_c IV L) d E N). intros m I. apply RD. exact I.
    - rewrite plog_keys, map_map. apply map_id.
    - intros m t Nt. apply plog_other. exact Nt.
    - intros m dv g [e c] G Lc. assert (I : In m (dkeys L)) by (eapply look_in; exact G). destruct (RD m I) as (RF & e' & c' & a & Lc' & Ea & Sa & Wa & Ma). rewrite Lc in Lc'. injection Lc' as <- <-.
      unfold grad_of. rewrite plog_look, (dget_keymap (fun m => rresult (rfit_c IV L m)) _ m I). destruct RF as (G' & Sg & Wg & Nz & Ei & Si). rewrite G in G'. injection G' as G1 G2. set (r := rfit_c IV L m) in *.
      unfold rresult. rewrite <- G1. eexists. split; [reflexivity|]. subst g. exists (r_n r), (r_rest r). split; [exact Sg|]. split; [reflexivity|]. split.
      + unfold twf. cbn [shape data]. pose proof (tgen_wf [r_n r; prod (r_rest r)] (fun idx => sum (prod (r_rest r)) (fun p => fmul (mget (T [r_n r; prod (r_rest r)] (data (r_g r))) (nth 0 idx 0) p) (mget (r_iv r) p (nth 1 idx 0))))) as W.
        unfold twf in W. unfold mgen. rewrite W, shape_tgen, (prod_cons (r_n r) (r_rest r)). change (prod [r_n r; prod (r_rest r)]) with (r_n r * (prod (r_rest r) * 1)). lia.
      + intros k j Lk Lj. destruct (CT _ a _ Sa Wa Ea) as (Sb & Wb & IO). set (n := prod (r_rest r)) in *. cbn [snd].
        transitivity (mm n (mm n (fun i p => mget (T [r_n r; n] (data (r_g r))) i p) (mget (r_iv r))) (mget a) k j).
        * unfold mm at 1. apply sum_ext. intros q Lq. unfold n at 1. unfold n in Lq. rewrite (rresult_row (r_n r) (r_rest r) (r_g r)) by assumption. rewrite (Ma q j Lq Lj). reflexivity.
        * rewrite (inv_solve (r_n r) n _ (mget a) (mget (r_iv r))); [| |exact Lk|exact Lj].
          -- rewrite (nth_slice_t (r_n r) (r_rest r)) by assumption. unfold mget, tget. cbn [shape data]. f_equal. cbn. lia.
          -- intros i j' Li Lj'. unfold mm, idm. apply (IO i j' Li Lj').
  Qed.

  (** C47 *)
  Theorem raw_damping_ignored ids s C L d1 s1 r : holds s "covariance_state" C -> covered C L ->
    precondition (ids, Nest (log_nd L)) d1 "raw" s = (s1, Ok r) ->
    forall s2 C2 d2, dget "covariance_inverse_state" (attrs s2) = dget "covariance_inverse_state" (attrs s1) -> holds s2 "covariance_state" C2 -> covered C2 L ->
      precondition (ids, Nest (log_nd L)) d2 "raw" s2 = (s2, Ok r).
  Proof.
    intros (HC & _) CV E s2 C2 d2 SI H2 CV2. unfold ModelInfluence.precondition in E. change (mem "raw" ["auto"; "kfac"; "raw"]) with true in E. change (String.eqb "raw" "raw") with true in E.
    cbv [sbind lift attr sret] in E. cbn [fst snd] in E. rewrite HC in E. rewrite !log_nd_keys, (covered_forallb C L CV) in E.
    destruct (ModelInfluence.precondition_raw inverse (log_nd L) d1 s) as [s' [p|e]] eqn:EP; [|discriminate E]. injection E as <- <-.
    apply (prec_raw eigh inverse ids s2 s2 C2 L d2 "raw"); [exact H2|exact CV2|left; reflexivity|].
    unfold ModelInfluence.precondition_raw in EP |- *. apply sbind_ok in EP. destruct EP as (sa & ci & Eg & EP).
    cbv [sbind lift] in EP. rewrite log_nd_keys in EP. injection EP as <- EP.
    assert (A : dget "covariance_inverse_state" (attrs sa) = Some ci).
    { unfold get_covariance_inverse_state in Eg. apply sbind_ok in Eg. destruct Eg as (x1 & x2 & _ & Eg). apply sbind_ok in Eg. destruct Eg as (x3 & x4 & _ & Eg). unfold attr in Eg.
      injection Eg as -> Eg. destruct (dget "covariance_inverse_state" (attrs sa)); [congruence|discriminate Eg]. }
    rewrite (sbind_run _ _ s2 s2 ci).
    - cbv [sbind lift]. rewrite log_nd_keys, EP. reflexivity.
    - unfold get_covariance_inverse_state. cbv [sbind sget]. rewrite (hasattr_some s2 _ ci) by congruence. cbv [sret attr]. rewrite SI, A. reflexivity.
  Qed.
  Lemma calls_keep_inverse cs (s : lstate) : dget "covariance_inverse_state" (attrs (fst (run_calls cs s))) = dget "covariance_inverse_state" (attrs s).
  Proof. apply (frames_run "covariance_inverse_state"). intros [|]; split; discriminate. Qed.
End Proofs.
