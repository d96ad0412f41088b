(** Preconditioning solves the damped systems; repeated calls; default damping. *)
From Verif Require Import Py PyStr Field Tensor ModelGrad Monad ModelState ModelInfluence SpecGrad SpecState SpecInfluence GradProofs1 GradProofs2 StateProofs1 StateProofs3 StateProofs7 InfAlg InfProofs1 InfProofs2 InfProofs3 InfProofs4.
Local Open Scope string_scope.
Local Open Scope list_scope.
Local Open Scope nat_scope.

Section Proofs.
  Context {F : Type} `{OField F}.
  Add Field FfI5 : f_theory.
  Notation tensor := (tensor F).
  Notation sval := (@sval F).
  Notation lstate := (@lstate F).
  Notation dten := (@dten F).
  Notation tlog := (@tlog F).
  Notation kfit := (@kfit F).
  Notation rfit := (@rfit F).
  Variable eigh : tensor -> res (tensor * tensor).
  Variable inverse : tensor -> res tensor.
  Notation precondition := (precondition eigh inverse).

  (** the data KFAC works with, straight from the covariances and the log *)
  Definition kfit_c (C L : tlog) (m : string) : kfit :=
    match grad_of L m, look C m "forward", look C m "backward" with
    | Some (dv, g), Some (e, cf), Some (_, cb) =>
        match eigh cf, eigh cb with
        | Ok (wf, vf), Ok (wb, vb) => KFit dv (nth 0 (shape g) 0) (nth 1 (shape g) 0) (nth 2 (shape g) 0) g e wf vf wb vb
        | _, _ => KFit Cpu 0 0 0 (T [] []) Cpu (T [] []) (T [] []) (T [] []) (T [] [])
        end
    | _, _, _ => KFit Cpu 0 0 0 (T [] []) Cpu (T [] []) (T [] []) (T [] []) (T [] [])
    end.
  Notation solvable := (solvable eigh).
  (** everything known about a module *)
  Definition kfull (C L : tlog) (m : string) : Prop :=
    let k := kfit_c C L m in exists cf cb,
      grad_of L m = Some (k_dv k, k_g k) /\ shape (k_g k) = [k_n k; k_a k; k_b k] /\ twf (k_g k) /\
      look C m "forward" = Some (k_e k, cf) /\ look C m "backward" = Some (k_e k, cb) /\
      eigen (k_b k) cf (k_wf k) (k_vf k) /\ eigen (k_a k) cb (k_wb k) (k_vb k) /\ psd (k_b k) cf /\ psd (k_a k) cb /\ eigh cf = Ok (k_wf k, k_vf k) /\ eigh cb = Ok (k_wb k, k_vb k).
  Lemma kfull_ok C L m : eigh_contract eigh -> solvable C -> kfac_data C L m -> kfull C L m.
  Proof.
    intros EC SO (dv & n & a & b & g & e & cf & cb & G & Sg & Wg & Lf & Lb & Yf & Pf & Yb & Pb).
    destruct (SO _ _ _ Lf) as ((wf & vf) & Ef). destruct (SO _ _ _ Lb) as ((wb & vb) & Eb). cbn [snd] in Ef, Eb.
    unfold kfull, kfit_c. rewrite G, Lf, Lb, Ef, Eb, Sg. cbn [nth]. exists cf, cb. cbn [k_dv k_g k_n k_a k_b k_e k_wf k_vf k_wb k_vb].
    repeat (split; [assumption || reflexivity || (eapply EC; eassumption)|]). assumption.
  Qed.
  Lemma kfull_fits C EV EC L m : decomposed eigh C EV EC -> kfull C L m -> kfits EV EC L m (kfit_c C L m).
  Proof.
    intros D K. unfold kfull in K. cbv zeta in K. set (k := kfit_c C L m) in *. destruct K as (cf & cb & G & Sg & Wg & Lf & Lb & If & Ib & Pf & Pb & Ef & Eb).
    pose proof (D m "forward") as Df. rewrite Lf in Df. destruct Df as (w1 & v1 & Q1 & Q2 & Q3). cbn [snd fst] in *. rewrite Ef in Q1. injection Q1 as <- <-.
    pose proof (D m "backward") as Db. rewrite Lb in Db. destruct Db as (w2 & v2 & R1 & R2 & R3). cbn [snd fst] in *. rewrite Eb in R1. injection R1 as <- <-.
    destruct If as (I1 & I2 & _). destruct Ib as (J1 & J2 & _). unfold kfits. repeat (split; [assumption|]). assumption.
  Qed.
  Definition kpre (C L : tlog) (l : F) : tlog := plog (map (fun m => (m, kresult l (kfit_c C L m))) (dkeys L)).
  (** the damping a call uses *)
  Definition kused (C L : tlog) (d : option F) : F :=
    match d, dkeys L with Some x, _ => x | None, m :: _ => kdamp (kfit_c C L m) None | None, [] => f0 end.
  Lemma data_covered C L : (forall m, In m (dkeys L) -> kfac_data C L m) -> covered C L.
  Proof.
    intros K m I. destruct (K m I) as (dv & n & a & b & g & e & cf & cb & _ & _ & _ & Lf & _). unfold look in Lf. destruct (dget m C) as [x|] eqn:E; [|discriminate Lf]. apply dget_In_keys. eauto.
  Qed.
  Theorem prec_kfac_ok ids s C L d h : eigh_contract eigh -> kfac_ready eigh s C -> solvable C -> NoDup (dkeys L) -> picks_kfac h C L ->
    (forall m, In m (dkeys L) -> kfac_data C L m) ->
    exists s' EV EC, precondition (ids, Nest (log_nd L)) d h s = (s', Ok (ids, Nest (log_nd (kpre C L (kused C L d))))) /\ svd_cached eigh s' C EV EC /\
      (svd_cached eigh s C EV EC -> s' = s) /\
      (forall n, n <> "covariance_eigval_state" -> n <> "covariance_eigvec_state" -> dget n (attrs s') = dget n (attrs s)).
  Proof.
    intros CT R SO N PK K. destruct (ready_get_total eigh s C R SO) as (s' & vw & E). destruct (ready_get eigh s C s' vw R E) as (EV & EC & -> & SC & FR). exists s', EV, EC. split; [|split; [exact SC|split; [|exact FR]]].
    - apply (prec_kfac eigh inverse ids s s' C L d h); [apply R|apply data_covered; exact K|exact PK|].
      rewrite (kfac_plain eigh s s' C EV EC L (kfit_c C L) d R E N); [unfold kpre, kused; reflexivity|].
      intros m I. apply kfull_fits; [apply SC|]. apply kfull_ok; auto.
    - intros SC0. rewrite (cached_get eigh s C EV EC SC0) in E. injection E as <-. reflexivity.
  Qed.
  Lemma kpre_keys C L l : dkeys (kpre C L l) = dkeys L.
  Proof. unfold kpre. rewrite plog_keys, map_map. apply map_id. Qed.
  Lemma kpre_ok C L l : NoDup (dkeys L) -> ok_log (kpre C L l).
  Proof. intros N. apply plog_ok. rewrite map_map. cbn [fst]. rewrite map_id. exact N. Qed.
  Lemma dget_keymap {A} (f : string -> A) l m : In m l -> dget m (map (fun x => (x, f x)) l) = Some (f m).
  Proof.
    induction l as [|x l IH]; [intros []|]. intros I. cbn [map dget]. destruct (eqb_spec m x) as [->|N]; [reflexivity|]. apply IH. destruct I as [->|I]; [contradiction|exact I].
  Qed.
  Lemma kpre_look C L l m : In m (dkeys L) -> look (kpre C L l) m "grad" = Some (kresult l (kfit_c C L m)).
  Proof. intros I. unfold kpre. rewrite plog_look. apply (dget_keymap (fun m => kresult l (kfit_c C L m))). exact I. Qed.
  Lemma look_in (L : tlog) m t x : look L m t = Some x -> In m (dkeys L).
  Proof. unfold look. destruct (dget m L) eqn:E; [|discriminate]. intros _. apply dget_In_keys. eauto. Qed.

  Lemma orth_eigen n c w v : eigen n c w v -> orth n (mget v).
  Proof. intros (_ & _ & _ & _ & A & B & _). split; intros i j Li Lj; unfold mm, tr, idm; [apply A|apply B]; assumption. Qed.
  Lemma eigen_form n c w v : eigen n c w v -> meq n n (mget c) (mm n (mget v) (mm n (dg (fun i => tget w [i])) (tr (mget v)))).
  Proof.
    intros (_ & _ & _ & _ & _ & _ & D) i j Li Lj. rewrite D by assumption. unfold mm at 1. apply sum_ext. intros p Lp. f_equal. rewrite (mm_dg_l n n (fun i => tget w [i]) (tr (mget v)) p j Lp Lj). reflexivity.
  Qed.
  Lemma tmap_mget (f : F -> F) (t : tensor) n m i j : twf t -> shape t = [n; m] -> i < n -> j < m -> mget (tmap f t) i j = f (mget t i j).
  Proof. intros W S Li Lj. unfold mget. apply tget_tmap; [exact W|]. rewrite S. apply valid2; assumption. Qed.
  Lemma kresult_entry C L m l i j : kfull C L m -> let k := kfit_c C L m in i < k_a k -> j < k_b k ->
    mget (tmap (fun e => fadd e l) (kouter k)) i j = fadd (fmul (tget (k_wb k) [i]) (tget (k_wf k) [j])) l.
  Proof.
    intros K k Li Lj. rewrite (tmap_mget _ (kouter k) (k_a k) (k_b k)); try assumption; try reflexivity; [|apply tgen_wf]. unfold kouter. rewrite mget_mgen by assumption. reflexivity.
  Qed.
  Lemma kfull_eig C L m : kfull C L m -> let k := kfit_c C L m in
    orth (k_a k) (mget (k_vb k)) /\ orth (k_b k) (mget (k_vf k)) /\
    (forall i, i < k_a k -> fle f0 (tget (k_wb k) [i])) /\ (forall j, j < k_b k -> fle f0 (tget (k_wf k) [j])).
  Proof.
    intros (cf & cb & G & Sg & Wg & Lf & Lb & If & Ib & Pf & Pb & _) k. split; [eapply orth_eigen; exact Ib|]. split; [eapply orth_eigen; exact If|]. split.
    - exact (psd_eig (k_a k) (mget cb) (mget (k_vb k)) _ (orth_eigen _ _ _ _ Ib) (eigen_form _ _ _ _ Ib) Pb).
    - exact (psd_eig (k_b k) (mget cf) (mget (k_vf k)) _ (orth_eigen _ _ _ _ If) (eigen_form _ _ _ _ If) Pf).
  Qed.
  Lemma pos_neq (a b d : F) : fle f0 a -> fle f0 b -> fle f0 d -> d <> f0 -> fle f0 (fadd (fmul a b) d) /\ fadd (fmul a b) d <> f0.
  Proof.
    intros A B D N. assert (fle f0 (fmul a b)) by (apply fle_mul; assumption). split; [apply fadd_nonneg; assumption|apply fadd_pos_neq; assumption].
  Qed.
  Theorem kpre_solves C L m l : kfull C L m -> fle f0 l -> l <> f0 ->
    exists cf cb, look C m "forward" = Some cf /\ look C m "backward" = Some cb /\ grad_of L m = Some (k_dv (kfit_c C L m), k_g (kfit_c C L m)) /\
      kron_solution l (snd cb) (snd cf) (snd (kresult l (kfit_c C L m))) (k_g (kfit_c C L m)).
  Proof.
    intros K P N. pose proof (kfull_eig C L m K) as (Ob & Of & Wb & Wf). cbv zeta in Ob, Of, Wb, Wf. pose proof (kresult_entry C L m l) as KE.
    pose proof K as (cf & cb & G & Sg & Wg & Lf & Lb & If & Ib & Pf & Pb & Ef & Eb). set (k := kfit_c C L m) in *.
    exists (k_e k, cf), (k_e k, cb). split; [exact Lf|]. split; [exact Lb|]. split; [exact G|]. exists (k_n k), (k_a k), (k_b k). cbn [snd kresult]. split; [exact Sg|]. split; [reflexivity|]. split; [apply core_wf|].
    intros q i j Lq Li Lj. rewrite core_get by assumption.
    pose proof (kron_solve (k_a k) (k_b k) (mget (k_vb k)) (mget (k_vf k)) (mget (tmap (fun e => fadd e l) (kouter k))) (gmat (k_g k) q) (mget cb) (mget cf)
      (fun i => tget (k_wb k) [i]) (fun j => tget (k_wf k) [j]) l Ob Of (eigen_form _ _ _ _ Ib) (eigen_form _ _ _ _ If)) as KS.
    change (tget (k_g k) [q; i; j]) with (gmat (k_g k) q i j). rewrite <- (fun A B => KS A B i j Li Lj).
    - f_equal. unfold mm at 1. apply sum_ext. intros r Lr. f_equal. unfold mm at 1. apply sum_ext. intros t Lt. rewrite core_get by assumption. reflexivity.
    - intros i' j' Li' Lj'. apply (KE i' j' K Li' Lj').
    - intros i' j' Li' Lj'. rewrite (KE i' j' K Li' Lj'). apply pos_neq; auto.
  Qed.
  (** C45 *)
  Theorem kfac_solves ids s C L d h : eigh_contract eigh -> kfac_ready eigh s C -> solvable C -> NoDup (dkeys L) -> picks_kfac h C L ->
    (forall m, In m (dkeys L) -> kfac_data C L m) -> fle f0 d -> d <> f0 ->
    exists s' P, precondition (ids, Nest (log_nd L)) (Some d) h s = (s', Ok (ids, Nest (log_nd P))) /\ kfac_ready eigh s' C /\ dkeys P = dkeys L /\
      (forall n, n <> "covariance_eigval_state" -> n <> "covariance_eigvec_state" -> dget n (attrs s') = dget n (attrs s)) /\
      (forall m t, t <> "grad" -> look P m t = None) /\
      forall m dv g cf cb, grad_of L m = Some (dv, g) -> look C m "forward" = Some cf -> look C m "backward" = Some cb ->
        exists p, grad_of P m = Some (dv, p) /\ kron_solution d (snd cb) (snd cf) p g.
  Proof.
    intros CT R SO N PK K P0 Pn. destruct (prec_kfac_ok ids s C L (Some d) h CT R SO N PK K) as (s' & EV & EC & E & SC & _ & FR). exists s', (kpre C L d). split; [exact E|].
    split; [eapply cached_ready; exact SC|]. split; [apply kpre_keys|]. split; [exact FR|]. split; [intros m t Nt; apply plog_other; exact Nt|].
    intros m dv g cf cb G Lf Lb. assert (I : In m (dkeys L)) by (eapply look_in; exact G). destruct (kpre_solves C L m d (kfull_ok C L m CT SO (K m I)) P0 Pn) as (cf' & cb' & Lf' & Lb' & G' & KS).
    rewrite G in G'. rewrite Lf in Lf'. rewrite Lb in Lb'. injection Lf' as <-. injection Lb' as <-. injection G' as G1 G2. subst dv g. eexists. split; [|exact KS]. unfold grad_of. rewrite kpre_look by exact I. reflexivity.
  Qed.

  (** C46: the default damping *)
  Lemma eigen_trace n c w v : eigen n c w v -> sum n (fun i => mget c i i) = sum n (fun p => tget w [p]).
  Proof.
    intros (_ & _ & _ & _ & A & _ & D). rewrite (sum_ext n _ (fun i => sum n (fun p => fmul (mget v i p) (fmul (tget w [p]) (mget v i p))))) by (intros i Li; apply D; assumption).
    rewrite sum_swap. apply sum_ext. intros p Lp. rewrite (sum_ext n _ (fun i => fmul (tget w [p]) (fmul (mget v i p) (mget v i p)))) by (intros; ring). rewrite sum_mul_l. rewrite (A p p Lp Lp), Nat.eqb_refl. ring.
  Qed.
  Lemma tsum_mgen n m (f : nat -> nat -> F) : tsum (mgen n m f) = sum n (fun i => sum m (fun j => f i j)).
  Proof.
    unfold tsum. rewrite lsum_sum. assert (L : length (data (mgen n m f)) = n * m). { pose proof (tgen_wf [n; m] (fun idx => f (nth 0 idx 0) (nth 1 idx 0))) as W. unfold twf in W. unfold mgen. rewrite W. rewrite shape_tgen. change (prod [n; m]) with (n * (m * 1)). lia. }
    rewrite L, sum_mul. apply sum_ext. intros i Li. apply sum_ext. intros j Lj. rewrite <- (mget_mgen n m f i j Li Lj). unfold mget, tget. rewrite shape_mgen. f_equal. cbn. lia.
  Qed.
  Lemma kdamp_default C L m : kfull C L m -> let k := kfit_c C L m in k_a k <> 0 -> k_b k <> 0 ->
    exists cf cb, look C m "forward" = Some (k_e k, cf) /\ look C m "backward" = Some (k_e k, cb) /\
      kdamp k None = fmul (fdiv f1 (fnat 10)) (fmul (fdiv (sum (k_a k) (fun i => mget cb i i)) (fnat (k_a k))) (fdiv (sum (k_b k) (fun i => mget cf i i)) (fnat (k_b k)))).
  Proof.
    intros (cf & cb & G & Sg & Wg & Lf & Lb & If & Ib & Pf & Pb & Ef & Eb) k Na Nb. exists cf, cb. split; [exact Lf|]. split; [exact Lb|].
    unfold kdamp, tenth, tmean, kouter. fold k in If, Ib. rewrite tsum_mgen. unfold numel. rewrite shape_mgen. change (prod [k_a k; k_b k]) with (k_a k * (k_b k * 1)). rewrite Nat.mul_1_r, fnat_mul.
    rewrite (eigen_trace _ _ _ _ If), (eigen_trace _ _ _ _ Ib).
    rewrite (sum_ext (k_a k) _ (fun i => fmul (tget (k_wb k) [i]) (sum (k_b k) (fun j => tget (k_wf k) [j])))) by (intros; apply sum_mul_l). rewrite sum_mul_r.
    pose proof (fnat_neq_0 _ Na). pose proof (fnat_neq_0 _ Nb). pose proof (fnat_neq_0 10 ltac:(discriminate)). field. auto.
  Qed.
End Proofs.
