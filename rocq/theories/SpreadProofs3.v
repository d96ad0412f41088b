(** KFAC preconditioning of gradients with dimensions of size one. *)
From Verif Require Import Py PyStr Field Tensor ModelGrad Monad ModelState ModelInfluence SpecGrad SpecState SpecInfluence SpecSpread GradProofs1 GradProofs2 StateProofs1 StateProofs3 InfProofs1 InfProofs3 InfProofs4 InfProofs5 SpreadProofs1.
Local Open Scope string_scope.
Local Open Scope list_scope.
Local Open Scope nat_scope.

Section Proofs.
  Context {F : Type} `{OField F}.
  Add Field FfSp3 : f_theory.
  Notation tensor := (tensor F).
  Notation lstate := (@lstate F).
  Notation dten := (@dten F).
  Notation tlog := (@tlog F).
  Variable eigh : tensor -> res (tensor * tensor).
  Variable inverse : tensor -> res tensor.
  Notation precondition := (precondition eigh inverse).

  Lemma esize_meets a a' : meets a' a -> esize a a' = Ok (joint a a') /\ esize a' a = Ok (joint a a').
  Proof. unfold meets, esize, joint. intros M. destruct (Nat.eqb_spec a a'), (Nat.eqb_spec a 1), (Nat.eqb_spec a' 1), (Nat.eqb_spec a' a); split; try reflexivity; try lia; f_equal; lia. Qed.
  Lemma line_sum a a' (f h : nat -> F) : meets a' a -> sum (joint a a') (fun p => fmul (f (at1 a p)) (h (at1 a' p))) = sum a (fun p => fmul (f p) (lsum (map h (lines a' a p)))).
  Proof.
    intros M. unfold joint, lines. destruct (Nat.eqb_spec a 1) as [->|N].
    - transitivity (fmul (f 0) (sum a' h)).
      + rewrite <- sum_mul_l. apply sum_ext. intros p Lp. unfold at1 at 1. cbn [Nat.eqb]. rewrite at1_in by exact Lp. reflexivity.
      + cbn [sum]. rewrite lsum_seq. ring.
    - apply sum_ext. intros p Lp. rewrite at1_in by exact Lp. cbn [map]. unfold lsum. cbn [fold_right]. rewrite at1_spot. ring.
  Qed.
  Lemma lsum_lines (l : list nat) b (w : nat -> nat -> F) (v : nat -> F) :
    lsum (map (fun r => sum b (fun q => fmul (w r q) (v q))) l) = sum b (fun q => fmul (lsum (map (fun r => w r q) l)) (v q)).
  Proof.
    induction l as [|r l IH].
    - unfold lsum. cbn [map fold_right]. symmetry. transitivity (sum b (fun _ => f0)); [apply sum_ext; intros; ring|apply sum_0].
    - cbn [map]. unfold lsum in *. cbn [fold_right]. rewrite IH, <- sum_add. apply sum_ext. intros q _. ring.
  Qed.
  Lemma sandwich_fitted (u g v : tensor) n a b a' b' : shape u = [a; a] -> shape v = [b; b] -> shape g = [n; a'; b'] -> meets a' a -> meets b' b ->
    sandwich u g v = sandwich u (fitted a b g) v.
  Proof.
    intros Su Sv Sg Ma Mb. unfold fitted. rewrite Sg. rewrite (sandwich_same u (tgen [n; a; b] _) v n a a b b Su eq_refl Sv). unfold sandwich. rewrite Su, Sg, Sv.
    destruct (esize_meets a a' Ma) as (-> & _). destruct (esize_meets b b' Mb) as (_ & ->). cbn [bind]. f_equal. apply tgen_ext. intros idx V. apply valid3_inv in V. destruct V as (k & i & j & -> & Lk & Li & Lj). unfold ix. cbn [nth].
    pose (Hh := fun r => sum b (fun q => fmul (lsum (map (fun w => tget g [k; r; w]) (lines b' b q))) (mget v q j))).
    transitivity (sum (joint a a') (fun p => fmul (mget u i (at1 a p)) (Hh (at1 a' p)))).
    - apply sum_ext. intros p _. f_equal. unfold Hh. transitivity (sum (joint b b') (fun q => fmul (mget v (at1 b q) j) (tget g [k; at1 a' p; at1 b' q]))); [apply sum_ext; intros; ring|].
      rewrite (line_sum b b' (fun q => mget v q j) (fun w => tget g [k; at1 a' p; w]) Mb). apply sum_ext. intros; ring.
    - rewrite (line_sum a a' (fun p => mget u i p) Hh Ma). apply sum_ext. intros p Lp. f_equal. unfold Hh. rewrite lsum_lines. apply sum_ext. intros q Lq. f_equal. rewrite tget_tgen by (apply valid3; assumption). reflexivity.
  Qed.

  Lemma fitted_keys (C L : tlog) : dkeys (fitted_log C L) = dkeys L.
  Proof. unfold fitted_log, dkeys. rewrite map_map. reflexivity. Qed.
  Definition fit_of (C : tlog) (m : string) (x : dten) : dten :=
    match look C m "backward", look C m "forward" with
    | Some cb, Some cf => (fst x, fitted (nth 0 (shape (snd cb)) 0) (nth 0 (shape (snd cf)) 0) (snd x))
    | _, _ => x
    end.
  Lemma dget_map_key {A B} (f : string -> A -> B) (d : dict string A) k : dget k (map (fun p => (fst p, f (fst p) (snd p))) d) = option_map (f k) (dget k d).
  Proof.
    induction d as [|[k' x] d IH]; [reflexivity|]. cbn [map dget fst snd]. destruct (eqb_spec k k') as [->|]; [reflexivity|exact IH].
  Qed.
  Lemma fitted_look (C L : tlog) m t : look (fitted_log C L) m t = option_map (fit_of C m) (look L m t).
  Proof.
    unfold look, fitted_log. rewrite (dget_map_key (fun k (e : dict string dten) => map (fun q : string * dten => (fst q, fit_of C k (snd q))) e)). destruct (dget m L) as [e|]; [|reflexivity]. cbn [option_map]. apply (dget_map (fit_of C m)).
  Qed.
  Lemma kfac_module_fitted evn ec (L L' : tlog) m d s dv g g' bwd fwd n a b a' b' : grad_of L m = Some (dv, g) -> grad_of L' m = Some (dv, g') -> g' = fitted a b g ->
    log_item ec m "forward" = Ok fwd -> log_item ec m "backward" = Ok bwd -> shape (snd bwd) = [a; a] -> shape (snd fwd) = [b; b] -> shape g = [n; a'; b'] -> meets a' a -> meets b' b ->
    kfac_module evn ec (log_nd L) m d s = kfac_module evn ec (log_nd L') m d s.
  Proof.
    intros G G' -> Ef Eb Sb Sf Sg Ma Mb. unfold kfac_module. rewrite !log_item_look. unfold grad_of in G, G'. rewrite G, G', Ef, Eb. cbv [lift sbind]. cbn [fst snd].
    destruct (attr evn s) as [s1 [ev|e]]; [|reflexivity]. destruct (nd_item ev m) as [y|e]; [|reflexivity].
    rewrite (sandwich_fitted (transpose (snd bwd)) g (snd fwd) n a b a' b'); try assumption; [reflexivity|]. unfold transpose. rewrite Sb. reflexivity.
  Qed.
  Theorem kfac_fitted ids (s : lstate) C L d h : eigh_contract eigh -> kfac_ready eigh s C -> solvable eigh C -> picks_kfac h C L -> (forall m, In m (dkeys L) -> kfac_spread C L m) ->
    precondition (ids, Nest (log_nd L)) d h s = precondition (ids, Nest (log_nd (fitted_log C L))) d h s.
  Proof.
    intros CT R SO PK K. assert (CV : covered C L). { intros m I. destruct (K m I) as (dv & n & a & b & a' & b' & g & e & cf & cb & _ & _ & _ & _ & Lf & _). eapply look_in. exact Lf. }
    assert (E : precondition_kfac eigh (log_nd L) d s = precondition_kfac eigh (log_nd (fitted_log C L)) d s).
    { destruct (ready_get_total eigh s C R SO) as (s1 & vw & Eg). destruct (ready_get eigh s C s1 vw R Eg) as (EV & EC & -> & SC & _). unfold precondition_kfac. rewrite !(sbind_run _ _ _ _ _ Eg). cbv [sbind sget lift]. rewrite !log_nd_keys, fitted_keys. cbn [snd].
      match goal with |- kfac_loop ?e _ _ _ _ _ _ = _ => generalize e end. intros evn. destruct SC as (_ & _ & _ & _ & DC).
      assert (X : forall ms, (forall m, In m ms -> In m (dkeys L)) -> forall d0 out s0, kfac_loop evn (log_nd EC) (log_nd L) ms d0 out s0 = kfac_loop evn (log_nd EC) (log_nd (fitted_log C L)) ms d0 out s0).
      { induction ms as [|m ms IH]; intros I d0 out s0; [reflexivity|]. cbn [kfac_loop]. unfold sbind at 1. unfold sbind at 2.
        destruct (K m (I m (or_introl eq_refl))) as (dv & n & a & b & a' & b' & g & e & cf & cb & G & Sg & Ma & Mb & Lf & Lb & Yf & Yb).
        pose proof (DC m "forward") as Df. rewrite Lf in Df. destruct Df as (wf & vf & Qf & _ & Qf'). pose proof (DC m "backward") as Db. rewrite Lb in Db. destruct Db as (wb & vb & Qb & _ & Qb'). cbn [fst snd] in *.
        destruct (CT _ _ _ _ Yf Qf) as (_ & Svf & _). destruct (CT _ _ _ _ Yb Qb) as (_ & Svb & _).
        rewrite (kfac_module_fitted evn (log_nd EC) L (fitted_log C L) m d0 s0 dv g (fitted a b g) (e, vb) (e, vf) n a b a' b'); try assumption; try reflexivity.
        - destruct (kfac_module _ _ _ m d0 s0) as [s2 [pl|x]]; [|reflexivity]. cbv [sbind lift]. destruct (nd_set2 out m "grad" _) as [o|]; [|reflexivity]. apply IH. intros y Iy. apply I. right. exact Iy.
        - unfold grad_of in *. rewrite fitted_look, G. cbn [option_map]. unfold fit_of. rewrite Lb, Lf. destruct Yb as (Sb & _), Yf as (Sf & _). cbn [fst snd]. rewrite Sb, Sf. reflexivity.
        - rewrite log_item_look, Qf'. reflexivity.
        - rewrite log_item_look, Qb'. reflexivity. }
      apply X. auto. }
    destruct R as ((HC & _) & _). unfold ModelInfluence.precondition. destruct PK as [->|(-> & N & A)].
    - change (mem "kfac" ["auto"; "kfac"; "raw"]) with true. change (String.eqb "kfac" "raw") with false. change (String.eqb "kfac" "auto") with false. cbv [sbind lift attr sret]. cbn [snd fst]. rewrite HC. rewrite !log_nd_keys, fitted_keys. rewrite (covered_forallb C L CV). rewrite E. reflexivity.
    - change (mem "auto" ["auto"; "kfac"; "raw"]) with true. change (String.eqb "auto" "raw") with false. change (String.eqb "auto" "auto") with true. cbv [sbind lift attr sret]. cbn [snd fst]. rewrite HC. rewrite !log_nd_keys, fitted_keys. rewrite (covered_forallb C L CV).
      unfold auto_raw in A. destruct L as [|[m e] L]; [congruence|]. cbn [dkeys map fst] in A |- *. pose proof (nd_has_log C m "grad") as Q. destruct (nd_item (log_nd C) m) as [y|]; cbn [bind] in Q; [|discriminate Q].
      injection Q as Q. rewrite Q, A. rewrite E. reflexivity.
  Qed.
End Proofs.
