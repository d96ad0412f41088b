(** Whole runs with corrected eigenvalues: the state after the second finalize. *)
From Coq Require Import ZArith Permutation Lia.
From Verif Require Import Py PyStr Field Tensor ModelGrad Monad ModelState SpecGrad SpecState SpecLogger SpecInfluence SpecWhole SpecEkfac StateProofs1 StateProofs3 StateProofs4 StateProofs5 StateProofs7 GradProofs1 LogProofs9 WholeProofs3.
Local Open Scope string_scope.
Local Open Scope list_scope.
Local Open Scope nat_scope.

Section P.
  Context {F : Type} `{OField F}.
  Add Field ek1field : f_theory.
  Notation tensor := (tensor F).
  Notation dten := (@dten F).
  Notation lstate := (@lstate F).
  Notation tlog := (@tlog F).

  Lemma get2_log (C : tlog) m t : get2 (log_nd C) m t = option_map VT (look C m t).
  Proof.
    unfold get2, sub, log_nd, look. rewrite (dget_vmap (fun e : dict string dten => Node (map (fun q => (fst q, Leaf (VT (snd q)))) e))). destruct (dget m C) as [e|]; [|reflexivity]. cbn [option_map get1].
    rewrite (dget_vmap (fun x : dten => Leaf (VT x))). destruct (dget t e); reflexivity.
  Qed.
  Lemma get1_leaves (E : dict string dten) m : get1 (Node (map (fun q => (fst q, Leaf (VT (snd q)))) E)) m = option_map (@VT F) (dget m E).
  Proof. cbn [get1]. rewrite (dget_vmap (fun x : dten => Leaf (VT x))). destruct (dget m E); reflexivity. Qed.
  Lemma pristine_inv5 (s : lstate) : pristine s -> inv5 s.
  Proof. intros P. pose proof (pristine_hist s P) as HI. destruct P as (R & K & _). split; [exact R|]. split; [exact K|]. eapply hist_rebase. exact HI. Qed.
  Lemma as_mgen (x : tensor) i j f : twf x -> shape x = [i; j] -> (forall a c, a < i -> c < j -> mget x a c = f a c) -> x = mgen i j f.
  Proof.
    intros W S V. apply tensor_ext; [exact W|apply tgen_wf|exact S|]. intros idx Hi. rewrite S in Hi.
    inversion Hi as [|a ? l ? La Hi1]; subst. inversion Hi1 as [|c ? l' ? Lc Hi2]; subst. inversion Hi2; subst. pose proof (mget_mgen i j f a c La Lc) as Q. unfold mget in Q. rewrite Q. apply V; assumption.
  Qed.

  Definition on_module (m : string) (es : list (@ecall F)) := filter (fun e => String.eqb (e_m e) m) es.
  Lemma ekfac_struct (eigh : tensor -> res (tensor * tensor)) dk (s : lstate) e0 es0 s1 : inv5 s -> Forall grad_wf (e0 :: es0) -> run_ecalls eigh (e0 :: es0) s = (s1, Ok tt) ->
    exists s2 dk2 C EC E, finalize dk s1 = (s2, Ok dk2) /\ ekfac_state s2 C EC E /\
      (forall m t, option_map VT (look C m t) = divide (lookup2 s "covariance_state" m t) (lookup2 s "covariance_counter" m t)) /\
      (forall m t, match lookup2 s "covariance_state" m t with
                   | Some (VT d) => exists w v, eigh (snd d) = Ok (w, v) /\ look EC m t = Some (fst d, v)
                   | _ => look EC m t = None
                   end) /\
      (forall m, on_module m (e0 :: es0) = [] -> dget m E = None) /\
      (forall m, on_module m (e0 :: es0) <> [] -> exists dv df db u v k l i j, look EC m "forward" = Some (df, v) /\ look EC m "backward" = Some (db, u) /\ shape u = [k; i] /\ shape v = [l; j] /\
         Forall (fun g => shape g = [k; l]) (grads_for m (e0 :: es0)) /\
         dget m E = Some (dv, mgen i j (fun a c => fdiv (lsum (map (fun g => fmul (project u v a c g) (project u v a c g)) (grads_for m (e0 :: es0)))) (fnat (length (grads_for m (e0 :: es0))))))).
  Proof.
    intros I W E. destruct (ekfac_full eigh dk s e0 es0 s1 I W E) as (s2 & dk2 & ev & ec & X & Ef & Gv & Gc & Tc & V & (y & c & y' & Ey & Ec & P & Ny & Gy) & GX & FX & K).
    destruct (normalize_two y c P) as (y2 & Ny2 & Ty & Dy). rewrite Ny in Ny2. injection Ny2 as <-.
    destruct (two_log y' Ty) as (Q1 & O1). { intros m t. rewrite Dy. destruct (get2 y m t) as [[[]| | |]|]; try exact Logic.I. destruct (get2 c m t) as [[| | |]|]; exact Logic.I. }
    destruct (two_log ec Tc) as (Q2 & O2). { intros m t. specialize (V m t). destruct (lookup2 s "covariance_state" m t) as [[d| | |]|]; [destruct V as (v & w & _ & _ & ->); exact Logic.I| | | |]; destruct V as [_ ->]; exact Logic.I. }
    destruct (flat_log X FX) as (Q3 & N3). { intros m. specialize (K m). cbv zeta in K. destruct K as [(_ & ->)|(dv & x & ? & ? & ? & ? & ? & ? & ? & ? & _ & -> & _)]; exact Logic.I. }
    exists s2, dk2, (to_log y'), (to_log ec), (inner X). split; [exact Ef|].
    assert (L2 : forall m t, get2 ec m t = option_map VT (look (to_log ec) m t)) by (intros m t; rewrite Q2 at 1; apply get2_log).
    assert (L3 : forall m, get1 X m = option_map VT (dget m (inner X))) by (intros m; rewrite Q3 at 1; apply get1_leaves).
    split. { split; [split; [rewrite <- Q1; exact Gy|exact O1]|]. split; [split; [rewrite <- Q2; exact Gc|exact O2]|]. split; [rewrite Gv; discriminate|]. split; [rewrite <- Q3; exact GX|exact N3]. }
    split. { intros m t. rewrite <- get2_log, <- Q1, Dy, (lookup2_get2 s _ y m t Ey), (lookup2_get2 s _ c m t Ec). reflexivity. }
    split. { intros m t. specialize (V m t). destruct (lookup2 s "covariance_state" m t) as [[d| | |]|].
      - destruct V as (v & w & V1 & _ & V2). exists v, w. split; [exact V1|]. rewrite L2 in V2. destruct (look (to_log ec) m t); [injection V2 as ->; reflexivity|discriminate V2].
      - destruct V as [_ V]. rewrite L2 in V. destruct (look (to_log ec) m t); [discriminate V|reflexivity].
      - destruct V as [_ V]. rewrite L2 in V. destruct (look (to_log ec) m t); [discriminate V|reflexivity].
      - destruct V as [_ V]. rewrite L2 in V. destruct (look (to_log ec) m t); [discriminate V|reflexivity].
      - destruct V as [_ V]. rewrite L2 in V. destruct (look (to_log ec) m t); [discriminate V|reflexivity]. }
    split.
    - intros m N. specialize (K m). cbv zeta in K. destruct K as [(_ & K)|(? & ? & ? & ? & ? & ? & ? & ? & ? & ? & Q & _)]; [|contradiction]. rewrite L3 in K. destruct (dget m (inner X)); [discriminate K|reflexivity].
    - intros m N. specialize (K m). cbv zeta in K. destruct K as [(Q & _)|(dv & x & db & df & u & v & i & j & k & l & _ & K1 & W0 & S0 & Gf & Gb & Su & Sv & Gr & V0)]; [contradiction|].
      rewrite L2 in Gf, Gb. rewrite L3 in K1. destruct (look (to_log ec) m "forward") as [f|]; [|discriminate Gf]. destruct (look (to_log ec) m "backward") as [b|]; [|discriminate Gb]. destruct (dget m (inner X)) as [z|] eqn:Dz; [|discriminate K1].
      injection Gf as ->. injection Gb as ->. injection K1 as ->. exists dv, df, db, u, v, k, l, i, j. repeat (split; [reflexivity || assumption|]). rewrite (as_mgen x i j _ W0 S0 V0). reflexivity.
  Qed.
End P.
