(** Calls whose preconditioner changes from call to call. *)
From Coq Require Import Lia.
From Verif Require Import Py PyStr Field Tensor ModelGrad Monad ModelState ModelInfluence SpecGrad SpecState SpecInfluence SpecRows SpecDrift GradProofs1 GradProofs2 StateProofs1 InfProofs1 InfProofs2 InfProofs3 InfProofs4 InfProofs5 InfProofs6 InfProofs7 InfProofs8 InfProofs10 InfProofs12 InfProofs13 InfProofs14 InfProofs15 InfProofs16 InfProofs17 InfProofs18 InfProofs19.
Local Open Scope string_scope.
Local Open Scope list_scope.
Local Open Scope nat_scope.

Lemma bounded_choice {A} (R : nat -> A -> Prop) (a0 : A) : (forall k, exists x, R k x) -> forall n, exists f, forall k, k < n -> R k (f k).
Proof.
  intros E. induction n as [|n (f & IH)]; [exists (fun _ => a0); lia|]. destruct (E n) as (x & Rx). exists (fun k => if k =? n then x else f k). intros k L.
  destruct (Nat.eqb_spec k n) as [->|N]; [exact Rx|]. apply IH. lia.
Qed.
Lemma step_of_at : forall pre z r i, fold_right Nat.add 0 pre <= i -> i < fold_right Nat.add 0 pre + z -> step_of (pre ++ z :: r) i = length pre.
Proof.
  induction pre as [|y pre IH]; intros z r i L1 L2; cbn [app step_of fold_right length] in *.
  - destruct (Nat.ltb_spec i z); [reflexivity|lia].
  - destruct (Nat.ltb_spec i y); [lia|]. rewrite IH by lia. reflexivity.
Qed.

Section Proofs.
  Context {F : Type} `{OField F}.
  Notation tensor := (tensor F).
  Notation lstate := (@lstate F).
  Notation dten := (@dten F).
  Notation tlog := (@tlog F).
  Notation ifn := (@ifn F).
  Notation infres := (@infres F).
  Variable eigh : tensor -> res (tensor * tensor).
  Variable inverse : tensor -> res tensor.
  Variable fsqrt : F -> F.
  Notation precondition := (precondition eigh inverse).
  Notation influence_all := (influence_all eigh inverse fsqrt).
  Notation call_value := (call_value eigh inverse fsqrt).
  Notation calls_all := (calls_all eigh inverse fsqrt).
  Notation after := (after eigh inverse).

  (** rows *)
  Lemma rows_ext off z : forall (t u : tensor), shape t = shape u -> (forall i, i < z -> slice t (off + i) = slice u (off + i)) -> rows off z t = rows off z u.
  Proof.
    intros t u S E. unfold rows. rewrite <- S. f_equal. set (w := prod (tl (shape t))).
    assert (G : forall z off, (forall i, i < z -> firstn w (skipn ((off + i) * w) (data t)) = firstn w (skipn ((off + i) * w) (data u))) -> firstn (z * w) (skipn (off * w) (data t)) = firstn (z * w) (skipn (off * w) (data u))).
    { clear. induction z as [|z IH]; intros off E; [reflexivity|]. cbn [Nat.mul]. rewrite <- !(split_list _ (off * w) w (z * w)).
      f_equal; [rewrite <- (Nat.add_0_r off); apply E; lia|]. replace (off * w + w) with (S off * w) by (cbn [Nat.mul]; lia). apply IH. intros i L. replace (S off + i) with (off + S i) by lia. apply E. lia. }
    apply G. intros i L. specialize (E i L). unfold slice in E. rewrite <- S in E. fold w in E. injection E as E. exact E.
  Qed.

  Section Run.
    Variables (n : nat) (A : tlog) (ids : list string) (loader : list (@glog F)) (mode : string) (prec : bool) (h : string) (groups : option (list string)) (d : option F).
    Variables (st : nat -> lstate) (W : nat -> infres) (R : infres).
    Hypothesis U : uniform n A.
    Hypothesis Ls : length ids = n.
    Hypothesis Sr : i_src R = ids.
    Hypothesis DV : dict_val (i_val R).
    Fixpoint agree (k0 off : nat) (zs : list nat) : Prop :=
      match zs with [] => True | z :: r => rows_of off z (W k0) = rows_of off z R /\ agree (S k0) (off + z) r end.
    Lemma one_call k off z (f : ifn) : off + z <= n -> z <> 0 -> influence_all (ids, Nest (log_nd A)) loader mode prec h groups d (st k) = (st (S k), Ok (Some (W k))) -> rows_of off z (W k) = rows_of off z R -> if_state f = st k ->
      call_value (bcall loader mode prec h groups d (firstn z (skipn off ids), Nest (log_nd (part off z A)))) (if_state f) = (st (S k), Ok (Some (rows_of off z R))).
    Proof.
      intros Lk Nk E EW ES. rewrite ES. unfold SpecInfluence.call_value, bcall. cbn [ic_src ic_loader ic_mode ic_prec ic_hessian ic_groups ic_damping].
      rewrite (all_part eigh inverse fsqrt off z _ Lk Nk A ids loader mode prec h groups d _ _ _ U Ls E). cbn [option_map]. rewrite EW. reflexivity.
    Qed.
    Lemma more_calls : forall zs k off (f : ifn), Forall (fun z => z <> 0) zs -> off + fold_right Nat.add 0 zs = n -> agree k off zs ->
      (forall j, j < k + length zs -> influence_all (ids, Nest (log_nd A)) loader mode prec h groups d (st j) = (st (S j), Ok (Some (W j)))) ->
      saved f (rows_of 0 off R) -> if_state f = st k ->
      exists f' os, calls_all (map (bcall loader mode prec h groups d) (batches off zs ids A)) f = (f', Ok os) /\ if_state f' = st (k + length zs) /\ saved f' (rows_of 0 n R).
    Proof.
      induction zs as [|z zs IH]; intros k off f V Sm AG E SF ES; cbn [batches map SpecInfluence.calls_all fold_right agree length] in *.
      - exists f, []. rewrite Nat.add_0_r in Sm. rewrite Nat.add_0_r. rewrite <- Sm. auto.
      - pose proof (Forall_inv V) as Nz. pose proof (Forall_inv_tail V) as V'. cbv beta in Nz. destruct AG as [A1 A2]. assert (Lz : off + z <= n) by lia. pose proof (one_call k off z f Lz Nz (E k ltac:(lia)) A1 ES) as EC.
        assert (NV : match i_val (rows_of 0 off R) with Mat _ => True | Grp d => NoDup (dkeys d) end). { unfold rows_of. cbn [i_val]. destruct (i_val R) as [t|dd]; cbn [rows_val]; [exact Logic.I|]. destruct DV as (ND & _). unfold dkeys in *. rewrite map_map. exact ND. }
        assert (M : merge_val true (i_val (rows_of 0 off R)) (i_val (rows_of off z R)) = Ok (rows_val 0 (off + z) (i_val R))). { unfold rows_of. cbn [i_val]. apply (rows_val_join 0 off z). destruct (i_val R); [exact Logic.I|]. apply DV. }
        destruct (saved_step eigh inverse fsqrt _ f _ _ _ _ SF EC M NV) as (f1 & o & E1 & ES1 & SF1).
        assert (SF2 : saved f1 (rows_of 0 (off + z) R)). { destruct SF1 as (a & Q1 & Q2 & Q3). exists a. split; [exact Q1|]. split; [exact Q2|]. rewrite Q3. unfold rows_of. cbn [i_src i_tgt i_val]. f_equal. apply (split_list (i_src R) 0 off z). }
        destruct (IH (S k) (off + z) f1 V') as (f' & os & E2 & ES2 & SF3); [lia|exact A2|intros j L; apply E; lia|exact SF2|exact ES1|].
        exists f', (Some o :: os). rewrite (sbind_run _ _ _ _ _ E1), (sbind_run _ _ _ _ _ E2). split; [reflexivity|]. split; [rewrite ES2; f_equal; lia|exact SF3].
    Qed.
    Lemma all_calls zs (f : ifn) : val_ok n (i_val R) -> splits zs n -> agree 0 0 zs ->
      (forall j, j < length zs -> influence_all (ids, Nest (log_nd A)) loader mode prec h groups d (st j) = (st (S j), Ok (Some (W j)))) ->
      if_scores f = None -> if_state f = st 0 ->
      exists f' os, calls_all (map (bcall loader mode prec h groups d) (batches 0 zs ids A)) f = (f', Ok os) /\ if_state f' = st (length zs) /\ saved f' R.
    Proof.
      intros VO (Nz & V & Sm) AG E SN ES. destruct zs as [|z zs]; [congruence|]. pose proof (Forall_inv V) as Nz'. pose proof (Forall_inv_tail V) as V'. cbv beta in Nz'. cbn [fold_right agree length] in *. destruct AG as [A1 A2].
      assert (Lz : 0 + z <= n) by lia. pose proof (one_call 0 0 z f Lz Nz' (E 0 ltac:(lia)) A1 ES) as EC.
      destruct (saved_first eigh inverse fsqrt _ f _ _ SN EC) as (f1 & o & E2 & ES1 & SF).
      destruct (more_calls zs 1 z f1 V' Sm A2) as (f' & os & E3 & ES3 & SF3); [intros j L; apply E; lia|exact SF|exact ES1|].
      exists f', (Some o :: os). cbn [batches map SpecInfluence.calls_all]. rewrite (sbind_run _ _ _ _ _ E2). rewrite Nat.add_0_l. rewrite (sbind_run _ _ _ _ _ E3). split; [reflexivity|]. split; [exact ES3|].
      replace R with (rows_of 0 n R); [exact SF3|]. unfold rows_of. rewrite (rows_val_id _ _ VO). cbn [skipn]. rewrite Sr, <- Ls, firstn_all, <- Sr. destruct R; reflexivity.
    Qed.
  End Run.
End Proofs.
