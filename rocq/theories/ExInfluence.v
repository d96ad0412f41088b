(** Concrete decompositions, logs and states for the influence properties. *)
From Coq Require Import ZArith QArith Qcanon Permutation.
From Verif Require Import Py PyStr Field Tensor ModelGrad Monad ModelState ModelInfluence SpecGrad SpecState SpecInfluence SpecLogs GradProofs1 StateProofs6 StateProofs7 StateProofs11 InfProofs1 InfProofs3 InfProofs5 ExNum ExState.
Local Open Scope string_scope.
Local Open Scope list_scope.
Local Open Scope nat_scope.

(** Eigendecomposition of matrices of size 1 and of matrices of size 2 with eigenvectors (p, -q) and (q, p); inverses of
    matrices of size 1 and 2. They satisfy the contracts. *)
Section Small.
  Context {F : Type} `{OField F}.
  Add Field FfEx : f_theory.
  Variable is0 : F -> bool.
  Hypothesis is0_spec : forall x, is0 x = true <-> x = f0.
  Variables p q : F.
  Hypothesis pq : fadd (fmul p p) (fmul q q) = f1.
  Definition small_eigh (c : tensor F) : res (tensor F * tensor F) :=
    match shape c with
    | [1; 1] => Ok (T [1] [mget c 0 0], T [1; 1] [f1])
    | [2; 2] =>
        let a := mget c 0 0 in let b := mget c 0 1 in let d := mget c 1 1 in
        if is0 (fadd (fmul (fmul p q) (fsub a d)) (fmul (fsub (fmul p p) (fmul q q)) b)) then
          Ok (T [2] [fadd (fsub (fmul (fmul p p) a) (fmul (fadd f1 f1) (fmul (fmul p q) b))) (fmul (fmul q q) d);
                     fadd (fadd (fmul (fmul q q) a) (fmul (fadd f1 f1) (fmul (fmul p q) b))) (fmul (fmul p p) d)],
              T [2; 2] [p; q; fopp q; p])
        else Err RuntimeError
    | _ => Err RuntimeError
    end.
  Definition small_inverse (c : tensor F) : res (tensor F) :=
    match shape c with
    | [1; 1] => if is0 (mget c 0 0) then Err RuntimeError else Ok (T [1; 1] [fdiv f1 (mget c 0 0)])
    | [2; 2] =>
        let a := mget c 0 0 in let b := mget c 0 1 in let e := mget c 1 0 in let d := mget c 1 1 in
        let det := fsub (fmul a d) (fmul b e) in
        if is0 det then Err RuntimeError else Ok (T [2; 2] [fdiv d det; fdiv (fopp b) det; fdiv (fopp e) det; fdiv a det])
    | _ => Err RuntimeError
    end.
  Lemma two (P : nat -> nat -> Prop) : P 0 0 -> P 0 1 -> P 1 0 -> P 1 1 -> forall i j, i < 2 -> j < 2 -> P i j.
  Proof. intros A B C D [|[|i]] [|[|j]] Li Lj; try lia; assumption. Qed.
  Lemma one (P : nat -> nat -> Prop) : P 0 0 -> forall i j, i < 1 -> j < 1 -> P i j.
  Proof. intros A [|i] [|j] Li Lj; try lia; assumption. Qed.
  Lemma small_eigh_contract : eigh_contract small_eigh.
  Proof.
    intros n c w v (Sc & Sy) E. unfold small_eigh in E. rewrite Sc in E. destruct n as [|[|[|n]]]; try discriminate E.
    - injection E as <- <-. repeat split; apply one; unfold mget, tget; cbn; ring.
    - destruct (is0 _) eqn:Z; [|discriminate E]. apply is0_spec in Z. injection E as <- <-.
      pose proof (Sy 1 0 ltac:(lia) ltac:(lia)) as S10. set (a := mget c 0 0) in *. set (b := mget c 0 1) in *. set (d := mget c 1 1) in *.
      set (N := fadd (fmul p p) (fmul q q)) in *.
      match type of Z with ?z = _ => set (zz := z) in * end.
      repeat split.
      + apply two; cbn; rewrite <- ?pq; unfold N; ring.
      + apply two; cbn; rewrite <- ?pq; unfold N; ring.
      + apply two; rewrite ?S10; fold a b d; cbn.
        * transitivity (fsub (fmul a (fmul N N)) (fmul (fmul (fadd f1 f1) (fmul p q)) zz)); [rewrite Z, pq; ring|unfold zz, N; ring].
        * transitivity (fsub (fmul b (fmul N N)) (fmul (fsub (fmul p p) (fmul q q)) zz)); [rewrite Z, pq; ring|unfold zz, N; ring].
        * transitivity (fsub (fmul b (fmul N N)) (fmul (fsub (fmul p p) (fmul q q)) zz)); [rewrite Z, pq; ring|unfold zz, N; ring].
        * transitivity (fadd (fmul d (fmul N N)) (fmul (fmul (fadd f1 f1) (fmul p q)) zz)); [rewrite Z, pq; ring|unfold zz, N; ring].
  Qed.
  Lemma small_inverse_contract : inverse_contract small_inverse.
  Proof.
    intros n c v Sc Wc E. unfold small_inverse in E. rewrite Sc in E. destruct n as [|[|[|n]]]; try discriminate E.
    - destruct (is0 _) eqn:Z; [discriminate E|]. injection E as <-. assert (NZ : mget c 0 0 <> f0) by (intros Q; apply is0_spec in Q; congruence). split; [reflexivity|]. split; [reflexivity|]. intros [|i] [|j] Li Lj; try lia. set (a := mget c 0 0) in *. cbn. fold a. split; field; exact NZ.
    - destruct (is0 _) eqn:Z; [discriminate E|]. injection E as <-. set (a := mget c 0 0) in *. set (b := mget c 0 1) in *. set (e := mget c 1 0) in *. set (d := mget c 1 1) in *.
      assert (NZ : fsub (fmul a d) (fmul b e) <> f0) by (intros Q; apply is0_spec in Q; congruence). split; [reflexivity|]. split; [reflexivity|]. intros [|[|i]] [|[|j]] Li Lj; try lia; cbn; fold a b e d; split; field; exact NZ.
  Qed.
End Small.

Definition q0 (x : Qc) : bool := if Qc_eq_dec x (Q2Qc 0) then true else false.
Lemma q0_spec x : q0 x = true <-> x = f0.
Proof. unfold q0. destruct (Qc_eq_dec x (Q2Qc 0)) as [->|N]; split; intros E; try reflexivity; [discriminate E|]. destruct (N E). Qed.
Definition xeigh : tensor Qc -> res (tensor Qc * tensor Qc) := small_eigh q0 (Q2Qc (3 # 5)) (Q2Qc (4 # 5)).
Definition xinverse : tensor Qc -> res (tensor Qc) := small_inverse q0.
Definition xsqrt (x : Qc) : Qc := x.
Lemma xeigh_ok : eigh_contract xeigh.
Proof. apply small_eigh_contract; [exact q0_spec|]. apply Qc_is_canon. reflexivity. Qed.
Lemma xinverse_ok : inverse_contract xinverse.
Proof. apply small_inverse_contract. exact q0_spec. Qed.

(** reading a nested dictionary as a log *)
Definition to_tlog {F} (n : nd (@sval F)) : @tlog F :=
  match n with
  | Node l => map (fun p => (fst p, match snd p with Node e => flat_map (fun q => match snd q with Leaf (VT x) => [(fst q, x)] | _ => [] end) e | Leaf _ => [] end)) l
  | Leaf _ => []
  end.
Definition is_log {F} (n : nd (@sval F)) : bool :=
  match n with
  | Node l => forallb (fun p => match snd p with Node e => forallb (fun q => match snd q with Leaf (VT _) => true | _ => false end) e | Leaf _ => false end) l
  | Leaf _ => false
  end.
Lemma is_log_ok {F} (n : nd (@sval F)) : is_log n = true -> n = log_nd (to_tlog n).
Proof.
  destruct n as [|l]; [discriminate|]. cbn [is_log to_tlog]. unfold log_nd. intros E. f_equal. rewrite map_map. induction l as [|[k [|e]] l IH]; [reflexivity|discriminate E|]. cbn [forallb snd] in E. apply andb_true_iff in E. destruct E as (E1 & E2).
  cbn [map]. f_equal; [|exact (IH E2)]. cbn [fst snd]. f_equal. f_equal. clear - E1. induction e as [|[t [[]|]] e IH]; try discriminate E1; [reflexivity|]. cbn [forallb snd andb] in E1. cbn [flat_map map fst snd app]. f_equal. exact (IH E1).
Qed.

(** a state with the forward and backward covariances of two layers, as the statistics leave it *)
Definition xcov (m t : string) (x : tensor Qc) : @call Qc := Call SCov ex_b (Some (KLinear 2 1)) m t (Some (Cpu, x)) false.
Definition xcalls : list (@call Qc) :=
  [xcov "fc1" "forward" (zt [2; 2] [3; -4; 8; 6]%Z); xcov "fc1" "backward" (zt [2; 1] [1; 2]%Z);
   xcov "fc2" "forward" (zt [2; 2] [6; -8; 4; 3]%Z); xcov "fc2" "backward" (zt [2; 1] [4; -2]%Z)].
Notation xstate := (fst (fin xcalls)).
Definition xnd (s : @lstate Qc) (a : string) : nd (@sval Qc) := match dget a (attrs s) with Some n => n | None => Node [] end.
Definition xC : @tlog Qc := to_tlog (xnd xstate "covariance_state").
Definition tshow (L : @tlog Qc) := map (fun p => (fst p, map (fun q => (fst q, show (snd (snd q)))) (snd p))) L.
(** one source sample and three training samples *)
Definition xgrad (n : nat) (a b : list Z) : @tlog Qc := [("fc1", [("grad", (Cpu, zt [n; 1; 2] a))]); ("fc2", [("grad", (Cpu, zt [n; 1; 2] b))])].
Definition xA : @tlog Qc := xgrad 1 [1; 2]%Z [0; -1]%Z.
Definition xB : @tlog Qc := xgrad 3 [1; 0; 2; 1; -1; 3]%Z [0; 2; 1; 1; 5; -2]%Z.
Definition xlog (L : @tlog Qc) (ids : list string) : @glog Qc := (ids, Nest (log_nd L)).
Definition vshow (v : @ival Qc) := match v with Mat t => [("", show t)] | Grp d => map (fun q => (fst q, show (snd q))) d end.
Definition rs (r : @lstate Qc * res (@infres Qc)) := match snd r with Ok x => Ok (i_src x, i_tgt x, vshow (i_val x)) | Err e => Err e end.

Lemma has_attr (s : @lstate Qc) a : (match dget a (attrs s) with Some n => is_log n | None => false end) = true -> dget a (attrs s) = Some (log_nd (to_tlog (xnd s a))).
Proof. unfold xnd. destruct (dget a (attrs s)) as [n|]; [|discriminate]. intros E. f_equal. apply is_log_ok. exact E. Qed.
Fixpoint nodup_b (l : list string) : bool := match l with [] => true | x :: r => negb (mem x r) && nodup_b r end.
Lemma nodup_ok l : nodup_b l = true -> NoDup l.
Proof.
  induction l as [|x l IH]; intros E; [constructor|]. cbn [nodup_b] in E. apply andb_true_iff in E. destruct E as (E1 & E2). constructor; [|apply IH; exact E2]. intros I1. apply mem_In in I1. rewrite I1 in E1. discriminate E1.
Qed.
Definition ok_b (L : @tlog Qc) : bool := nodup_b (dkeys L) && forallb (fun p => nodup_b (dkeys (snd p))) L.
Lemma ok_b_ok L : ok_b L = true -> ok_log L.
Proof. intros E. apply andb_true_iff in E. destruct E as (E1 & E2). split; [apply nodup_ok; exact E1|]. rewrite forallb_forall in E2. apply Forall_forall. intros p Ip. apply nodup_ok. apply E2. exact Ip. Qed.
Lemma x_holds : holds xstate "covariance_state" xC.
Proof. split; [apply has_attr; vm_compute; reflexivity|]. apply ok_b_ok. vm_compute. reflexivity. Qed.
(** the entries of a log, one by one *)
Definition items (L : @tlog Qc) : list (string * string * @dten Qc) := concat (map (fun p => map (fun q => (fst p, fst q, snd q)) (snd p)) L).
Lemma look_items L m t x : look L m t = Some x -> In (m, t, x) (items L).
Proof.
  unfold look, items. destruct (dget m L) as [e|] eqn:Dm; [|discriminate]. intros Dt. apply dget_In in Dm. apply dget_In in Dt. apply in_concat. exists (map (fun q => (m, fst q, snd q)) e). split; [apply in_map_iff; exists (m, e); auto|]. apply in_map_iff. exists (t, x). auto.
Qed.
Definition solvable_b (eigh : tensor Qc -> res (tensor Qc * tensor Qc)) (C : @tlog Qc) : bool := forallb (fun x => is_Ok (eigh (snd (snd x)))) (items C).
Lemma solvable_ok eigh C : solvable_b eigh C = true -> solvable eigh C.
Proof. intros E m t x L. apply look_items in L. unfold solvable_b in E. rewrite forallb_forall in E. specialize (E _ L). cbn [snd] in E. destruct (eigh (snd x)) as [wv|]; [eauto|discriminate E]. Qed.
Lemma x_ready : kfac_ready xeigh xstate xC.
Proof. split; [exact x_holds|]. split; [vm_compute; reflexivity|]. left. split; [vm_compute; reflexivity|]. split; [vm_compute; reflexivity|]. split; intros X; vm_compute in X; intuition discriminate. Qed.
Lemma x_solvable : solvable xeigh xC.
Proof. apply solvable_ok. vm_compute. reflexivity. Qed.

Lemma stored_look (s : @lstate Qc) C m t c : holds s "covariance_state" C -> look C m t = Some c -> stored s SCov m t = Some (snd c).
Proof.
  intros (D & _) L. unfold stored, lookup2. cbn [stat_name]. rewrite D. unfold log_nd. rewrite (dget_map (fun e : dict string (@dten Qc) => Node (map (fun q => (fst q, Leaf (VT (snd q)))) e))). unfold look in L. destruct (dget m C) as [e|]; [|discriminate L]. cbn [option_map].
  rewrite (dget_map (fun x : @dten Qc => Leaf (VT x))), L. reflexivity.
Qed.
Lemma xcalls_ok : Forall call_ok xcalls.
Proof. repeat constructor; eexists; (split; [reflexivity|]); (split; [reflexivity|]); (split; [discriminate|]); cbn; auto. Qed.
Lemma xcalls_unmasked : Forall unmasked xcalls.
Proof. repeat constructor. Qed.
Lemma gen_cov cs : snd (run_calls cs state_init) = Ok tt -> Forall call_ok cs -> Forall unmasked cs -> is_Ok (snd (fin cs)) = true ->
  forall C m t c, holds (fst (fin cs)) "covariance_state" C -> look C m t = Some c -> exists k, symmetric k (snd c) /\ psd k (snd c).
Proof.
  intros E OK U EF C m t c HC L. pose proof (stored_look _ C m t c HC L) as ST. unfold fin in *. destruct (run_calls cs state_init) as [s r] eqn:R. cbn [snd fst] in *. subst r. destruct (finalize ex_dk s) as [s' [dk'|]] eqn:F; [|discriminate EF]. cbn [fst] in *.
  destruct (covariance_psd ex_dk cs s s' dk' m t (snd c) R OK F ST) as (k & Sk & Sy & Ps). exists k. split; [split; assumption|]. intros v. apply Ps. apply Forall_forall. intros x Ix. unfold calls_for in Ix. apply filter_In in Ix. destruct Ix as (Ix & _). rewrite Forall_forall in U. apply U. exact Ix.
Qed.
Lemma x_run : snd (run_calls xcalls state_init) = Ok tt.
Proof. vm_compute. reflexivity. Qed.
Lemma x_fin : is_Ok (snd (fin xcalls)) = true.
Proof. vm_compute. reflexivity. Qed.
Lemma x_cov m t c : look xC m t = Some c -> exists k, symmetric k (snd c) /\ psd k (snd c).
Proof. exact (gen_cov xcalls x_run xcalls_ok xcalls_unmasked x_fin xC m t c x_holds). Qed.
Definition has_shape (C : @tlog Qc) m t sh : bool := match look C m t with Some x => dev_eqb (fst x) Cpu && same_shape (shape (snd x)) sh | None => false end.
Lemma has_shape_ok C m t sh : has_shape C m t sh = true -> exists c, look C m t = Some (Cpu, c) /\ shape c = sh.
Proof. unfold has_shape. destruct (look C m t) as [[[] c]|]; cbn; try discriminate. intros E. exists c. split; [reflexivity|]. apply same_shape_true. exact E. Qed.
Lemma x_kfac (L : @tlog Qc) n a b : L = xgrad n a b -> length a = n * 2 -> length b = n * 2 -> forall m, In m (dkeys L) -> kfac_data xC L m.
Proof.
  intros -> La Lb m Im. assert (Wf : forall l, length l = n * 2 -> twf (zt [n; 1; 2] l)). { intros l E. unfold twf, zt. cbn [data shape]. rewrite map_length, E. cbn. lia. }
  assert (C0 : forall m', In m' ["fc1"; "fc2"] -> exists cf cb, look xC m' "forward" = Some (Cpu, cf) /\ look xC m' "backward" = Some (Cpu, cb) /\ shape cf = [2; 2] /\ shape cb = [1; 1]).
  { intros m' Im'. assert (CF : has_shape xC m' "forward" [2; 2] = true) by (destruct Im' as [<-|[<-|[]]]; vm_compute; reflexivity). assert (CB : has_shape xC m' "backward" [1; 1] = true) by (destruct Im' as [<-|[<-|[]]]; vm_compute; reflexivity).
    destruct (has_shape_ok _ _ _ _ CF) as (cf & Lf & Sf). destruct (has_shape_ok _ _ _ _ CB) as (cb & Lb' & Sb). eauto 10. }
  assert (G : exists g, grad_of (xgrad n a b) m = Some (Cpu, g) /\ shape g = [n; 1; 2] /\ twf g) by (destruct Im as [<-|[<-|[]]]; eexists; (split; [reflexivity|]); auto).
  destruct (C0 m Im) as (cf & cb & Lf & Lb' & Sf & Sb). destruct G as (g & Gg & Sg & Wg). destruct (x_cov m "forward" _ Lf) as (k1 & (S1 & Y1) & P1). destruct (x_cov m "backward" _ Lb') as (k2 & (S2 & Y2) & P2). cbn [snd] in *. rewrite Sf in S1. rewrite Sb in S2. injection S1 as <-. injection S2 as <-.
  exists Cpu, n, 1, 2, g, Cpu, cf, cb. repeat (split; [assumption|]). split; [split; assumption|]. split; [assumption|]. split; [split; assumption|assumption].
Qed.
(** the shapes after preconditioning, by computation *)
Lemma keeps_ok (f : SM (@lstate Qc) (@glog Qc)) (A : @tlog Qc) s :
  match snd (f s) with
  | Ok (_, Nest x) => forallb (fun m => match grad_of A m, log_item x m "grad" with Some a, Ok p => same_shape (shape (snd p)) (shape (snd a)) | _, _ => true end) (dkeys A)
  | _ => true
  end = true -> keeps_shapes f A s.
Proof.
  intros E s1 ids P R m a p GA GP. rewrite R in E. cbn [snd] in E. rewrite forallb_forall in E. specialize (E m). rewrite GA, log_item_look in E. unfold grad_of in GP. rewrite GP in E. apply same_shape_true. apply E.
  eapply look_in. exact GA.
Qed.
Lemma x_plain n a b : length a = n * 2 -> length b = n * 2 -> plain_log Cpu n (xgrad n a b).
Proof.
  intros La Lb. split; [apply nodup_ok; reflexivity|]. intros m [<-|[<-|[]]]; do 3 eexists; (split; [reflexivity|]); (split; [reflexivity|]); unfold twf, zt; cbn [data shape]; rewrite map_length, ?La, ?Lb; cbn; lia.
Qed.
Definition x_within n a b n' a' b' : within (xgrad n a b) (xgrad n' a' b').
Proof.
  intros m x G. assert (Im : In m ["fc1"; "fc2"]). { unfold grad_of, look in G. destruct (dget m (xgrad n a b)) eqn:D; [|discriminate G]. apply dget_In in D. destruct D as [D|[D|[]]]; injection D as <- _; cbn; auto. }
  destruct Im as [<-|[<-|[]]]; cbn in G; injection G as <-; eexists; (split; [reflexivity|]); reflexivity.
Qed.

Lemma x_first n a b : grad_first (xgrad n a b).
Proof. reflexivity. Qed.
Lemma x_on n a b : all_on Cpu (xgrad n a b).
Proof. repeat constructor. Qed.
Lemma x_paired n k a b a' b' m : length a = n * 2 -> length b = n * 2 -> length a' = k * 2 -> length b' = k * 2 -> In m ["fc1"; "fc2"] ->
  paired_grads Cpu n k (xgrad n a b) (xgrad k a' b') m.
Proof.
  intros La Lb La' Lb' [<-|[<-|[]]]; do 4 eexists; (split; [reflexivity|]); (split; [reflexivity|]); (split; [reflexivity|]); (split; [reflexivity|]); split; unfold twf, zt; cbn [data shape]; rewrite map_length, ?La, ?Lb, ?La', ?Lb'; cbn; lia.
Qed.

(** a state with the covariances of the gradients *)
Definition ycov (m : string) (L : @tlog Qc) : @call Qc := Call SCov (BInfo None (log_nd L)) None m "grad" None false.
Definition yL : @tlog Qc := xgrad 2 [1; 1; 2; 0]%Z [3; 1; 1; -1]%Z.
Definition ycalls : list (@call Qc) := [ycov "fc1" yL; ycov "fc2" yL].
Notation ystate := (fst (fin ycalls)).
Definition yC : @tlog Qc := to_tlog (xnd ystate "covariance_state").
Lemma y_holds : holds ystate "covariance_state" yC.
Proof. split; [apply has_attr; vm_compute; reflexivity|]. apply ok_b_ok. vm_compute. reflexivity. Qed.
Lemma y_ready d : raw_ready xinverse ystate yC d.
Proof. split; [exact y_holds|]. left. split; [vm_compute; reflexivity|]. intros X; vm_compute in X; intuition discriminate. Qed.
Lemma xinv_ext n (a b : tensor Qc) : shape a = [n; n] -> shape b = [n; n] -> (forall i j, i < n -> j < n -> mget a i j = mget b i j) -> is_Ok (xinverse b) = true -> exists x, xinverse a = Ok x.
Proof.
  intros Sa Sb E. unfold xinverse, small_inverse. rewrite Sa, Sb. destruct n as [|[|[|n]]]; try discriminate.
  - rewrite E by lia. destruct (q0 _); [discriminate|]. eauto.
  - rewrite !E by lia. destruct (q0 _); [discriminate|]. eauto.
Qed.
Definition inv_b (d : option Qc) (C : @tlog Qc) : bool := forallb (fun x => let c := snd (snd x) in let n := nth 0 (shape c) 0 in
  same_shape (shape c) [n; n] && is_Ok (xinverse (mgen n n (fun i j => fadd (mget c i j) (fmul (own_damping c d) (ident i j)))))) (items C).
Lemma inv_ok d C : inv_b d C = true -> invertible xinverse d C.
Proof.
  intros E m t c L. apply look_items in L. unfold inv_b in E. rewrite forallb_forall in E. specialize (E _ L). cbv zeta in E. cbn [snd] in E. apply andb_true_iff in E. destruct E as (E1 & E2). apply same_shape_true in E1.
  exists (nth 0 (shape (snd c)) 0). split; [exact E1|]. intros a Sa Wa Ea. eapply xinv_ext; [exact Sa| | |exact E2]; [reflexivity|]. intros i j Li Lj. rewrite Ea by assumption. symmetry. apply (mget_mgen _ _ (fun i j => fadd (mget (snd c) i j) (fmul (own_damping (snd c) d) (ident i j)))); assumption.
Qed.
Lemma y_invertible : invertible xinverse (Some (qz 1)) yC.
Proof. apply inv_ok. vm_compute. reflexivity. Qed.
Lemma y_raw n a b m : n <> 0 -> length a = n * 2 -> length b = n * 2 -> In m ["fc1"; "fc2"] -> raw_data yC (xgrad n a b) m.
Proof.
  intros N La Lb Im. assert (CF : has_shape yC m "grad" [2; 2] = true) by (destruct Im as [<-|[<-|[]]]; vm_compute; reflexivity). destruct (has_shape_ok _ _ _ _ CF) as (c & Lc & Sc).
  assert (G : exists g, grad_of (xgrad n a b) m = Some (Cpu, g) /\ shape g = [n; 1; 2] /\ twf g). { destruct Im as [<-|[<-|[]]]; eexists; (split; [reflexivity|]); (split; [reflexivity|]); unfold twf, zt; cbn [data shape]; rewrite map_length, ?La, ?Lb; cbn; lia. }
  destruct G as (g & Gg & Sg & Wg). exists Cpu, n, [1; 2], g, Cpu, c. repeat (split; [assumption|]). exact Sc.
Qed.
Lemma ycalls_ok : Forall call_ok ycalls.
Proof. repeat constructor; eexists; (split; [reflexivity|]); (split; [reflexivity|]); (split; [discriminate|]); cbn; auto. Qed.
Lemma y_psd m c : look yC m "grad" = Some c -> psd (nth 0 (shape (snd c)) 0) (snd c).
Proof.
  intros L. destruct (gen_cov ycalls ltac:(vm_compute; reflexivity) ycalls_ok ltac:(repeat constructor) ltac:(vm_compute; reflexivity) yC m "grad" c y_holds L) as (k & (Sk & _) & P). rewrite Sk. exact P.
Qed.

(** a state with corrected eigenvalues *)
Definition zecalls : list (@ecall Qc) := [ECall (BInfo None (log_nd yL)) "fc1" false; ECall (BInfo None (log_nd yL)) "fc2" false].
Definition zrun := let s := fst (run_ecalls xeigh zecalls (fst (fin xcalls))) in finalize ex_dk s.
Notation zstate := (fst zrun).
Definition zC : @tlog Qc := to_tlog (xnd zstate "covariance_state").
Definition zEC : @tlog Qc := to_tlog (xnd zstate "covariance_eigvec_state").
Definition to_leaves (n : nd (@sval Qc)) : dict string (@dten Qc) := match n with Node l => flat_map (fun q => match snd q with Leaf (VT x) => [(fst q, x)] | _ => [] end) l | Leaf _ => [] end.
Definition zE := to_leaves (xnd zstate "ekfac_eigval_state").
Definition all_leaves (n : nd (@sval Qc)) : bool := match n with Node l => forallb (fun q => match snd q with Leaf (VT _) => true | _ => false end) l | Leaf _ => false end.
Lemma all_leaves_ok n : all_leaves n = true -> n = Node (map (fun q => (fst q, Leaf (VT (snd q)))) (to_leaves n)).
Proof. destruct n as [|l]; [discriminate|]. cbn [all_leaves to_leaves]. intros E. f_equal. induction l as [|[t [[]|]] l IH]; try discriminate E; [reflexivity|]. cbn [forallb snd andb] in E. cbn [flat_map map fst snd app]. f_equal. exact (IH E). Qed.
Lemma has_leaves (s : @lstate Qc) a : (match dget a (attrs s) with Some n => all_leaves n | None => false end) = true ->
  dget a (attrs s) = Some (Node (map (fun q => (fst q, Leaf (VT (snd q)))) (to_leaves (xnd s a)))).
Proof. unfold xnd. destruct (dget a (attrs s)) as [n|]; [|discriminate]. intros E. f_equal. apply all_leaves_ok. exact E. Qed.
Lemma z_state : ekfac_state zstate zC zEC zE.
Proof.
  split. { split; [apply has_attr; vm_compute; reflexivity|]. apply ok_b_ok. vm_compute. reflexivity. }
  split. { split; [apply has_attr; vm_compute; reflexivity|]. apply ok_b_ok. vm_compute. reflexivity. }
  split. { intros E. apply (f_equal (fun o => match o with Some _ => true | None => false end)) in E. vm_compute in E. discriminate E. }
  split; [apply has_leaves; vm_compute; reflexivity|]. apply nodup_ok. vm_compute. reflexivity.
Qed.
Definition qeq (x y : Qc) : bool := if Qc_eq_dec x y then true else false.
Definition qnn (x : Qc) : bool := Qle_bool 0 x.
Lemma qeq_ok x y : qeq x y = true -> x = y.
Proof. unfold qeq. destruct (Qc_eq_dec x y); [auto|discriminate]. Qed.
Lemma qnn_ok x : qnn x = true -> fle f0 x.
Proof. intros E. apply Qle_bool_iff in E. exact E. Qed.
Definition orth_b n (v : tensor Qc) : bool := same_shape (shape v) [n; n] && forallb (fun i => forallb (fun j =>
  qeq (sum n (fun p => fmul (mget v p i) (mget v p j))) (ident i j) && qeq (sum n (fun p => fmul (mget v i p) (mget v j p))) (ident i j)) (seq 0 n)) (seq 0 n).
Lemma orth_ok n v : orth_b n v = true -> orthogonal n v.
Proof.
  intros E. apply andb_true_iff in E. destruct E as (E1 & E2). apply same_shape_true in E1. split; [exact E1|]. intros i j Li Lj. rewrite forallb_forall in E2. specialize (E2 i ltac:(apply in_seq; lia)). rewrite forallb_forall in E2. specialize (E2 j ltac:(apply in_seq; lia)).
  apply andb_true_iff in E2. destruct E2 as (A & B). split; apply qeq_ok; assumption.
Qed.
Definition look_b (L : @tlog Qc) m t (f : tensor Qc -> bool) : bool := match look L m t with Some x => f (snd x) | None => false end.
Lemma look_b_ok L m t f : look_b L m t f = true -> exists x, look L m t = Some x /\ f (snd x) = true.
Proof. unfold look_b. destruct (look L m t) as [x|]; [eauto|discriminate]. Qed.
Definition pos_b a b (x : tensor Qc) : bool := same_shape (shape x) [a; b] && Nat.eqb (length (data x)) (a * b) && forallb (fun i => forallb (fun j => qnn (mget x i j)) (seq 0 b)) (seq 0 a).
Lemma pos_ok a b x : pos_b a b x = true -> shape x = [a; b] /\ twf x /\ forall i j, i < a -> j < b -> fle f0 (mget x i j).
Proof.
  intros E. apply andb_true_iff in E. destruct E as (E & E3). apply andb_true_iff in E. destruct E as (E1 & E2). apply same_shape_true in E1. apply Nat.eqb_eq in E2. split; [exact E1|]. split; [unfold twf; rewrite E1, E2; cbn; lia|].
  intros i j Li Lj. rewrite forallb_forall in E3. specialize (E3 i ltac:(apply in_seq; lia)). rewrite forallb_forall in E3. specialize (E3 j ltac:(apply in_seq; lia)). apply qnn_ok. exact E3.
Qed.
Definition get_b (E : dict string (@dten Qc)) m (f : tensor Qc -> bool) : bool := match dget m E with Some x => f (snd x) | None => false end.
Lemma get_b_ok E m f : get_b E m f = true -> exists x, dget m E = Some x /\ f (snd x) = true.
Proof. unfold get_b. destruct (dget m E) as [x|]; [eauto|discriminate]. Qed.
Lemma z_data n a b m : length a = n * 2 -> length b = n * 2 -> In m ["fc1"; "fc2"] -> ekfac_data Cpu zEC zE (xgrad n a b) m.
Proof.
  intros La Lb Im. assert (G : exists g, grad_of (xgrad n a b) m = Some (Cpu, g) /\ shape g = [n; 1; 2] /\ twf g). { destruct Im as [<-|[<-|[]]]; eexists; (split; [reflexivity|]); (split; [reflexivity|]); unfold twf, zt; cbn [data shape]; rewrite map_length, ?La, ?Lb; cbn; lia. }
  assert (B1 : look_b zEC m "forward" (orth_b 2) = true) by (destruct Im as [<-|[<-|[]]]; vm_compute; reflexivity). assert (B2 : look_b zEC m "backward" (orth_b 1) = true) by (destruct Im as [<-|[<-|[]]]; vm_compute; reflexivity). assert (B3 : get_b zE m (pos_b 1 2) = true) by (destruct Im as [<-|[<-|[]]]; vm_compute; reflexivity).
  destruct (look_b_ok _ _ _ _ B1) as (vf & L1 & O1). destruct (look_b_ok _ _ _ _ B2) as (vb & L2 & O2). destruct (get_b_ok _ _ _ B3) as (x & L3 & O3). apply orth_ok in O1. apply orth_ok in O2. destruct (pos_ok _ _ _ O3) as (Sx & Wx & Px). destruct G as (g & Gg & Sg & Wg).
  exists n, 1, 2, g, vf, vb, x. repeat (split; [assumption|]). exact Px.
Qed.
Lemma covered_b (C L : @tlog Qc) : forallb (fun m => mem m (dkeys C)) (dkeys L) = true -> covered C L.
Proof. intros E m Im. rewrite forallb_forall in E. apply mem_In. apply E. exact Im. Qed.

(** what a caller sees of a result of preconditioning *)
Definition ps (r : @lstate Qc * res (@glog Qc)) := match snd r with Ok (ids, Nest n) => Ok (ids, tshow (to_tlog n)) | Ok (ids, Flat _) => Err TypeError | Err e => Err e end.
Definition ss (r : @lstate Qc * res (list string * @ival Qc)) := match snd r with Ok (ids, v) => Ok (ids, vshow v) | Err e => Err e end.
Definition xd : option Qc := Some (qz 1).
Notation xinf := (compute_influence xeigh xinverse xsqrt).
Notation xself := (compute_self_influence xeigh xinverse).
Notation xpre := (precondition xeigh xinverse).
Notation xall := (influence_all xeigh xinverse xsqrt).
Definition oa (r : @lstate Qc * res (option (@infres Qc))) := match snd r with Ok (Some x) => Ok (Some (i_src x, i_tgt x, vshow (i_val x))) | Ok None => Ok None | Err e => Err e end.

Notation sA := (xlog xA ["q"]).
Notation sB := (xlog xB ["a"; "b"; "c"]).
(** the samples of [xB] as rows, the layers in the order of the recorded path *)
Definition xpath : list string := ["fc2"; "fc1"].
Definition xflat : tensor Qc := zt [3; 4] [0; 2; 1; 0; 1; 1; 2; 1; 5; -2; -1; 3]%Z.
Notation vstate := (fst (set_state "model_module" "path" (VPath (map (fun m => (m, "grad")) xpath)) (fst (fin xcalls)))).
Definition is_path (s : @lstate Qc) (p : list (string * string)) : bool :=
  match dget "model_module" (attrs s) with
  | Some (Node d) => match dget "path" d with Some (Leaf (VPath q)) => if list_eq_dec (fun a b : string * string => ltac:(decide equality; apply string_dec)) q p then true else false | _ => false end
  | _ => false
  end.
Lemma is_path_ok s p : is_path s p = true -> watched s p.
Proof.
  unfold is_path, watched. destruct (dget "model_module" (attrs s)) as [[|d]|]; try discriminate. destruct (dget "path" d) as [[[]|]|] eqn:E; try discriminate. intros Q. exists d. split; [reflexivity|]. rewrite E. destruct (list_eq_dec _ _ _) as [->|]; [reflexivity|discriminate Q].
Qed.
(** two calls that save their scores *)
Definition xcall (ids : list string) (a b : list Z) (groups : option (list string)) : icall Qc :=
  ICall _ (xlog (xgrad (length ids) a b) ids) (batches 0 [2; 1] ["a"; "b"; "c"] xB) "dot" false "kfac" groups xd.
Definition vw (o : @ifn Qc * res (list (option (@robj Qc)))) := let (f, r) := o in
  (option_map (fun a => let v := view f a in (i_src v, i_tgt v, vshow (i_val v))) (if_scores f),
   match r with Ok os => Ok (map (option_map (fun a => let v := view f a in (i_src v, i_tgt v, vshow (i_val v)))) os) | Err e => Err e end).
Definition x_init (s : @lstate Qc) : @ifn Qc := IFn s [] [] None.
Notation xcalls_all := (calls_all xeigh xinverse xsqrt).
(** merged logs *)
Definition mlogs : list (list string * @tlog Qc) := [(["a"; "b"], xgrad 2 [1; 2; 3; 4]%Z [0; 1; 1; 0]%Z); (["c"], xgrad 1 [5; 6]%Z [2; 2]%Z ++ [("fc3", [("grad", (Cpu, zt [1; 1; 1] [7]%Z))])])].
Definition ms (r : res (list string * nd (@sval Qc))) := match r with Ok (ids, n) => Ok (ids, tshow (to_tlog n)) | Err e => Err e end.

Lemma ekfac_batches : ~ forall (C EC : @tlog Qc) (E : dict string (@dten Qc)) (A B : @tlog Qc) (s : @lstate Qc) sids tids ks d,
  ekfac_state s C EC E -> plain_log Cpu (length sids) A -> plain_log Cpu (length tids) B -> all_on Cpu B -> within A B -> grad_first B -> (forall m, In m (dkeys B) -> In m (dkeys A)) ->
  (forall m, In m (dkeys A) -> ekfac_data Cpu EC E A m) -> (forall m, In m (dkeys B) -> ekfac_data Cpu EC E B m) -> covered C A -> covered C B -> splits ks (length tids) ->
  oa (xall (sids, Nest (log_nd A)) (batches 0 ks tids B) "l2" true "kfac" None d s) =
  (let r := xinf (sids, Nest (log_nd A)) (tids, Nest (log_nd B)) "l2" true "kfac" None d s in match rs r with Ok x => Ok (Some x) | Err e => Err e end).
Proof.
  intros X. assert (PA : plain_log Cpu 1 xA) by (apply x_plain; reflexivity). assert (PB : plain_log Cpu 3 xB) by (apply x_plain; reflexivity).
  assert (WI : within xA xB) by apply x_within. assert (ON : all_on Cpu xB) by apply x_on.
  assert (DA : forall m, In m (dkeys xA) -> ekfac_data Cpu zEC zE xA m) by (intros m; apply z_data; reflexivity).
  assert (DB : forall m, In m (dkeys xB) -> ekfac_data Cpu zEC zE xB m) by (intros m; apply z_data; reflexivity).
  assert (CA : covered zC xA) by (apply covered_b; vm_compute; reflexivity). assert (CB : covered zC xB) by (apply covered_b; vm_compute; reflexivity).
  assert (Sp : splits [2; 1] 3) by (repeat split; [discriminate|repeat constructor; discriminate]).
  assert (FI : grad_first xB) by reflexivity. assert (IN : forall m, In m (dkeys xB) -> In m (dkeys xA)) by (intros m Im; exact Im).
  pose proof (X zC zEC zE xA xB zstate ["q"] ["a"; "b"; "c"] [2; 1] xd z_state PA PB ON WI FI IN DA DB CA CB Sp) as Y. vm_compute in Y. discriminate Y.
Qed.
Lemma kfac_order : ~ forall (C L : @tlog Qc) (s : @lstate Qc) ids m s1 s2 P1 P2, eigh_contract xeigh -> kfac_ready xeigh s C -> solvable xeigh C -> NoDup (dkeys L) ->
  (forall m, In m (dkeys L) -> kfac_data C L m) ->
  xpre (ids, Nest (log_nd L)) None "kfac" s = (s1, Ok (ids, Nest (log_nd P1))) -> xpre (ids, Nest (log_nd (rev L))) None "kfac" s = (s2, Ok (ids, Nest (log_nd P2))) ->
  grad_of P1 m = grad_of P2 m.
Proof.
  intros X.
  assert (G : forall L s, (match snd (xpre (["q"], Nest (log_nd L)) None "kfac" s) with Ok ([i], Nest n) => String.eqb i "q" && is_log n | _ => false end) = true ->
    xpre (["q"], Nest (log_nd L)) None "kfac" s = (fst (xpre (["q"], Nest (log_nd L)) None "kfac" s), Ok (["q"], Nest (log_nd (to_tlog (match snd (xpre (["q"], Nest (log_nd L)) None "kfac" s) with Ok (_, Nest n) => n | _ => Node [] end)))))).
  { intros L s E. destruct (xpre (["q"], Nest (log_nd L)) None "kfac" s) as [s' [[[|i [|]] [n|]]|]]; try discriminate E. cbn [fst snd] in *. apply andb_true_iff in E. destruct E as (E1 & E2). apply String.eqb_eq in E1. subst i. rewrite <- (is_log_ok n E2). reflexivity. }
  assert (E1 : (match snd (xpre (["q"], Nest (log_nd xA)) None "kfac" xstate) with Ok ([i], Nest n) => String.eqb i "q" && is_log n | _ => false end) = true) by (vm_compute; reflexivity).
  assert (E2 : (match snd (xpre (["q"], Nest (log_nd (rev xA))) None "kfac" xstate) with Ok ([i], Nest n) => String.eqb i "q" && is_log n | _ => false end) = true) by (vm_compute; reflexivity).
  apply G in E1. apply G in E2. assert (ND : NoDup (dkeys xA)) by (apply nodup_ok; reflexivity). assert (KD : forall m, In m (dkeys xA) -> kfac_data xC xA m) by (eapply x_kfac; reflexivity).
  pose proof (X xC xA xstate ["q"] "fc2" _ _ _ _ xeigh_ok x_ready x_solvable ND KD E1 E2) as Y. clear - Y.
  apply (f_equal (option_map (fun g : dten => show (snd g)))) in Y. vm_compute in Y. discriminate Y.
Qed.
