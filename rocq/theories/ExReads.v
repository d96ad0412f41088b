(** Concrete logs, as objects. *)
From Coq Require Import ZArith QArith Qcanon.
From Verif Require Import Py PyStr Field Tensor ModelGrad Monad ModelState SpecGrad SpecState ModelInfluence ModelReads SpecInfluence SpecReads ExNum ExState ExInfluence.
Local Open Scope string_scope.
Local Open Scope list_scope.
Local Open Scope nat_scope.

Definition rinf := compute_influence_r xeigh xinverse xsqrt.
Definition rself := compute_self_influence_r xeigh xinverse.
Definition rpre := precondition_r xeigh xinverse.
(** a third layer, for one source sample and for three training samples *)
Definition rA : @tlog Qc := xA ++ [("fc3", [("grad", (Cpu, zt [1; 1; 1] [2]%Z))])].
Definition rB : @tlog Qc := xB ++ [("fc3", [("grad", (Cpu, zt [3; 1; 1] [1; 1; 1]%Z))])].
(** the source is log 0, the training log is log 1 *)
Definition rworld (s : @lstate Qc) (b : bool) (A : @tlog Qc) (c : bool) (B : @tlog Qc) : @world Qc := World s [(b, log_nd A); (c, log_nd B)].
Definition rsrc : @rlog Qc := (["q"], At 0).
Definition rtgt : @rlog Qc := (["a"; "b"; "c"], At 1).
Definition rshow (r : @world Qc * res (@infres Qc)) := match snd r with Ok x => Ok (i_src x, i_tgt x, vshow (i_val x)) | Err e => Err e end.
Lemma r_paired m : In m ["fc1"; "fc2"] -> paired_grads Cpu 1 3 rA xB m.
Proof. intros Im. pose proof (x_paired 1 3 [1; 2]%Z [0; -1]%Z [1; 0; 2; 1; -1; 3]%Z [0; 2; 1; 1; 5; -2]%Z m eq_refl eq_refl eq_refl eq_refl Im) as P. destruct Im as [<-|[<-|[]]]; exact P. Qed.
(** eigenvalues were corrected for the first layer only *)
Definition uE : dict string (@dten Qc) := filter (fun p => String.eqb (fst p) "fc1") zE.
Definition ustate : @lstate Qc := with_attrs zstate (dset "ekfac_eigval_state" (Node (map (fun q => (fst q, Leaf (VT (snd q)))) uE)) (attrs zstate)).
Lemma cut_state (s : @lstate Qc) C EC E f : ekfac_state s C EC E -> ekfac_state (with_attrs s (dset "ekfac_eigval_state" (Node (map (fun q => (fst q, Leaf (VT (snd q)))) (filter f E))) (attrs s))) C EC (filter f E).
Proof.
  intros ((A & A') & (B & B') & D & E0 & N). unfold ekfac_state, holds. cbn [attrs with_attrs]. rewrite !dget_dset_neq by discriminate. rewrite dget_dset_eq.
  split; [split; assumption|]. split; [split; assumption|]. split; [assumption|]. split; [reflexivity|].
  clear - N. induction E as [|[k v] E IH]; [constructor|]. inversion N as [|? ? N1 N2]; subst. cbn [filter]. destruct (f (k, v)); [|apply IH; exact N2]. constructor; [|apply IH; exact N2].
  intros Q. apply N1. unfold dkeys in Q. apply in_map_iff in Q. destruct Q as (q & Eq & Iq). apply filter_In in Iq. cbn [fst] in *. rewrite <- Eq. apply in_map. apply Iq.
Qed.
Lemma u_state : ekfac_state ustate zC zEC uE.
Proof. exact (cut_state zstate zC zEC zE _ z_state). Qed.
Lemma u_data m : In m ["fc1"] -> ekfac_data Cpu zEC uE xA m.
Proof.
  intros [<-|[]]. destruct (z_data 1 [1; 2]%Z [0; -1]%Z "fc1" eq_refl eq_refl (or_introl eq_refl)) as (n & a & b & g & vf & vb & x & G & Sg & Wg & Lf & Of & Lb & Ob & De & R).
  exists n, a, b, g, vf, vb, x. do 7 (split; [assumption|]). split; [|exact R]. rewrite <- De. unfold uE. clear. generalize zE. intros E. induction E as [|[k v] E IH]; [reflexivity|]. cbn [filter fst dget]. destruct (String.eqb_spec k "fc1") as [->|Nk].
  - reflexivity.
  - rewrite IH. destruct (eqb_spec "fc1" k) as [<-|]; [congruence|reflexivity].
Qed.
(** no covariance of the inputs of [fc2] *)
Definition vcalls : list (@call Qc) :=
  [xcov "fc1" "forward" (zt [2; 2] [3; -4; 8; 6]%Z); xcov "fc1" "backward" (zt [2; 1] [1; 2]%Z); xcov "fc2" "backward" (zt [2; 1] [4; -2]%Z)].
Notation vstate := (fst (fin vcalls)).
Definition vC : @tlog Qc := to_tlog (xnd vstate "covariance_state").
Lemma v_holds : holds vstate "covariance_state" vC.
Proof. split; [apply has_attr; vm_compute; reflexivity|]. apply ok_b_ok. vm_compute. reflexivity. Qed.
Lemma v_ready : kfac_ready xeigh vstate vC.
Proof. split; [exact v_holds|]. split; [vm_compute; reflexivity|]. left. split; [vm_compute; reflexivity|]. split; [vm_compute; reflexivity|]. split; intros X; vm_compute in X; intuition discriminate. Qed.
Lemma v_solvable : solvable xeigh vC.
Proof. apply solvable_ok. vm_compute. reflexivity. Qed.
Lemma v_data m : In m ["fc1"] -> kfac_data vC xA m.
Proof.
  intros [<-|[]]. destruct (x_kfac xA 1 [1; 2]%Z [0; -1]%Z eq_refl eq_refl eq_refl "fc1" (or_introl eq_refl)) as (dv & n & a & b & g & e & cf & cb & G & Sg & Wg & Lf & Lb & R).
  exists dv, n, a, b, g, e, cf, cb. do 3 (split; [assumption|]). split; [rewrite <- Lf; vm_compute; reflexivity|]. split; [rewrite <- Lb; vm_compute; reflexivity|]. exact R.
Qed.
(** no covariance of the gradients of [fc2] *)
Definition tcalls : list (@call Qc) := [ycov "fc1" yL; xcov "fc2" "backward" (zt [2; 1] [4; -2]%Z)].
Notation tstate := (fst (fin tcalls)).
Definition tC : @tlog Qc := to_tlog (xnd tstate "covariance_state").
Lemma t_holds : holds tstate "covariance_state" tC.
Proof. split; [apply has_attr; vm_compute; reflexivity|]. apply ok_b_ok. vm_compute. reflexivity. Qed.
Lemma t_ready d : raw_ready xinverse tstate tC d.
Proof. split; [exact t_holds|]. left. split; [vm_compute; reflexivity|]. intros X; vm_compute in X; intuition discriminate. Qed.
Lemma t_invertible : invertible xinverse xd tC.
Proof. apply inv_ok. vm_compute. reflexivity. Qed.
Lemma t_data m : In m ["fc1"] -> raw_data tC xA m.
Proof.
  intros [<-|[]]. destruct (y_raw 1 [1; 2]%Z [0; -1]%Z "fc1" ltac:(discriminate) eq_refl eq_refl (or_introl eq_refl)) as (dv & n & rest & g & e & c & G & Sg & Wg & N & Lc & Sc).
  exists dv, n, rest, g, e, c. do 4 (split; [assumption|]). split; [rewrite <- Lc; vm_compute; reflexivity|exact Sc].
Qed.
