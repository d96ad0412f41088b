(** Concrete logs that do not fit. *)
From Coq Require Import ZArith QArith Qcanon Permutation.
From Verif Require Import Py PyStr Field Tensor ModelGrad Monad ModelState ModelInfluence SpecGrad SpecState SpecInfluence SpecFault ExNum ExState ExInfluence.
Local Open Scope string_scope.
Local Open Scope list_scope.
Local Open Scope nat_scope.

Definition xwide : @tlog Qc := [("fc1", [("grad", (Cpu, zt [1; 1; 2] [1; 2]%Z))]); ("fc2", [("grad", (Cpu, zt [1; 1; 3] [0; -1; 4]%Z))])].
Definition xhole : @tlog Qc := [("fc1", [("grad", (Cpu, zt [1; 1; 2] [1; 2]%Z))]); ("fc2", [("forward", (Cpu, zt [1; 2] [0; -1]%Z))])].
Definition xgpu : @tlog Qc := [("fc1", [("grad", (Cpu, zt [1; 1; 2] [1; 2]%Z))]); ("fc2", [("grad", (Gpu, zt [1; 1; 2] [0; -1]%Z))])].
Definition xone (n : nat) (a : list Z) : @tlog Qc := [("fc1", [("grad", (Cpu, zt [n; 1; 2] a))])].
Lemma wide_fc1 : kfac_data xC xwide "fc1".
Proof. exact (x_kfac xA 1 [1; 2]%Z [0; -1]%Z eq_refl eq_refl eq_refl "fc1" (or_introl eq_refl)). Qed.
Lemma wide_fc2 : kfac_fault xC xwide "fc2" RuntimeError.
Proof.
  assert (CF : has_shape xC "fc2" "forward" [2; 2] = true) by (vm_compute; reflexivity). assert (CB : has_shape xC "fc2" "backward" [1; 1] = true) by (vm_compute; reflexivity).
  destruct (has_shape_ok _ _ _ _ CF) as (cf & Lf & Sf). destruct (has_shape_ok _ _ _ _ CB) as (cb & Lb & Sb).
  destruct (x_cov _ _ _ Lf) as (k1 & (S1 & Y1) & _). destruct (x_cov _ _ _ Lb) as (k2 & (S2 & Y2) & _). cbn [snd] in *. rewrite Sf in S1. rewrite Sb in S2. injection S1 as <-. injection S2 as <-.
  apply (kf_shape xC xwide "fc2" (Cpu, zt [1; 1; 3] [0; -1; 4]%Z) (Cpu, cf) (Cpu, cb) 1 2); [reflexivity|exact Lf|exact Lb|split; assumption|split; assumption|].
  right. repeat split; discriminate.
Qed.
Lemma wide_raw : raw_fault yC xwide "fc2" RuntimeError.
Proof.
  assert (CF : has_shape yC "fc2" "grad" [2; 2] = true) by (vm_compute; reflexivity). destruct (has_shape_ok _ _ _ _ CF) as (c & Lc & Sc).
  apply (rf_size yC xwide "fc2" (Cpu, zt [1; 1; 3] [0; -1; 4]%Z) 1 [1; 3] (Cpu, c) 2); [reflexivity|reflexivity|exact Lc|exact Sc|discriminate].
Qed.
