(** Logs in which a layer has one row, and gradients of other sizes than the covariances. *)
From Coq Require Import ZArith QArith Qcanon.
From Verif Require Import Py PyStr Field Tensor ModelGrad Monad ModelState ModelInfluence SpecGrad SpecState SpecInfluence SpecSpread InfProofs1 InfProofs2 ExNum ExState ExInfluence.
Local Open Scope string_scope.
Local Open Scope list_scope.
Local Open Scope nat_scope.

(** the second layer was called once for the whole batch, for example on position embeddings *)
Definition w_src : @tlog Qc := [("fc1", [("grad", (Cpu, zt [2; 1; 2] [1; 2; 3; 4]%Z))]); ("fc2", [("grad", (Cpu, zt [1; 1; 2] [0; -1]%Z))])].
Definition w_tgt : @tlog Qc := [("fc1", [("grad", (Cpu, zt [3; 1; 2] [1; 0; 2; 1; -1; 3]%Z))]); ("fc2", [("grad", (Cpu, zt [1; 1; 2] [2; 5]%Z))])].
Definition w_rows (n : nat) (m : string) : nat := if String.eqb m "fc1" then n else 1.
(** gradients of a layer with two outputs and one input; its covariances are of one output and two inputs *)
Definition w_turned (n : nat) (l : list Z) : @tlog Qc := [("fc1", [("grad", (Cpu, zt [n; 2; 1] l))])].
Definition w_pre : @tlog Qc := match snd (xpre (xlog (w_turned 2 [1; 2; 3; 4]%Z) ["q"; "r"]) xd "auto" xstate) with Ok (_, Nest x) => to_tlog x | _ => [] end.
Lemma w_pairs : spread_pairs Cpu (w_rows 2) (w_rows 3) w_src w_tgt.
Proof. intros m [<-|[<-|[]]]; do 4 eexists; repeat split; reflexivity. Qed.
Lemma w_pairs_rev : spread_pairs Cpu (w_rows 2) (w_rows 3) (rev w_src) w_tgt.
Proof. intros m [<-|[<-|[]]]; do 4 eexists; repeat split; reflexivity. Qed.
Lemma w_self_twin m : In m (dkeys w_src) -> spread_twin Cpu (w_rows 2 m) w_src w_src m.
Proof. intros [<-|[<-|[]]]; do 6 eexists; repeat split; try reflexivity; left; reflexivity. Qed.
Lemma w_spread m : In m (dkeys (w_turned 2 [1; 2; 3; 4]%Z)) -> kfac_spread xC (w_turned 2 [1; 2; 3; 4]%Z) m.
Proof.
  intros I. assert (K : kfac_data xC xA "fc1") by (eapply x_kfac; [reflexivity|reflexivity|reflexivity|left; reflexivity]). destruct K as (dv & n & a & b & g & e & cf & cb & G & Sg & _ & Lf & Lb & Yf & _ & Yb & _). vm_compute in G. injection G as <- <-. injection Sg as <- <- <-.
  destruct I as [<-|[]]. exists Cpu, 2, 1, 2, 2, 1. do 4 eexists. split; [reflexivity|]. split; [reflexivity|]. split; [right; right; reflexivity|]. split; [right; left; reflexivity|]. repeat (split; [eassumption|]). exact Yb.
Qed.
Lemma w_step : exists s1, xpre (xlog (w_turned 2 [1; 2; 3; 4]%Z) ["q"; "r"]) xd "auto" xstate = (s1, Ok (["q"; "r"], Nest (log_nd w_pre))).
Proof.
  unfold w_pre. destruct (xpre (xlog (w_turned 2 [1; 2; 3; 4]%Z) ["q"; "r"]) xd "auto" xstate) as [s1 r] eqn:E. exists s1.
  assert (Q : match r with Ok (i, Nest x) => (if list_eq_dec string_dec i ["q"; "r"] then true else false) && is_log x | _ => false end = true) by (apply (f_equal snd) in E; cbn [snd] in E; subst r; vm_compute; reflexivity).
  cbn [snd]. destruct r as [(i & [x|])|]; try discriminate Q. apply andb_prop in Q. destruct Q as (Q1 & Q2). destruct (list_eq_dec string_dec i ["q"; "r"]) as [->|]; [|discriminate Q1]. rewrite <- (is_log_ok x Q2). reflexivity.
Qed.
Lemma w_twin m : In m (dkeys (w_turned 2 [1; 2; 3; 4]%Z)) -> spread_twin Cpu 2 (w_turned 2 [1; 2; 3; 4]%Z) w_pre m.
Proof.
  intros [<-|[]]. assert (Q : match grad_of w_pre "fc1" with Some (Cpu, p) => same_shape (shape p) [2; 1; 2] | _ => false end = true) by (vm_compute; reflexivity). destruct (grad_of w_pre "fc1") as [[[|] p]|] eqn:G; try discriminate Q. apply same_shape_true in Q.
  exists (zt [2; 2; 1] [1; 2; 3; 4]%Z), p, 2, 1, 1, 2. repeat (split; [reflexivity || assumption|]). split; [right; right; reflexivity|right; left; reflexivity].
Qed.
