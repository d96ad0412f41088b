(** Concrete programs for the logger properties. *)
From Coq Require Import ZArith QArith Qcanon Permutation.
From Verif Require Import Py Field Tensor ModelGrad Monad ModelState ModelMmap ModelSaver ModelLogger SpecGrad SpecState SpecLogger ExNum ExState.
Local Open Scope string_scope.
Local Open Scope list_scope.
Local Open Scope nat_scope.

(** one module: a linear layer with 2 inputs and 1 output *)
Definition lk (_ : mid) : mkind := KLinear 2 1.
Definition lw (_ : mid) : nat := 2.
Definition lenc (d : @dten Qc) : array := Arr (shape (snd d)) F32 (repeat Byte.x00 (4 * prod (shape (snd d)))).
Notation lnew := (@lx_init Qc 0 100 false).
Notation lrun os x := (run_ops lk lw ex_eigh lenc os x).
Notation levs es x := (run_evs lk ex_eigh es x).
Definition leaf (t : tensor Qc) : @uten Qc := UT (Cpu, t) false true.
Definition node (t : tensor Qc) : @uten Qc := UT (Cpu, t) true false.
Definition watched (kw : okwargs) : list (@op Qc) := [XWatch [("fc", 0)]; XSetup kw].
Definition kgrad : okwargs := [("grad", [AStr "log"])].
Definition kstat : okwargs := [("forward", [AStr "covariance"; AStr "mean"]); ("backward", [AClass PCovariance])].
(** two calls of the layer, then the backward pass *)
Definition les : list (@ev Qc) :=
  [MTensor 1 (leaf (zt [2; 2] [1; 2; 3; 4]%Z)); MCall 0 0 [1] (OutTensor 2 (node (zt [2; 1] [0; 0]%Z))) true;
   MTensor 3 (leaf (zt [2; 2] [-1; 0; 2; 1]%Z)); MCall 1 0 [3] (OutTensor 4 (node (zt [2; 1] [0; 0]%Z))) true;
   MTensor 5 (leaf (zt [2; 1] [1; 2]%Z)); MTensor 6 (leaf (zt [2; 1] [3; -1]%Z))].
Definition lback : list (@ev Qc) := [MGrad 4 6; MBack 1 [6]; MGrad 2 5; MBack 0 [5]].
Definition lback' : list (@ev Qc) := [MGrad 2 5; MBack 0 [5]; MGrad 4 6; MBack 1 [6]].
Definition lshow (x : @lx Qc) (n t : string) : option (list nat * list Q) := oshow (logged x n t).
Definition sshow (x : @lx Qc) (st : stat) (t : string) : option (list nat * list Q) := oshow (stored (x_state x) st "fc" t).

Lemma ok_pair {S} (p : S * res unit) : snd p = Ok tt -> p = (fst p, Ok tt).
Proof. destruct p as [s [[]|e]]; cbn; [reflexivity|discriminate]. Qed.
Lemma err_pair {S} (p : S * res unit) e : snd p = Err e -> p = (fst p, Err e).
Proof. destruct p as [s [[]|e']]; cbn; [discriminate|congruence]. Qed.
Lemma lreach w t off os : reachable lk lw ex_eigh lenc (lrun os (@lx_init Qc w t off)).
Proof. exists w, t, off, os. reflexivity. Qed.
Lemma lbegins ids mask (x : @lx Qc) : snd (lx_start ids mask x) = Ok tt -> begins ids mask x (fst (lx_start ids mask x)).
Proof. intros E. left. apply ok_pair. exact E. Qed.

(** C27: two samples with two positions of two features *)
Definition xmask : @dten Qc := (Cpu, zt [2; 2] [1; 0; 1; 1]%Z).
Definition xact : @dten Qc := (Cpu, zt [2; 2; 2] [1; 2; 3; 4; 5; 6; 7; 8]%Z).
Definition xkeep (b p : nat) : bool := negb ((b =? 0) && (p =? 1)).
Definition xmb : @mbatch Qc := MBatch 2 2 xkeep xmask xact false.
Definition xones : @mbatch Qc := MBatch 2 2 (fun _ _ => true) (Cpu, zt [2; 2] [1; 1; 1; 1]%Z) xact false.
Definition mb_test (D : nat) (b : @mbatch Qc) : bool :=
  forallb (fun p => forallb (fun q => if mb_keep b p q then Qc_eq_bool (tget (snd (mb_mask b)) [p; q]) f1 else Qc_eq_bool (tget (snd (mb_mask b)) [p; q]) f0)
    (seq 0 (mb_P b))) (seq 0 (mb_B b)).
Lemma mb_test_ok D b : mb_test D b = true -> shape (snd (mb_mask b)) = [mb_B b; mb_P b] -> twf (snd (mb_mask b)) -> shape (snd (mb_act b)) = [mb_B b; mb_P b; D] -> twf (snd (mb_act b)) ->
  fst (mb_mask b) = fst (mb_act b) -> mb_B b <> 0 -> mb_P b <> 0 -> D <> 0 -> mb_ok D b.
Proof.
  intros HT H1 H2 H3 H4 H5 H6 H7 H8. repeat split; try assumption. intros p q Hp Hq. unfold mb_test in HT. rewrite forallb_forall in HT.
  specialize (HT p ltac:(apply in_seq; lia)). rewrite forallb_forall in HT. specialize (HT q ltac:(apply in_seq; lia)).
  destruct (mb_keep b p q); apply Qc_eq_bool_correct in HT; exact HT.
Qed.
Lemma xmb_ok : mb_ok 2 xmb.
Proof. apply mb_test_ok; try reflexivity; try discriminate. Qed.
Lemma xones_ok : mb_ok 2 xones.
Proof. apply mb_test_ok; try reflexivity; try discriminate. Qed.

(** what a caller sees in the result of get_log at a module's "grad" *)
Definition gshow (l : nd (@dten Qc)) : option (list nat * list Q) :=
  match l with
  | Node [(_, Node [(_, Leaf d)])] => Some (show (snd d))
  | _ => None
  end.

(** C63: checking [call_ok] *)
Definition call_okb (c : @call Qc) : bool :=
  match call_tensor c with
  | Some t => (length (data t) =? prod (shape t)) && (negb (prod (shape t) =? 0) && (2 <=? length (shape t)))
  | None => false
  end.
Lemma call_okb_ok cs : forallb call_okb cs = true -> Forall call_ok cs.
Proof.
  intros E. apply Forall_forall. intros c Hc. rewrite forallb_forall in E. specialize (E c Hc). unfold call_okb in E. destruct (call_tensor c) as [t|] eqn:Et; [|discriminate E].
  apply andb_true_iff in E as [E1 E2]. apply andb_true_iff in E2 as [E2 E3]. exists t. split; [exact Et|]. split; [apply Nat.eqb_eq; exact E1|].
  split; [apply Nat.eqb_neq, negb_true_iff; exact E2|]. unfold batched. destruct (k_mod c) as [[]|]; try exact Logic.I; apply Nat.leb_le; exact E3.
Qed.

(** C89: a call on two samples and one on a single sample, with gradients *)
Definition two_then_one : list (@ev Qc) :=
  [MTensor 1 (leaf (zt [2; 2] [1; 2; 3; 4]%Z)); MCall 0 0 [1] (OutTensor 2 (node (zt [2; 1] [0; 0]%Z))) true;
   MTensor 3 (leaf (zt [1; 2] [10; 20]%Z)); MCall 1 0 [3] (OutTensor 4 (node (zt [1; 1] [0]%Z))) true;
   MTensor 5 (leaf (zt [2; 1] [1; 2]%Z)); MTensor 6 (leaf (zt [1; 1] [3]%Z)); MTensor 7 (UT (Gpu, zt [2; 1] [1; 2]%Z) false true); MTensor 8 (leaf (zt [] [1]%Z))].
