(** Conversions and programs for the data type property. *)
From Coq Require Import ZArith QArith Qcanon.
From Verif Require Import Py Field Tensor ModelGrad Monad ModelState ModelMmap ModelSaver ModelLogger ModelDtype SpecGrad SpecState SpecLogger SpecDtype ExNum ExState ExLogger.
Local Open Scope string_scope.
Local Open Scope list_scope.
Local Open Scope nat_scope.

(** halves *)
Definition ht (sh : list nat) (l : list Z) : tensor Qc := T sh (map (fun z => Q2Qc (z # 2)) l).
(** conversion to integers rounds towards zero; tensor 20 is an integer tensor *)
Definition trunc (q : Qc) : Qc := qz (Z.quot (Qnum (this q)) (Zpos (Qden (this q)))).
Definition to_int : @dcast Qc := DCast false (fun t => t =? 20) (fun d => (fst d, T (shape (snd d)) (map trunc (data (snd d))))).
Lemma to_int_wf d : twf (snd d) -> twf (snd (dc_cast to_int d)).
Proof. unfold twf. cbn. rewrite map_length. auto. Qed.
(** a type all tensors have *)
Definition same_type : @dcast Qc := DCast true (fun _ => true) (fun d => d).
Notation drun os x := (run_ops_dt lk lw ex_eigh lenc (Some to_int) os x).
Notation devs es x := (run_evs_dt lk ex_eigh (Some to_int) es x).
Lemma dreach w t off os : reachable_dt lk lw ex_eigh lenc (Some to_int) (drun os (@lx_init Qc w t off)).
Proof. exists w, t, off, os. reflexivity. Qed.
(** the layer sees (1/2, 3/2; 3, 7/2), and the output gradient is (3/2; -1) *)
Definition dkw : okwargs := [("forward", [AStr "log"; AStr "mean"]); ("backward", [AStr "log"]); ("grad", [AStr "log"])].
Definition des : list (@ev Qc) :=
  [MTensor 1 (leaf (ht [2; 2] [1; 3; 6; 7]%Z)); MCall 0 0 [1] (OutTensor 2 (node (zt [2; 1] [0; 0]%Z))) true;
   MTensor 3 (leaf (ht [2; 2] [3; 3; 1; -3]%Z)); MCall 1 0 [3] (OutTensor 4 (node (zt [2; 1] [0; 0]%Z))) true;
   MTensor 5 (leaf (ht [2; 1] [3; -2]%Z)); MGrad 2 5; MBack 0 [5]].
Definition handb (e : @handed Qc) : bool := match e with HIn _ d | HOut _ d => length (data (snd d)) =? prod (shape (snd d)) | HGr _ _ _ => true end.
Lemma handb_ok es : forallb handb es = true -> Forall hand_wf es.
Proof. intros E. apply Forall_forall. intros e He. rewrite forallb_forall in E. specialize (E e He). destruct e; try exact Logic.I; apply Nat.eqb_eq; exact E. Qed.
Definition foreignb (e : @ev Qc) : bool := match e with MCall _ _ ts _ _ | MBack _ ts => forallb (fun t => negb (dc_has to_int t)) ts | _ => true end.
Lemma foreignb_ok es : forallb foreignb es = true -> Forall (foreign to_int) es.
Proof.
  intros E. apply Forall_forall. intros e He. rewrite forallb_forall in E. specialize (E e He).
  destruct e; try exact Logic.I; cbn in *; apply Forall_forall; intros t Ht; rewrite forallb_forall in E; specialize (E t Ht); apply negb_true_iff; exact E.
Qed.
