(** Concrete data for the non-vacuity examples of the storage theorems. *)
From Coq Require Import Permutation.
From Verif Require Import Py PyStr ModelMmap ModelLoader ModelSaver SpecStore.
Local Open Scope nat_scope.

Definition ms2 : list string := ["fc1"; "fc2"]%string.
Definition t1 : array := Arr [2; 2] F16 [x01; x02; x03; x04; x05; x06; x07; x08].
Definition t2 : array := Arr [2; 1] F16 [x11; x12; x13; x14].
Definition t3 : array := Arr [2; 3] F16 [x21; x22; x23; x24; x25; x26; x27; x28; x29; x2a; x2b; x2c].
(** gradients of two modules and forward activations of one of them *)
Definition log2 : nd array :=
  Node [("fc1"%string, Node [("grad"%string, Leaf t1); ("forward"%string, Leaf t3)]);
        ("fc2"%string, Node [("grad"%string, Leaf t2)])].
(** the same gradients without the activations *)
Definition log2' : nd array :=
  Node [("fc1"%string, Node [("grad"%string, Leaf t1)]); ("fc2"%string, Node [("grad"%string, Leaf t2)])].
Definition b1 : batch := ([DStr "cat"; DInt 7], log2).
Definition b2 : batch := ([DStr "dog"], log2).
Definition b3 : batch := ([DInt 9; DStr "cow"], log2').
Definition b1' : batch := ([DStr "cat"; DInt 7], log2').
Definition b2' : batch := ([DStr "dog"], log2').
(** a batch logged again under the same identifier with other values *)
Definition log2x : nd array :=
  Node [("fc1"%string, Node [("grad"%string, Leaf (Arr [2; 2] F16 [x31; x32; x33; x34; x35; x36; x37; x38]))]);
        ("fc2"%string, Node [("grad"%string, Leaf t2)])].
Definition bx : batch := ([DStr "cat"], log2x).

Ltac solve_leaf := do 2 eexists; split; [reflexivity|]; split; [reflexivity|]; split; [reflexivity|discriminate].
Ltac solve_nodup := unfold dkeys; cbn; repeat constructor; cbn; intuition discriminate.
Ltac solve_module :=
  eexists; split; [reflexivity|]; split; [solve_nodup|]; repeat (constructor; [solve_leaf|]); constructor.
Ltac solve_log := eexists; split; [reflexivity|]; split; [solve_nodup|]; repeat (constructor; [solve_module|]); constructor.
Ltac solve_grad := do 3 eexists; split; [reflexivity|]; split; [reflexivity|]; split; [reflexivity|cbn; lia].
Ltac solve_batch :=
  exists 2; split; [cbn; lia|]; split; [solve_log|]; split;
  [repeat (constructor; [solve_grad|]); constructor | repeat constructor].

Lemma b1_ok : batch_ok ms2 F16 b1. Proof. solve_batch. Qed.
Lemma b2_ok : batch_ok ms2 F16 b2. Proof. solve_batch. Qed.
Lemma b3_ok : batch_ok ms2 F16 b3. Proof. solve_batch. Qed.
Lemma b1'_ok : batch_ok ms2 F16 b1'. Proof. solve_batch. Qed.
Lemma b2'_ok : batch_ok ms2 F16 b2'. Proof. solve_batch. Qed.
Lemma bx_ok : batch_ok ms2 F16 bx. Proof. solve_batch. Qed.
Lemma log2_wf : log_wf 2 log2. Proof. solve_log. Qed.
Lemma ms2_nodup : NoDup ms2. Proof. repeat constructor; cbn; intuition discriminate. Qed.
Lemma ms2_ne : ms2 <> []. Proof. discriminate. Qed.

(** a directory with an unrelated file *)
Definition d0 : fs := [("config.yaml"%string, FOther)].
Lemma d0_fresh : fresh_dir d0.
Proof.
  split; [repeat constructor; cbn; auto|]. intros n [<-|[]] (mid & E). discriminate.
Qed.

(** a saver after logging [b1] without flushing *)
Definition s_b1 : saver := fst (buffer_write (saver_init 0 1 (-1) (grad_paths ms2)) (fst b1) (snd b1)).
Definition arrss_b1 : list (list array) := map snd (batch_samples ms2 b1).

Lemma b1_complete : Forall2 (fun x arrs => complete ms2 F16 (snd x) arrs) (s_buffer s_b1) arrss_b1.
Proof.
  unfold s_b1, arrss_b1, complete. cbn. repeat constructor; cbn; try reflexivity; discriminate.
Qed.
Lemma b1_recorded : Forall2 (fun x arrs => recorded ms2 (snd x) arrs) (s_buffer s_b1) arrss_b1.
Proof.
  unfold s_b1, arrss_b1, recorded. cbn. repeat constructor; cbn; try reflexivity; discriminate.
Qed.

(** mixed element types: float32 for fc1, float16 for fc2 *)
Definition logm : nd array :=
  Node [("fc1"%string, Node [("grad"%string, Leaf (Arr [1; 1] F32 [x01; x02; x03; x04]))]);
        ("fc2"%string, Node [("grad"%string, Leaf (Arr [1; 1] F16 [x05; x06]))])].
Definition s_m : saver := fst (buffer_write (saver_init 0 1 (-1) (grad_paths ms2)) [DStr "cat"] logm).
Definition arrss_m : list (list array) := [[Arr [1] F32 [x01; x02; x03; x04]; Arr [1] F16 [x05; x06]]].
Lemma m_recorded : Forall2 (fun x arrs => recorded ms2 (snd x) arrs) (s_buffer s_m) arrss_m.
Proof.
  unfold s_m, arrss_m, recorded. cbn. repeat constructor; cbn; try reflexivity; discriminate.
Qed.

(** an identifier json cannot serialise *)
Definition s_t : saver := fst (buffer_write (saver_init 0 1 (-1) (grad_paths ms2)) [DOpaque 0; DStr "cat"] log2).
Definition arrss_t : list (list array) := [sample_rows ms2 log2 0; sample_rows ms2 log2 1].
Lemma t_recorded : Forall2 (fun x arrs => recorded ms2 (snd x) arrs) (s_buffer s_t) arrss_t.
Proof.
  unfold s_t, arrss_t, recorded. cbn. repeat constructor; cbn; try reflexivity; discriminate.
Qed.

(** only forward activations were logged *)
Definition logf : nd array := Node [("fc1"%string, Node [("forward"%string, Leaf t3)])].
Definition s_f : saver := fst (buffer_write (saver_init 0 1 (-1) (grad_paths ms2)) [DStr "cat"] logf).
Lemma f_wf : Forall (fun kv => sample_wf (snd kv)) (s_buffer s_f).
Proof.
  unfold s_f. cbn. constructor; [|constructor]. eexists. split; [reflexivity|].
  constructor; [|constructor]. eexists. split; [reflexivity|]. constructor; [|constructor].
  eexists. split; [reflexivity|]. split; [reflexivity|discriminate].
Qed.
