(** Concrete programs for the rows that follow the batch log. *)
From Coq Require Import ZArith QArith Qcanon.
From Verif Require Import Py Field Tensor ModelGrad Monad ModelState ModelMmap ModelSaver ModelLogger SpecGrad SpecState SpecLogger ExNum ExState ExLogger.
From Coq Require Import Strings.Byte.
Local Open Scope string_scope.
Local Open Scope list_scope.
Local Open Scope nat_scope.

(** small integers as one-byte numbers, the rest of the four bytes zero *)
Definition vbyte (z : Z) : byte := match Byte.of_N (Z.to_N (Z.modulo z 256)) with Some b => b | None => x00 end.
Definition venc (d : @dten Qc) : array := Arr (shape (snd d)) F32 (concat (map (fun q : Qc => [vbyte (Qnum (this q)); x00; x00; x00]) (Tensor.data (snd d)))).
Notation vrun os x := (run_ops lk lw ex_eigh venc os x).
Definition vids : list did := [DStr "a"; DStr "b"].
(** a batch of two samples: one call of the layer, one backward pass *)
Definition vfirst : list (@ev Qc) :=
  [MTensor 1 (leaf (zt [2; 2] [1; 2; 3; 4]%Z)); MCall 0 0 [1] (OutTensor 2 (node (zt [2; 1] [0; 0]%Z))) true;
   MTensor 5 (leaf (zt [2; 1] [1; 2]%Z)); MGrad 2 5; MBack 0 [5]].
(** after the batch: the model is used on two other samples, for instance to train it *)
Definition vmore : list (@ev Qc) :=
  [MTensor 3 (leaf (zt [2; 2] [5; 0; 2; 1]%Z)); MCall 1 0 [3] (OutTensor 4 (node (zt [2; 1] [0; 0]%Z))) true;
   MTensor 6 (leaf (zt [2; 1] [3; 1]%Z)); MGrad 4 6; MBack 1 [6]].
(** the same first batch with the log on a GPU *)
Definition gput (u : @uten Qc) : @uten Qc := UT (Gpu, snd (u_d u)) (u_req u) (u_leaf u).
Definition vgpu (e : @ev Qc) : @ev Qc :=
  match e with
  | MTensor t u => MTensor t (gput u)
  | MCall c m ins (OutTensor t u) g => MCall c m ins (OutTensor t (gput u)) g
  | _ => e
  end.
Definition v0 : @lx Qc := Eval vm_compute in vrun (watched kgrad) (@lx_init Qc 0 1000 false).
Lemma vreach : reachable lk lw ex_eigh venc v0.
Proof. exists 0%Z, 1000%Z, false, (watched kgrad). vm_compute. reflexivity. Qed.
Definition v1 : @lx Qc := Eval vm_compute in fst (lx_start vids None v0).
Definition v2 : @lx Qc := Eval vm_compute in fst (levs vfirst v1).
Definition v3 : @lx Qc := Eval vm_compute in fst (lx_end ex_eigh venc true v2).
Definition v4 : @lx Qc := Eval vm_compute in fst (levs vmore v3).
(** on the GPU *)
Definition g2 : @lx Qc := Eval vm_compute in fst (levs (map vgpu vfirst) v1).
Definition g3 : @lx Qc := Eval vm_compute in fst (lx_end ex_eigh venc true g2).
Definition g4 : @lx Qc := Eval vm_compute in fst (levs (map vgpu vmore) g3).
(** the next batch has begun *)
Definition n4 : @lx Qc := Eval vm_compute in fst (levs vmore (fst (lx_start [DStr "c"; DStr "d"] None v3))).
(** the buffer is written out whenever it is not empty *)
Definition f3 : @lx Qc := Eval vm_compute in fst (lx_end ex_eigh venc true (fst (levs vfirst (fst (lx_start vids None (vrun (watched kgrad) (@lx_init Qc 0 1 false))))))).
Definition f4 : @lx Qc := Eval vm_compute in fst (lx_finalize (fst (levs vmore f3))).
(** the bytes of a sample's gradient row *)
Definition vrow (s : saver) (i : did) : option (list nat * list N) :=
  option_map (fun a => (a_shape a, map Byte.to_N (a_bytes a))) (cell (s_buffer s) i "fc" "grad").
(** the bytes of the files in the log directory *)
Definition vfiles (d : fs) : list (list N) := concat (map (fun p => match snd p with FData bs => [map Byte.to_N bs] | _ => [] end) d).
