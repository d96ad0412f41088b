(** Concrete histories for the statistics properties. *)
From Coq Require Import ZArith QArith Qcanon.
From Verif Require Import Py Field Tensor ModelGrad Monad ModelState SpecGrad SpecState ExNum.
Local Open Scope string_scope.
Local Open Scope list_scope.
Local Open Scope nat_scope.

Definition ex_b : @binfo Qc := BInfo None (Node []).
(** a linear layer of input size 2: forward mean and covariance of two batches *)
Definition ex_call (st : stat) (m t : string) (d : dev) (x : tensor Qc) (off : bool) : @call Qc :=
  Call st ex_b (Some (KLinear 2 1)) m t (Some (d, x)) off.
Definition ex_x1 : tensor Qc := zt [2; 2] [1; 2; 3; 4]%Z.
Definition ex_x2 : tensor Qc := zt [1; 2] [-2; 6]%Z.
Definition ex_calls : list (@call Qc) :=
  [ex_call SMean "fc" "forward" Gpu ex_x1 false; ex_call SCov "fc" "forward" Gpu ex_x1 false;
   ex_call SMean "fc" "forward" Gpu ex_x2 false; ex_call SCov "fc" "forward" Gpu ex_x2 false].
(** the same three samples in one batch, in another order *)
Definition ex_x3 : tensor Qc := zt [3; 2] [3; 4; -2; 6; 1; 2]%Z.
Definition ex_calls' : list (@call Qc) :=
  [ex_call SMean "fc" "forward" Gpu ex_x3 false; ex_call SCov "fc" "forward" Gpu ex_x3 false].
(** gradients of two entries, then of one *)
Definition ex_narrow : list (@call Qc) :=
  [Call SMean ex_b None "fc" "grad" (Some (Gpu, zt [1; 1; 2] [1; 5]%Z)) false; Call SMean ex_b None "fc" "grad" (Some (Gpu, zt [1; 1; 1] [17]%Z)) false].
Definition ex_dk : @sdisk Qc := SDisk [] None.
Definition fin (cs : list (@call Qc)) : lstate * res sdisk := finalize ex_dk (fst (run_calls cs state_init)).
Definition oshow (t : option (tensor Qc)) : option (list nat * list Q) := match t with Some t => Some (show t) | None => None end.
Definition is_Ok {A} (r : res A) : bool := match r with Ok _ => true | Err _ => false end.

(** EKFAC: forward and backward covariances of a 2-to-1 layer, then two batches of gradients *)
Definition ex_kcalls : list (@call Qc) :=
  [ex_call SCov "fc" "forward" Gpu ex_x1 false; Call SCov ex_b (Some (KLinear 2 1)) "fc" "backward" (Some (Gpu, zt [2; 1] [1; 1]%Z)) false].
Definition ex_glog (x : tensor Qc) : @binfo Qc := BInfo None (Node [("fc", Node [("grad", Leaf (VT (Gpu, x)))])]).
Definition ex_ecalls : list (@ecall Qc) :=
  [ECall (ex_glog (zt [2; 1; 2] [1; 2; 3; 4]%Z)) "fc" false; ECall (ex_glog (zt [1; 1; 2] [5; -1]%Z)) "fc" false].
(** some eigenvector matrix: columns of a rotation with rational entries (size 2), or 1 *)
Definition ex_eigh (c : tensor Qc) : res (tensor Qc * tensor Qc) :=
  match shape c with
  | [2; 2] => Ok (zt [2] [1; 2]%Z, zt [2; 2] [0; 1; -1; 0]%Z)
  | [1; 1] => Ok (zt [1] [1]%Z, zt [1; 1] [1]%Z)
  | _ => Err RuntimeError
  end.
Definition ex_inv (c : tensor Qc) : res (tensor Qc) := Ok c.

(** two processes that see the layers "a" and "b" in different orders *)
Definition ex_rank0 : list (@call Qc) := [ex_call SMean "a" "forward" Gpu ex_x1 false; ex_call SMean "b" "forward" Gpu ex_x2 false].
Definition ex_rank1 : list (@call Qc) := [ex_call SMean "b" "forward" Gpu ex_x3 false; ex_call SMean "a" "forward" Gpu ex_x2 false].
Definition ex_rank1' : list (@call Qc) := [ex_call SMean "a" "forward" Gpu ex_x2 false; ex_call SMean "b" "forward" Gpu ex_x3 false].
Definition ex_after (cs : list (@call Qc)) : @lstate Qc := fst (run_calls cs state_init).
