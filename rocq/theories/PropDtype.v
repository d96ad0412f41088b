(** C93: the configured data type of the log. *)
From Coq Require Import ZArith QArith Qcanon.
From Verif Require Import Py Field Tensor ModelGrad Monad ModelState ModelMmap ModelSaver ModelLogger ModelConfig ModelDtype SpecGrad SpecState SpecLogger SpecAct SpecDtype DtypeProofs DtypeProofs2 DtypeProofs3 ExNum ExState ExLogger ExDtype.
Local Open Scope string_scope.
Local Open Scope list_scope.
Local Open Scope nat_scope.

(** C93. The names; everything that is not one of them, also a misspelled name or a value that is not a string, means float32. *)
Theorem C93_names : (get_dtype (PStr "none") = None /\ get_dtype (PStr "float64") = Some F64 /\ get_dtype (PStr "float16") = Some F16 /\
    get_dtype (PStr "bfloat16") = Some BF16 /\ get_dtype (PStr "int8") = Some I8) /\
  forall v, ~ In v [PStr "none"; PStr "float64"; PStr "float16"; PStr "bfloat16"; PStr "int8"] -> get_dtype v = Some F32.
Proof. exact dtype_names. Qed.
Print Assumptions C93_names.
Example C93_names_example : get_dtype (PStr "fp16") = Some F32 /\ get_dtype PNone = Some F32.
Proof. split; reflexivity. Qed.
(** Without a data type nothing is converted: the logger is the one of the other properties. *)
Theorem C93_none {F} `{OField F} (kind : mid -> mkind) (wsize : mid -> nat) (eigh : tensor F -> res (tensor F * tensor F)) (enc : @dten F -> array) os (x : @lx F) :
  run_ops_dt kind wsize eigh enc None os x = run_ops kind wsize eigh enc os x /\ forall o, run_op_dt kind wsize eigh enc None o x = run_op kind wsize eigh enc o x.
Proof. exact (dtype_none kind wsize eigh enc os x). Qed.
Print Assumptions C93_none.
(** Nor when the data type is the one the program computes in: the tensors are not even copied (see C64). *)
Theorem C93_same {F} `{OField F} (kind : mid -> mkind) (wsize : mid -> nat) (eigh : tensor F -> res (tensor F * tensor F)) (enc : @dten F -> array) c os (x : @lx F) :
  dc_float c = true -> (forall t, dc_has c t = true) -> (forall d, dc_cast c d = d) ->
  run_ops_dt kind wsize eigh enc (Some c) os x = run_ops kind wsize eigh enc os x /\ forall o, run_op_dt kind wsize eigh enc (Some c) o x = run_op kind wsize eigh enc o x.
Proof. exact (dtype_same kind wsize eigh enc c os x). Qed.
Print Assumptions C93_same.
Example C93_same_example : dc_float same_type = true /\ (forall t, dc_has same_type t = true) /\ (forall d, dc_cast same_type d = d).
Proof. repeat split. Qed.
(** A batch with another data type: the log holds the sums of the converted tensors, inputs masked first and gradients made from the
    unconverted tensors; the statistics see the converted tensors; and the library changes no tensor of the program (see C64). *)
Theorem C93_batch {F} `{OField F} (kind : mid -> mkind) (wsize : mid -> nat) (eigh : tensor F -> res (tensor F * tensor F)) (enc : @dten F -> array) c ids mask es (x x1 x2 : @lx F) :
  (forall d, twf (snd d) -> twf (snd (dc_cast c d))) ->
  reachable_dt kind wsize eigh enc (Some c) x -> begins ids mask x x1 -> logs_and_moments (x_opt x) ->
  own_backward [] es -> Forall (foreign c) es -> Forall hand_wf (hands (x_opt x) (x_heap x) [] [] es) -> run_evs_dt kind eigh (Some c) es x1 = (x2, Ok tt) ->
  x_heap x2 = heap_after (x_heap x) es /\
  (forall n ty, exists ts, Forall2 (becomes kind c mask) (arriving (x_mods x) (x_names x) n ty (hands (x_opt x) (x_heap x) [] [] es)) ts /\
     match ts with
     | [] => logged x2 n ty = None
     | _ => exists G, logged x2 n ty = Some G /\ sum_onto ts G
     end) /\
  run_calls (map (converted c) (stat_calls kind (x_mods x) (x_names x) (x_opt x) mask (x_offload x) (x_heap x) [] es)) (x_state x) = (x_state x2, Ok tt).
Proof. exact (fun HC => dtype_batch kind wsize eigh enc c HC ids mask es x x1 x2). Qed.
Print Assumptions C93_batch.
(** Two calls with conversion to integers: the inputs (1/2, 3/2; 3, 7/2) and (3/2, 3/2; 1/2, -3/2) are logged as (0, 1; 3, 3) + (1, 1; 0, -1),
    the gradient of the first output, (3/2; -1), as (1; -1), and its product with the input, (3/4, 9/4; -3, -7/2), as (0, 2; -3, -3). *)
Example C93_example : let x := drun (watched dkw) lnew in let x1 := fst (lx_start [DInt 0; DInt 1] None x) in let x2 := fst (devs des x1) in
  reachable_dt lk lw ex_eigh lenc (Some to_int) x /\ begins [DInt 0; DInt 1] None x x1 /\ logs_and_moments (x_opt x) /\ own_backward [] des /\
  Forall (foreign to_int) des /\ Forall hand_wf (hands (x_opt x) (x_heap x) [] [] des) /\ devs des x1 = (x2, Ok tt) /\ length (hands (x_opt x) (x_heap x) [] [] des) = 4 /\
  lshow x2 "fc" "forward" = Some ([2; 2], ints [1; 2; 3; 2]%Z) /\ lshow x2 "fc" "backward" = Some ([2; 1], ints [1; -1]%Z) /\
  lshow x2 "fc" "grad" = Some ([2; 1; 2], ints [0; 2; -3; -3]%Z) /\ show (snd (mem_get (x_heap x2) 1)) = ([2; 2], [1 # 2; 3 # 2; 3; 7 # 2]%Q).
Proof.
  cbv zeta. split; [apply dreach|]. split; [apply lbegins; vm_compute; reflexivity|]. split; [intros p; vm_compute; intuition (subst; auto)|].
  split; [vm_compute; intuition|]. split; [apply foreignb_ok; vm_compute; reflexivity|]. split; [apply handb_ok; vm_compute; reflexivity|]. split; [apply ok_pair; vm_compute; reflexivity|]. repeat split; vm_compute; reflexivity.
Qed.
(** With a mask: masked first, then converted. *)
Example C93_masked_example : let x := drun (watched dkw) lnew in let x1 := fst (lx_start [DInt 0; DInt 1] (Some (Cpu, ht [2; 2] [2; 1; 0; 2]%Z)) x) in let x2 := fst (devs des x1) in
  devs des x1 = (x2, Ok tt) /\ lshow x2 "fc" "forward" = Some ([2; 2], ints [1; 0; 0; 2]%Z).
Proof. cbv zeta. split; [apply ok_pair; vm_compute; reflexivity|vm_compute; reflexivity]. Qed.
(** A tensor handed to watch_activation, and its gradient: the log holds converted copies, which do not follow the program's tensors (see C82). *)
Theorem C93_activation {F} `{OField F} (kind : mid -> mkind) (wsize : mid -> nat) (eigh : tensor F -> res (tensor F * tensor F)) (enc : @dten F -> array) c ids mask n t g (x x1 x2 x3 : @lx F) :
  reachable_dt kind wsize eigh enc (Some c) x -> begins ids mask x x1 ->
  logs_first (o_forward (x_opt x)) -> logs_first (o_backward (x_opt x)) -> dc_has c t = false -> dc_has c g = false ->
  run_op_dt kind wsize eigh enc (Some c) (XWatchAct [(n, t)]) x1 = (x2, Ok tt) -> run_op_dt kind wsize eigh enc (Some c) (XEv (MGrad t g)) x2 = (x3, Ok tt) ->
  u_req (uget (x_heap x) t) = true /\ x_heap x3 = x_heap x /\
  logged x3 n "forward" = Some (snd (dc_cast c (mem_get (x_heap x) t))) /\ logged x3 n "backward" = Some (snd (dc_cast c (mem_get (x_heap x) g))) /\
  forall i u, let y := fst (run_op_dt kind wsize eigh enc (Some c) (XEv (MTensor i u)) x3) in logged y n "forward" = logged x3 n "forward" /\ logged y n "backward" = logged x3 n "backward".
Proof. exact (dtype_activation kind wsize eigh enc c ids mask n t g x x1 x2 x3). Qed.
Print Assumptions C93_activation.
Example C93_activation_example : let x := drun (watched dkw ++ [XEv (MTensor 7 (node (ht [2; 1] [3; 5]%Z))); XEv (MTensor 8 (leaf (ht [2; 1] [-3; 1]%Z)))]) lnew in
  let x1 := fst (lx_start [DInt 0; DInt 1] None x) in let x2 := fst (run_op_dt lk lw ex_eigh lenc (Some to_int) (XWatchAct [("h", 7)]) x1) in
  let x3 := fst (run_op_dt lk lw ex_eigh lenc (Some to_int) (XEv (MGrad 7 8)) x2) in
  reachable_dt lk lw ex_eigh lenc (Some to_int) x /\ begins [DInt 0; DInt 1] None x x1 /\ logs_first (o_forward (x_opt x)) /\ logs_first (o_backward (x_opt x)) /\
  run_op_dt lk lw ex_eigh lenc (Some to_int) (XWatchAct [("h", 7)]) x1 = (x2, Ok tt) /\ run_op_dt lk lw ex_eigh lenc (Some to_int) (XEv (MGrad 7 8)) x2 = (x3, Ok tt) /\
  lshow x3 "h" "forward" = Some ([2; 1], ints [1; 2]%Z) /\ lshow x3 "h" "backward" = Some ([2; 1], ints [-1; 0]%Z).
Proof.
  cbv zeta. split; [apply dreach|]. split; [apply lbegins; vm_compute; reflexivity|]. split; [exists [PMean]; split; [vm_compute; reflexivity|intros [X|[]]; discriminate X]|].
  split; [exists []; split; [vm_compute; reflexivity|intros []]|]. split; [apply ok_pair; vm_compute; reflexivity|]. split; [apply ok_pair; vm_compute; reflexivity|]. split; vm_compute; reflexivity.
Qed.
(** Converting keeps a tracked activation in the graph, so a copy of the log is refused, unless the data type is not a floating one. *)
Theorem C93_copy {F} `{OField F} (kind : mid -> mkind) (wsize : mid -> nat) (eigh : tensor F -> res (tensor F * tensor F)) (enc : @dten F -> array) c ids mask k m i t u gm (x x1 x2 : @lx F) :
  reachable_dt kind wsize eigh enc (Some c) x -> begins ids mask x x1 ->
  o_forward (x_opt x) = [PLog] -> times m (x_mods x) = 1 -> dc_has c i = false ->
  run_op_dt kind wsize eigh enc (Some c) (XEv (MCall k m [i] (OutTensor t u) gm)) x1 = (x2, Ok tt) ->
  snd (lx_get_log true x2) = Err RuntimeError <-> (gm && u_req (uget (x_heap x) i) && dc_float c)%bool = true.
Proof. exact (dtype_copy kind wsize eigh enc c ids mask k m i t u gm x x1 x2). Qed.
Print Assumptions C93_copy.
Example C93_copy_example : let x := drun (watched [("forward", [AStr "log"])] ++ [XEv (MTensor 1 (node (ht [2; 2] [1; 3; 6; 7]%Z)))]) lnew in let x1 := fst (lx_start [DInt 0; DInt 1] None x) in
  let e := XEv (MCall 0 0 [1] (OutTensor 2 (node (zt [2; 1] [0; 0]%Z))) true) in let x2 := fst (run_op_dt lk lw ex_eigh lenc (Some to_int) e x1) in
  let half := DCast true (fun _ => false) (fun d => d) in
  reachable_dt lk lw ex_eigh lenc (Some to_int) x /\ begins [DInt 0; DInt 1] None x x1 /\ o_forward (x_opt x) = [PLog] /\ times 0 (x_mods x) = 1 /\
  run_op_dt lk lw ex_eigh lenc (Some to_int) e x1 = (x2, Ok tt) /\ u_req (uget (x_heap x) 1) = true /\
  snd (lx_get_log true x2) <> Err RuntimeError /\ snd (lx_get_log true (fst (run_op_dt lk lw ex_eigh lenc (Some half) e x1))) = Err RuntimeError.
Proof.
  cbv zeta. split; [apply dreach|]. split; [apply lbegins; vm_compute; reflexivity|]. split; [vm_compute; reflexivity|]. split; [vm_compute; reflexivity|].
  split; [apply ok_pair; vm_compute; reflexivity|]. split; [vm_compute; reflexivity|]. split; [vm_compute; discriminate|vm_compute; reflexivity].
Qed.
