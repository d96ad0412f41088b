(** C82: tensors handed to watch_activation. *)
From Coq Require Import ZArith QArith Qcanon Permutation.
From Verif Require Import Py Field Tensor ModelGrad Monad ModelState ModelMmap ModelSaver ModelLogger SpecGrad SpecState SpecLogger SpecAct ActProofs1 ExNum ExState ExLogger.
Local Open Scope string_scope.
Local Open Scope list_scope.
Local Open Scope nat_scope.

(** C82. The tensor is logged under its name at once, as it is (no mask), and the log keeps the tensor itself. *)
Theorem C82_forward {F} `{OField F} (kind : mid -> mkind) (eigh : tensor F -> res (tensor F * tensor F)) ts (x x' : @lx F) :
  logs_first (o_forward (x_opt x)) -> new_names x ts -> watch_activation eigh ts x = (x', Ok tt) ->
  trackable x ts /\ x_heap x' = x_heap x /\
  (forall n t, In (n, t) ts -> logged x' n "forward" = Some (snd (mem_get (x_heap x) t)) /\ forall u, logged (fst (run_ev kind eigh (MTensor t u) x')) n "forward" = Some (snd (u_d u))) /\
  (forall n t', t' <> "forward" \/ ~ In n (map fst ts) -> logged x' n t' = logged x n t').
Proof. exact (act_forward kind eigh ts x x'). Qed.
Print Assumptions C82_forward.
Theorem C82_total {F} `{OField F} (eigh : tensor F -> res (tensor F * tensor F)) ts (x : @lx F) :
  o_forward (x_opt x) = [PLog] -> new_names x ts -> trackable x ts -> exists x', watch_activation eigh ts x = (x', Ok tt).
Proof. exact (act_total eigh ts x). Qed.
Print Assumptions C82_total.
(** The first tensor that does not require gradients has been logged when the exception comes; those after it are not. *)
Theorem C82_untracked {F} `{OField F} (eigh : tensor F -> res (tensor F * tensor F)) l1 n t l2 (x : @lx F) :
  o_forward (x_opt x) = [PLog] -> new_names x (l1 ++ (n, t) :: l2) -> trackable x l1 -> u_req (uget (x_heap x) t) = false ->
  exists x', watch_activation eigh (l1 ++ (n, t) :: l2) x = (x', Err RuntimeError) /\ x_heap x' = x_heap x /\
    (forall a b, In (a, b) (l1 ++ [(n, t)]) -> logged x' a "forward" = Some (snd (mem_get (x_heap x) b))) /\ (forall a, In a (map fst l2) -> logged x' a "forward" = None).
Proof. exact (act_untracked eigh l1 n t l2 x). Qed.
Print Assumptions C82_untracked.
(** Statistics see the tensor as it is, with no module to shape it by. *)
Theorem C82_statistics {F} `{OField F} (eigh : tensor F -> res (tensor F * tensor F)) ts (x x' : @lx F) :
  moments_only (x_opt x) -> watch_activation eigh ts x = (x', Ok tt) -> run_calls (act_calls x ts) (x_state x) = (x_state x', Ok tt) /\ x_log x' = x_log x.
Proof. exact (act_stats eigh ts x x'). Qed.
Print Assumptions C82_statistics.
(** When the gradient of a tensor arrives it is logged under all names the tensor was handed over with, and no others. *)
Theorem C82_backward {F} `{OField F} (kind : mid -> mkind) (wsize : mid -> nat) (eigh : tensor F -> res (tensor F * tensor F)) (enc : @dten F -> array) ids mask es1 ts es2 t g (x x1 x2 x3 x4 x5 : @lx F) :
  reachable kind wsize eigh enc x -> logs_first (o_forward (x_opt x)) -> logs_first (o_backward (x_opt x)) -> begins ids mask x x1 ->
  run_evs kind eigh es1 x1 = (x2, Ok tt) -> new_names x2 ts -> watch_activation eigh ts x2 = (x3, Ok tt) -> run_evs kind eigh es2 x3 = (x4, Ok tt) ->
  (forall n, In (n, t) ts -> logged x4 n "backward" = None) -> run_ev kind eigh (MGrad t g) x4 = (x5, Ok tt) ->
  (forall n, In (n, t) ts -> logged x5 n "backward" = Some (snd (mem_get (x_heap x5) g)) /\ forall u, logged (fst (run_ev kind eigh (MTensor g u) x5)) n "backward" = Some (snd (u_d u))) /\
  (forall n, ~ In (n, t) ts -> logged x4 n "backward" = None -> logged x5 n "backward" = None).
Proof. exact (act_backward kind wsize eigh enc ids mask es1 ts es2 t g x x1 x2 x3 x4 x5). Qed.
Print Assumptions C82_backward.
Theorem C82_backward_statistics {F} `{OField F} (kind : mid -> mkind) (wsize : mid -> nat) (eigh : tensor F -> res (tensor F * tensor F)) (enc : @dten F -> array) ids mask es1 ts es2 t g (x x1 x2 x3 x4 x5 : @lx F) :
  reachable kind wsize eigh enc x -> moments_only (x_opt x) -> o_grad (x_opt x) = [] -> begins ids mask x x1 ->
  run_evs kind eigh es1 x1 = (x2, Ok tt) -> watch_activation eigh ts x2 = (x3, Ok tt) -> run_evs kind eigh es2 x3 = (x4, Ok tt) -> run_ev kind eigh (MGrad t g) x4 = (x5, Ok tt) ->
  run_calls (act_grad_calls x4 g (names_of_tensor t ts)) (x_state x4) = (x_state x5, Ok tt).
Proof. exact (act_backward_stats kind wsize eigh enc ids mask es1 ts es2 t g x x1 x2 x3 x4 x5). Qed.
Print Assumptions C82_backward_statistics.
(** Tensors handed over before the batch starts are forgotten. *)
Theorem C82_too_early {F} `{OField F} (kind : mid -> mkind) (wsize : mid -> nat) (eigh : tensor F -> res (tensor F * tensor F)) (enc : @dten F -> array) ts ids mask (x x1 x2 : @lx F) o :
  reachable kind wsize eigh enc x -> watch_activation eigh ts x = (x1, o) -> begins ids mask x1 x2 ->
  (forall n t, logged x2 n t = None) /\ forall t g, run_ev kind eigh (MGrad t g) x2 = (x2, Ok tt).
Proof. exact (act_too_early kind wsize eigh enc ts ids mask x x1 x2 o). Qed.
Print Assumptions C82_too_early.

(** Two hidden tensors, the second under two names, in a batch with a mask; and a third that does not require gradients. *)
Definition akw : okwargs := [("forward", [AStr "log"]); ("backward", [AStr "log"])].
Definition ax1 : @lx Qc := fst (lx_start (F:=Qc) [DInt 0; DInt 1] (Some (Cpu, zt [2; 2] [1; 0; 1; 1]%Z)) (lrun (watched akw) lnew)).
Definition aes : list (@ev Qc) := [MTensor 7 (node (zt [2; 2] [1; 2; 3; 4]%Z)); MTensor 8 (node (zt [2; 1] [5; 6]%Z)); MTensor 9 (leaf (zt [2; 1] [7; 8]%Z)); MTensor 10 (leaf (zt [2; 1] [-1; 9]%Z))].
Definition ax2 := Eval vm_compute in fst (levs aes ax1).
Definition ats : list (string * tid) := [("h", 7); ("k", 8); ("k2", 8)].
Definition ax3 := Eval vm_compute in fst (watch_activation ex_eigh ats ax2).
Definition ax5 := Eval vm_compute in fst (run_ev lk ex_eigh (MGrad 8 10) ax3).
Example C82_nonvacuous_new : logs_first (o_forward (x_opt ax2)) /\ new_names ax2 ats /\ trackable ax2 ats /\ watch_activation ex_eigh ats ax2 = (ax3, Ok tt).
Proof.
  split; [exists []; split; [reflexivity|intros []]|]. split.
  - split; [repeat constructor; cbn; intuition discriminate|]. intros n I. cbn in I. repeat (destruct I as [<-|I]; [vm_compute; reflexivity|]). destruct I.
  - split; [|vm_compute; reflexivity]. intros n t I. cbn in I. repeat (destruct I as [[= <- <-]|I]; [vm_compute; reflexivity|]). destruct I.
Qed.
Example C82_nonvacuous_forward : (lshow ax3 "h" "forward", lshow ax3 "k2" "forward") = (Some ([2; 2], [1%Q; 2%Q; 3%Q; 4%Q]), Some ([2; 1], [5%Q; 6%Q])).
Proof. vm_compute. reflexivity. Qed.
Example C82_nonvacuous_backward : run_ev lk ex_eigh (MGrad 8 10) ax3 = (ax5, Ok tt) /\ (lshow ax5 "h" "backward", lshow ax5 "k" "backward", lshow ax5 "k2" "backward") = (None, Some ([2; 1], [(-1)%Q; 9%Q]), Some ([2; 1], [(-1)%Q; 9%Q])).
Proof. split; vm_compute; reflexivity. Qed.
Example C82_nonvacuous_batch : reachable lk lw ex_eigh lenc (lrun (watched akw) lnew) /\ begins [DInt 0; DInt 1] (Some (Cpu, zt [2; 2] [1; 0; 1; 1]%Z)) (lrun (watched akw) lnew) ax1 /\ levs aes ax1 = (ax2, Ok tt) /\
  logs_first (o_backward (x_opt (lrun (watched akw) lnew))).
Proof.
  split; [apply lreach|]. split; [apply lbegins; vm_compute; reflexivity|]. split; [vm_compute; reflexivity|]. exists []. split; [vm_compute; reflexivity|intros []].
Qed.
Example C82_nonvacuous_untracked : exists x', watch_activation ex_eigh [("h", 7); ("n", 9); ("k", 8)] ax2 = (x', Err RuntimeError) /\ u_req (uget (x_heap ax2) 9) = false /\
  (lshow x' "h" "forward", lshow x' "n" "forward", lshow x' "k" "forward") = (Some ([2; 2], [1%Q; 2%Q; 3%Q; 4%Q]), Some ([2; 1], [7%Q; 8%Q]), None).
Proof. eexists. split; [vm_compute; reflexivity|]. split; vm_compute; reflexivity. Qed.
(** statistics: the mean and the second moments of the hidden tensor *)
Definition ay1 : @lx Qc := fst (lx_start (F:=Qc) [DInt 0; DInt 1] None (lrun (watched kstat) lnew)).
Definition ay3 := Eval vm_compute in fst (watch_activation ex_eigh ats (fst (levs aes ay1))).
Definition ay5 := Eval vm_compute in fst (run_ev lk ex_eigh (MGrad 8 10) ay3).
Example C82_nonvacuous_statistics : moments_only (x_opt ay1) /\ o_grad (x_opt ay1) = [] /\ watch_activation ex_eigh ats (fst (levs aes ay1)) = (ay3, Ok tt) /\ run_ev lk ex_eigh (MGrad 8 10) ay3 = (ay5, Ok tt) /\
  (oshow (stored (x_state ay3) SMean "h" "forward"), oshow (stored (x_state ay3) SCov "h" "forward"), oshow (stored (x_state ay5) SCov "k2" "backward"), names_of_tensor 8 ats) =
  (Some ([2], [4%Q; 6%Q]), Some ([2; 2], [10%Q; 14%Q; 14%Q; 20%Q]), Some ([1; 1], [82%Q]), ["k"; "k2"]).
Proof.
  assert (B : forallb (fun p => match p with PMean | PCovariance => true | _ => false end) (o_forward (x_opt ay1) ++ o_backward (x_opt ay1)) = true) by (vm_compute; reflexivity).
  split. { intros p I. apply in_or_app in I. rewrite forallb_forall in B. specialize (B p I). destruct p; try discriminate B; [left|right]; reflexivity. }
  repeat split; vm_compute; reflexivity.
Qed.
Example C82_nonvacuous_early : exists x1 x2, watch_activation ex_eigh ats (lrun (watched akw ++ map XEv aes) lnew) = (x1, Ok tt) /\ lshow x1 "h" "forward" <> None /\ begins [DInt 3] None x1 x2 /\ lshow x2 "h" "forward" = None.
Proof.
  eexists. eexists. split; [vm_compute; reflexivity|]. split; [vm_compute; discriminate|]. split; [apply lbegins; vm_compute; reflexivity|vm_compute; reflexivity].
Qed.
