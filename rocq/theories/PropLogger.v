(** C19-C29, C33, C62-C64: hooks, batches and what they log (logix/logging/logger.py, option.py, logix.py). *)
From Coq Require Import ZArith QArith Qcanon Permutation.
From Verif Require Import Py Field Tensor ModelGrad Monad ModelState ModelMmap ModelSaver ModelLogger SpecGrad SpecState SpecLogger LogProofs2 LogProofs3 LogProofs5 LogProofs6 LogProofs7 LogProofs8 LogProofs9 LogProofs10 ExNum ExState ExLogger.
Local Open Scope string_scope.
Local Open Scope list_scope.
Local Open Scope nat_scope.

(** C19. Re-used modules. *)
Theorem C19_batch_gradients {F} `{OField F} (kind : mid -> mkind) (wsize : mid -> nat) (eigh : tensor F -> res (tensor F * tensor F)) (enc : @dten F -> array) ids mask es (x x1 x2 : @lx F) rest n :
  reachable kind wsize eigh enc x -> begins ids mask x x1 ->
  o_grad (x_opt x) = PLog :: rest -> ~ In PLog (o_forward (x_opt x)) -> ~ In PLog (o_backward (x_opt x)) ->
  run_evs kind eigh es x1 = (x2, Ok tt) ->
  exists ts, Forall2 (psg_is kind) (arrivals (x_mods x) (x_names x) n (deliveries (x_heap x) [] es)) ts /\
    match ts with
    | [] => logged x2 n "grad" = None
    | _ => exists G, logged x2 n "grad" = Some G /\ sum_onto ts G
    end.
Proof. exact (batch_gradients kind wsize eigh enc ids mask es x x1 x2 rest n). Qed.
Print Assumptions C19_batch_gradients.
(** The order in which the backward pass delivers the gradients does not matter. *)
Theorem C19_gradients_any_order {F} `{OField F} (kind : mid -> mkind) (wsize : mid -> nat) (eigh : tensor F -> res (tensor F * tensor F)) (enc : @dten F -> array) ids ids' mask mask' es es' (x x1 x1' x2 x2' : @lx F) rest n :
  reachable kind wsize eigh enc x -> begins ids mask x x1 -> begins ids' mask' x x1' ->
  o_grad (x_opt x) = PLog :: rest -> ~ In PLog (o_forward (x_opt x)) -> ~ In PLog (o_backward (x_opt x)) ->
  run_evs kind eigh es x1 = (x2, Ok tt) -> run_evs kind eigh es' x1' = (x2', Ok tt) ->
  Permutation (deliveries (x_heap x) [] es) (deliveries (x_heap x) [] es') -> logged x2 n "grad" = logged x2' n "grad".
Proof. exact (gradients_any_order kind wsize eigh enc ids ids' mask mask' es es' x x1 x1' x2 x2' rest n). Qed.
Print Assumptions C19_gradients_any_order.
(** For linear layers: the logged gradient of sample a is the gradient, with respect to the weights, of the sum over all calls of the products of output gradient and output. *)
Theorem C19_linear_gradient {F} `{OField F} (kind : mid -> mkind) (wsize : mid -> nat) (eigh : tensor F -> res (tensor F * tensor F)) (enc : @dten F -> array) ids mask es (x x1 x2 : @lx F) rest n N NI NJ :
  reachable kind wsize eigh enc x -> begins ids mask x x1 ->
  o_grad (x_opt x) = PLog :: rest -> ~ In PLog (o_forward (x_opt x)) -> ~ In PLog (o_backward (x_opt x)) ->
  run_evs kind eigh es x1 = (x2, Ok tt) ->
  let ds := filter (fun d => String.eqb (name_of (x_names x) (fst d)) n) (deliveries (x_heap x) [] es) in
  ds <> [] ->
  (forall d, In d ds -> times (fst d) (x_mods x) = 1 /\ (exists k1 k2, kind (fst d) = KLinear k1 k2) /\ twf (snd (snd (snd d))) /\
     exists md, shape (snd (fst (snd d))) = N :: md ++ [NJ] /\ shape (snd (snd (snd d))) = N :: md ++ [NI]) ->
  exists G, logged x2 n "grad" = Some G /\ shape G = [N; NI; NJ] /\ twf G /\
    forall (b : nat -> F) a, a < N ->
      is_gradient (fun W => lsum (map (fun d => dot (slice (snd (snd (snd d))) a)
        (slice (linear W b (removelast (shape (snd (fst (snd d))))) NI NJ (snd (fst (snd d)))) a)) ds)) [NI; NJ] (slice G a).
Proof. exact (linear_gradient kind wsize eigh enc ids mask es x x1 x2 rest n N NI NJ). Qed.
Print Assumptions C19_linear_gradient.
(** The layer is called twice; both orders of the backward pass log 1 * (1, 2) + 3 * (-1, 0) and 2 * (3, 4) - (2, 1). *)
Example C19_example : let x := lrun (watched kgrad) lnew in let x1 := fst (lx_start [DStr "a"; DStr "b"] None x) in
  reachable lk lw ex_eigh lenc x /\ begins [DStr "a"; DStr "b"] None x x1 /\ o_grad (x_opt x) = [PLog] /\ o_forward (x_opt x) = [] /\ o_backward (x_opt x) = [] /\
  levs (les ++ lback) x1 = (fst (levs (les ++ lback) x1), Ok tt) /\ levs (les ++ lback') x1 = (fst (levs (les ++ lback') x1), Ok tt) /\
  Permutation (deliveries (x_heap x) [] (les ++ lback)) (deliveries (x_heap x) [] (les ++ lback')) /\
  map fst (deliveries (x_heap x) [] (les ++ lback)) = [0; 0] /\ times 0 (x_mods x) = 1 /\
  lshow (fst (levs (les ++ lback) x1)) "fc" "grad" = Some ([2; 1; 2], ints [-2; 2; 4; 7]%Z) /\
  lshow (fst (levs (les ++ lback') x1)) "fc" "grad" = Some ([2; 1; 2], ints [-2; 2; 4; 7]%Z).
Proof.
  cbv zeta. split; [apply lreach|]. split; [apply lbegins; reflexivity|]. do 3 (split; [reflexivity|]). split; [apply ok_pair; reflexivity|]. split; [apply ok_pair; reflexivity|].
  split; [apply perm_swap|]. repeat split; vm_compute; reflexivity.
Qed.

(** C20. Watching again. *)
Theorem C20_watch_again {F} `{OField F} (kind : mid -> mkind) (wsize : mid -> nat) (eigh : tensor F -> res (tensor F * tensor F)) (enc : @dten F -> array) ms k (x : @lx F) :
  x_mods x = [] ->
  let x' := run_ops kind wsize eigh enc (repeat (XWatch ms) k) x in
  (forall m, times m (x_mods x') = k * times m (map snd ms)) /\ x_opt x' = x_opt x /\ x_heap x' = x_heap x.
Proof. exact (watch_again kind wsize eigh enc ms k x). Qed.
Print Assumptions C20_watch_again.
(** A module watched k times. *)
Theorem C20_batch_multiples {F} `{OField F} (kind : mid -> mkind) (wsize : mid -> nat) (eigh : tensor F -> res (tensor F * tensor F)) (enc : @dten F -> array) ids mask es (x x1 x2 : @lx F) rest n k :
  reachable kind wsize eigh enc x -> begins ids mask x x1 ->
  o_grad (x_opt x) = PLog :: rest -> ~ In PLog (o_forward (x_opt x)) -> ~ In PLog (o_backward (x_opt x)) ->
  run_evs kind eigh es x1 = (x2, Ok tt) ->
  0 < k -> (forall d, In d (deliveries (x_heap x) [] es) -> name_of (x_names x) (fst d) = n -> times (fst d) (x_mods x) = k) ->
  exists ts, Forall2 (psg_is kind) (filter (fun d => String.eqb (name_of (x_names x) (fst d)) n) (deliveries (x_heap x) [] es)) ts /\
    match ts with
    | [] => logged x2 n "grad" = None
    | _ => exists G, logged x2 n "grad" = Some G /\ twf G /\ shape G = shape (hd G ts) /\ Forall (fun t => fits (shape t) (shape G)) ts /\
        forall idx, valid (shape G) idx -> tget G idx = fmul (fnat k) (lsum (map (fun t => tget t (entry_at (shape t) idx)) ts))
    end.
Proof. exact (batch_multiples kind wsize eigh enc ids mask es x x1 x2 rest n k). Qed.
Print Assumptions C20_batch_multiples.
(** Watched three times: three times the gradient; after clear() and one watch the true one. *)
Example C20_example : let x := lrun ([XWatch [("fc", 0)]; XWatch [("fc", 0)]] ++ watched kgrad) lnew in let x1 := fst (lx_start [DStr "a"; DStr "b"] None x) in
  let y := lrun (XClear :: watched kgrad) x in
  x_mods lnew = [] /\ reachable lk lw ex_eigh lenc x /\ begins [DStr "a"; DStr "b"] None x x1 /\
  levs (les ++ lback) x1 = (fst (levs (les ++ lback) x1), Ok tt) /\ times 0 (x_mods x) = 3 /\
  lshow (fst (levs (les ++ lback) x1)) "fc" "grad" = Some ([2; 1; 2], ints [-6; 6; 12; 21]%Z) /\
  lshow (fst (levs (les ++ lback) (fst (lx_start [DStr "a"; DStr "b"] None y)))) "fc" "grad" = Some ([2; 1; 2], ints [-2; 2; 4; 7]%Z).
Proof. cbv zeta. split; [reflexivity|]. split; [apply lreach|]. split; [apply lbegins; reflexivity|]. split; [apply ok_pair; reflexivity|]. repeat split; vm_compute; reflexivity. Qed.

(** C21. After the end of a batch. *)
(** After the end of a batch the hooks log as before it. *)
Theorem C21_end_transparent {F} `{OField F} (kind : mid -> mkind) (wsize : mid -> nat) (eigh : tensor F -> res (tensor F * tensor F)) (enc : @dten F -> array) save es (x x' a b : @lx F) :
  lx_end eigh enc save x = (x', Ok tt) \/ lx_exit eigh enc x = (x', Ok tt) ->
  run_evs kind eigh es x = (a, Ok tt) -> run_evs kind eigh es x' = (b, Ok tt) ->
  log_nd (fun d => d) (x_heap a) (x_log a) = log_nd (fun d => d) (x_heap b) (x_log b).
Proof. exact (end_transparent kind wsize eigh enc save es x x' a b). Qed.
Print Assumptions C21_end_transparent.
(** After the end of a batch the hooks update the statistics as before it, with the mask of the batch that has ended. *)
Theorem C21_after_statistics {F} `{OField F} (kind : mid -> mkind) (wsize : mid -> nat) (eigh : tensor F -> res (tensor F * tensor F)) (enc : @dten F -> array) ids mask es es2 (x x1 x2 x3 x4 : @lx F) sv :
  reachable kind wsize eigh enc x -> begins ids mask x x1 -> moments_only (x_opt x) ->
  run_evs kind eigh es x1 = (x2, Ok tt) -> own_backward [] es -> (lx_end eigh enc sv x2 = (x3, Ok tt) \/ lx_exit eigh enc x2 = (x3, Ok tt)) ->
  own_backward [] es2 -> run_evs kind eigh es2 x3 = (x4, Ok tt) ->
  run_calls (stat_calls kind (x_mods x) (x_names x) (x_opt x) mask (x_offload x) (heap_after (x_heap x) es) [] es2) (x_state x3) = (x_state x4, Ok tt).
Proof. exact (after_statistics kind wsize eigh enc ids mask es es2 x x1 x2 x3 x4 sv). Qed.
Print Assumptions C21_after_statistics.
(** After clear() nothing is logged any more for calls made after it. *)
Theorem C21_clear_silences {F} `{OField F} (kind : mid -> mkind) (wsize : mid -> nat) (eigh : tensor F -> res (tensor F * tensor F)) (enc : @dten F -> array) es (x x1 x2 : @lx F) o :
  reachable kind wsize eigh enc x -> lx_clear x = (x1, Ok tt) -> own_backward [] es -> run_evs kind eigh es x1 = (x2, o) ->
  x_state x2 = x_state x1 /\ x_log x2 = x_log x1 /\ x_saver x2 = x_saver x1 /\ x_dir x2 = x_dir x1.
Proof. exact (clear_silences kind wsize eigh enc es x x1 x2 o). Qed.
Print Assumptions C21_clear_silences.
(** A call after end() changes the statistics; calls after clear() do not, but the backward pass of an earlier call does. *)
Example C21_example : let x := lrun (watched kstat) lnew in let x1 := fst (lx_start [DStr "a"; DStr "b"] None x) in
  let x2 := fst (levs les x1) in let x3 := fst (lx_end ex_eigh lenc false x2) in let x4 := fst (levs (les ++ lback) x3) in
  let c1 := fst (lx_clear x4) in let c2 := fst (levs (les ++ lback) c1) in let c3 := fst (levs [MBack 1 [6]] c1) in
  reachable lk lw ex_eigh lenc x /\ begins [DStr "a"; DStr "b"] None x x1 /\ moments_only (x_opt x) /\ own_backward [] (les ++ lback) /\
  lx_end ex_eigh lenc false x2 = (x3, Ok tt) /\ levs (les ++ lback) x3 = (x4, Ok tt) /\ lx_clear x4 = (c1, Ok tt) /\
  sshow x2 SMean "forward" = Some ([2], ints [5; 7]%Z) /\ sshow x3 SMean "forward" = Some ([2], ints [5; 7]%Z) /\
  sshow x4 SMean "forward" = Some ([2], ints [10; 14]%Z) /\ sshow x4 SCov "backward" = Some ([1; 1], ints [15]%Z) /\
  sshow c1 SMean "forward" = None /\ sshow c2 SMean "forward" = None /\ sshow c2 SCov "backward" = None /\ sshow c3 SCov "backward" = Some ([1; 1], ints [10]%Z).
Proof.
  cbv zeta. split; [apply lreach|]. split; [apply lbegins; reflexivity|]. split; [intros p; vm_compute; intuition (subst; auto)|]. split; [cbn; auto|].
  do 3 (split; [apply ok_pair; reflexivity|]). repeat split; vm_compute; reflexivity.
Qed.

(** C22. Batch isolation. *)
Theorem C22_start_fresh {F} `{OField F} (kind : mid -> mkind) (wsize : mid -> nat) (eigh : tensor F -> res (tensor F * tensor F)) (enc : @dten F -> array) ids mask (x : @lx F) :
  reachable kind wsize eigh enc x ->
  exists x', lx_start ids mask x = (x', Ok tt) /\ x_log x' = [] /\ x_ids x' = Some ids /\ x_mask x' = mask /\
    x_reg x' = installed x /\ x_th x' = [] /\
    x_state x' = x_state x /\ x_opt x' = x_opt x /\ x_mods x' = x_mods x /\ x_names x' = x_names x /\ x_heap x' = x_heap x /\
    x_saver x' = settle x /\ x_views x' = [] /\ x_dir x' = x_dir x /\ x_save x' = x_save x /\ x_save_batch x' = x_save_batch x.
Proof. exact (start_fresh kind wsize eigh enc ids mask x). Qed.
Print Assumptions C22_start_fresh.
Theorem C22_call_enter_fresh {F} `{OField F} (kind : mid -> mkind) (wsize : mid -> nat) (eigh : tensor F -> res (tensor F * tensor F)) (enc : @dten F -> array) ids mask save (x : @lx F) :
  reachable kind wsize eigh enc x ->
  exists x', (lx_call ids mask save ;; lx_enter) x = (x', Ok tt) /\ x_log x' = [] /\ x_ids x' = Some ids /\ x_mask x' = mask /\
    x_reg x' = installed x /\ x_th x' = [] /\
    x_state x' = x_state x /\ x_opt x' = x_opt x /\ x_mods x' = x_mods x /\ x_names x' = x_names x /\ x_heap x' = x_heap x /\
    x_saver x' = settle x /\ x_views x' = [] /\ x_dir x' = x_dir x /\ x_save x' = x_save x /\ x_save_batch x' = save.
Proof. exact (call_enter_fresh kind wsize eigh enc ids mask save x). Qed.
Print Assumptions C22_call_enter_fresh.
Theorem C22_isolated {F} `{OField F} (kind : mid -> mkind) (wsize : mid -> nat) (eigh : tensor F -> res (tensor F * tensor F)) (enc : @dten F -> array) ids ids' mask es (x y x1 y1 x2 y2 : @lx F) :
  reachable kind wsize eigh enc x -> reachable kind wsize eigh enc y ->
  x_mods x = x_mods y -> x_names x = x_names y -> x_opt x = x_opt y -> x_heap x = x_heap y -> own_backward [] es ->
  begins ids mask x x1 -> begins ids' mask y y1 -> run_evs kind eigh es x1 = (x2, Ok tt) -> run_evs kind eigh es y1 = (y2, Ok tt) ->
  x_ids x2 = Some ids /\ log_nd (fun d => d) (x_heap x2) (x_log x2) = log_nd (fun d => d) (x_heap y2) (x_log y2).
Proof. exact (isolated kind wsize eigh enc ids ids' mask es x y x1 y1 x2 y2). Qed.
Print Assumptions C22_isolated.
(** The same batch, first on a new object and then after another, unfinished batch. *)
Example C22_example : let x := lrun (watched kgrad ++ map XEv les) lnew in
  let y := lrun ([XCall [DStr "z"] (Some xmask) true; XEnter] ++ map XEv lback ++ [XStart [DStr "w"] None; XEv (MCall 7 0 [1] (OutTensor 9 (node (zt [2; 1] [0; 0]%Z))) true); XEv (MGrad 9 5)]) x in
  let x1 := fst (lx_start [DStr "a"; DStr "b"] None x) in let y1 := fst (lx_start [DStr "a"; DStr "b"] None y) in
  reachable lk lw ex_eigh lenc x /\ reachable lk lw ex_eigh lenc y /\ x_mods x = x_mods y /\ x_names x = x_names y /\ x_opt x = x_opt y /\
  begins [DStr "a"; DStr "b"] None x x1 /\ begins [DStr "a"; DStr "b"] None y y1 /\
  lshow y "fc" "grad" = Some ([2; 1; 2], ints [1; 2; 6; 8]%Z) /\ x_log y1 = [] /\ length (x_reg y1) = 3 /\
  lshow (fst (levs (les ++ lback) x1)) "fc" "grad" = Some ([2; 1; 2], ints [-2; 2; 4; 7]%Z) /\
  lshow (fst (levs (les ++ lback) y1)) "fc" "grad" = Some ([2; 1; 2], ints [-2; 2; 4; 7]%Z).
Proof.
  cbv zeta. split; [apply lreach|]. split; [rewrite <- run_ops_app; apply lreach|]. do 3 (split; [vm_compute; reflexivity|]). do 2 (split; [apply lbegins; vm_compute; reflexivity|]).
  repeat split; vm_compute; reflexivity.
Qed.

(** C23. Exceptions in a with-block. *)
Theorem C23_raising_block {F} `{OField F} (kind : mid -> mkind) (wsize : mid -> nat) (eigh : tensor F -> res (tensor F * tensor F)) (enc : @dten F -> array) ids mask save es1 ex es2 (x x0 x1 : @lx F) :
  reachable kind wsize eigh enc x -> (lx_call ids mask save ;; lx_enter) x = (x0, Ok tt) -> run_evs kind eigh es1 x0 = (x1, Ok tt) ->
  fst (with_block eigh enc ids mask save (run_evs kind eigh (es1 ++ MRaise ex :: es2)) x) = fst (with_block eigh enc ids mask save (run_evs kind eigh es1) x) /\
  snd (with_block eigh enc ids mask save (run_evs kind eigh (es1 ++ MRaise ex :: es2)) x) =
    match snd (with_block eigh enc ids mask save (run_evs kind eigh es1) x) with Ok _ => Err ex | Err e => Err e end.
Proof. exact (raising_block kind wsize eigh enc ids mask save es1 ex es2 x x0 x1). Qed.
Print Assumptions C23_raising_block.
(** The same for an exception raised by a hook, which may leave part of its work done. *)
Theorem C23_failing_block {F} `{OField F} (kind : mid -> mkind) (wsize : mid -> nat) (eigh : tensor F -> res (tensor F * tensor F)) (enc : @dten F -> array) ids mask save es1 e es2 (x x0 x1 x2 : @lx F) ex :
  reachable kind wsize eigh enc x -> (lx_call ids mask save ;; lx_enter) x = (x0, Ok tt) ->
  run_evs kind eigh es1 x0 = (x1, Ok tt) -> run_ev kind eigh e x1 = (x2, Err ex) ->
  with_block eigh enc ids mask save (run_evs kind eigh (es1 ++ e :: es2)) x =
  (fst (lx_exit eigh enc x2), match snd (lx_exit eigh enc x2) with Ok _ => Err ex | Err e' => Err e' end).
Proof. exact (failing_block kind wsize eigh enc ids mask save es1 e es2 x x0 x1 x2 ex). Qed.
Print Assumptions C23_failing_block.
(** The body raises after the first of two gradients: the gradient is buffered for saving. *)
Example C23_example : let x := lrun (watched kgrad) lnew in
  let r := with_block ex_eigh lenc [DStr "a"; DStr "b"] None true (run_evs lk ex_eigh (les ++ [MGrad 4 6; MRaise ValueError; MGrad 2 5])) x in
  snd r = Err ValueError /\ lshow (fst r) "fc" "grad" = Some ([2; 1; 2], ints [-3; 0; -2; -1]%Z) /\ dkeys (s_buffer (x_saver (fst r))) = [DStr "a"; DStr "b"] /\
  fst r = fst (with_block ex_eigh lenc [DStr "a"; DStr "b"] None true (run_evs lk ex_eigh (les ++ [MGrad 4 6])) x).
Proof.
  cbv zeta. split; [vm_compute; reflexivity|]. split; [vm_compute; reflexivity|]. split; [vm_compute; reflexivity|].
  change (les ++ [MGrad 4 6; MRaise ValueError; MGrad 2 5]) with ((les ++ [MGrad 4 6]) ++ MRaise ValueError :: [MGrad 2 5]).
  refine (proj1 (raising_block lk lw ex_eigh lenc [DStr "a"; DStr "b"] None true (les ++ [MGrad 4 6]) ValueError [MGrad 2 5] _ _ _ (lreach _ _ _ _) (ok_pair _ _) (ok_pair _ _))); vm_compute; reflexivity.
Qed.

(** C24. LogIX.log. *)
Theorem C24_log_discards {F} `{OField F} (eigh : tensor F -> res (tensor F * tensor F)) (enc : @dten F -> array) ids mask (x : @lx F) :
  lx_log eigh enc ids mask x = (with_batch (detach x) (Some ids) mask [], Ok tt).
Proof. exact (log_discards eigh enc ids mask x). Qed.
Print Assumptions C24_log_discards.
(** A logged gradient and its statistics options are dropped. *)
Example C24_example : let x := lrun (watched [("grad", [AStr "log"; AStr "mean"])] ++ XStart [DStr "a"; DStr "b"] None :: map XEv (les ++ lback)) lnew in
  let y := fst (lx_log ex_eigh lenc [DStr "c"] None x) in
  lshow x "fc" "grad" = Some ([2; 1; 2], ints [-2; 2; 4; 7]%Z) /\ lshow y "fc" "grad" = None /\ x_ids y = Some [DStr "c"] /\ sshow y SMean "grad" = None /\
  sshow (fst (lx_end ex_eigh lenc false x)) SMean "grad" = Some ([2], ints [2; 9]%Z).
Proof. cbv zeta. repeat split; vm_compute; reflexivity. Qed.

(** C25. get_log. *)
Theorem C25_got_copy {F} `{OField F} (kind : mid -> mkind) (wsize : mid -> nat) (eigh : tensor F -> res (tensor F * tensor F)) (enc : @dten F -> array) (x x' : @lx F) g os :
  lx_get_log true x = (x', Ok g) ->
  x' = x /\ read_got (run_ops kind wsize eigh enc os x') g = (x_ids x, log_nd (fun d => d) (x_heap x) (x_log x)).
Proof. exact (got_copy kind wsize eigh enc x x' g os). Qed.
Print Assumptions C25_got_copy.
(** Copies fail for tensors attached to the autograd graph. *)
Theorem C25_got_copy_iff {F} (x : @lx F) :
  (exists g, lx_get_log true x = (x, Ok g)) <->
  forall r, In r (blog_vals (x_log x)) -> ~ (u_req (deref (x_heap x) r) = true /\ u_leaf (deref (x_heap x) r) = false).
Proof. exact (got_copy_iff x). Qed.
Print Assumptions C25_got_copy_iff.
(** Without a copy the caller sees every later change of the log. *)
Theorem C25_got_view {F} `{OField F} (kind : mid -> mkind) (wsize : mid -> nat) (eigh : tensor F -> res (tensor F * tensor F)) (enc : @dten F -> array) (x : @lx F) os :
  exists g, lx_get_log false x = (x, Ok g) /\
  read_got (run_ops kind wsize eigh enc os x) g = (x_ids x, log_nd (fun d => d) (x_heap (run_ops kind wsize eigh enc os x)) (x_log (run_ops kind wsize eigh enc os x))).
Proof. exact (got_view kind wsize eigh enc x os). Qed.
Print Assumptions C25_got_view.
Theorem C25_got_view_next {F} `{OField F} (kind : mid -> mkind) (wsize : mid -> nat) (eigh : tensor F -> res (tensor F * tensor F)) (enc : @dten F -> array) (x : @lx F) os ids mask :
  reachable kind wsize eigh enc x -> exists g, lx_get_log false x = (x, Ok g) /\
  read_got (run_ops kind wsize eigh enc (os ++ [XStart ids mask]) x) g = (x_ids x, Node []) /\
  (forall save, read_got (run_ops kind wsize eigh enc (os ++ [XCall ids mask save]) x) g = (x_ids x, Node [])).
Proof. exact (got_view_next kind wsize eigh enc x os ids mask). Qed.
Print Assumptions C25_got_view_next.
(** A copy keeps its contents, a view becomes empty; a copy with an attached activation fails. *)
Example C25_example : let x := lrun (watched kgrad ++ XStart [DStr "a"; DStr "b"] None :: map XEv (les ++ lback)) lnew in
  let y := lrun [XStart [DStr "c"] None] x in
  let z := lrun (watched [("forward", [AStr "log"])] ++ [XStart [DStr "a"] None; XEv (MTensor 1 (node (zt [1; 2] [1; 2]%Z))); XEv (MCall 0 0 [1] (OutTensor 2 (node (zt [1; 1] [0]%Z))) true)]) lnew in
  let shown g := match snd g with Ok g => gshow (snd (read_got y g)) | Err _ => None end in
  reachable lk lw ex_eigh lenc x /\
  shown (lx_get_log true x) = Some ([2; 1; 2], ints [-2; 2; 4; 7]%Z) /\
  shown (lx_get_log false x) = None /\ lshow z "fc" "forward" = Some ([1; 2], ints [1; 2]%Z) /\ snd (lx_get_log true z) = Err RuntimeError.
Proof. cbv zeta. split; [apply lreach|]. repeat split; vm_compute; reflexivity. Qed.

(** C26. Saving only on request. *)
Theorem C26_quiet_ops {F} `{OField F} (kind : mid -> mkind) (wsize : mid -> nat) (eigh : tensor F -> res (tensor F * tensor F)) (enc : @dten F -> array) os (x : @lx F) :
  reachable kind wsize eigh enc x -> x_save x = false -> x_save_batch x = false -> Forall unsaved os ->
  same_store x (run_ops kind wsize eigh enc os x).
Proof. exact (quiet_ops kind wsize eigh enc os x). Qed.
Print Assumptions C26_quiet_ops.
Theorem C26_saves_when_asked {F} `{OField F} (eigh : tensor F -> res (tensor F * tensor F)) (enc : @dten F -> array) save (x : @lx F) ids :
  x_ids x = Some ids -> skipn 1 (o_grad (x_opt x)) = [] ->
  let '(d', s', r) := save_log (x_dir x) (settle x) ids (log_nd enc (x_heap x) (x_log x)) in
  exists vs, (s_buffer s' = [] -> vs = []) /\
    lx_end eigh enc save x = (if save || x_save x then (with_views (with_store x s' d' (x_disk x)) vs, r) else (x, Ok tt)) /\
    lx_exit eigh enc x = (if x_save_batch x || x_save x then (with_views (with_store x s' d' (x_disk x)) vs, r) else (x, Ok tt)).
Proof. exact (saves_when_asked eigh enc save x ids). Qed.
Print Assumptions C26_saves_when_asked.
Theorem C26_eval_off {F} (x : @lx F) :
  exists x', lx_eval x = (x', Ok tt) /\ x_save x' = false /\ x_save_batch x' = x_save_batch x /\ same_store x x'.
Proof. exact (eval_off x). Qed.
Print Assumptions C26_eval_off.
(** Nothing is buffered without a request; save(True), end(save=True) and a block's save=True buffer, also after eval(). *)
Example C26_example : let x := lrun (watched kgrad ++ XStart [DStr "a"; DStr "b"] None :: map XEv (les ++ lback)) lnew in
  let buffered y := dkeys (s_buffer (x_saver y)) in
  x_save x = false /\ x_save_batch x = false /\ buffered (lrun [XEnd false; XCall [DStr "c"] None false; XEnter; XExit] x) = [] /\
  buffered (lrun [XEnd true] x) = [DStr "a"; DStr "b"] /\ buffered (lrun [XSave true; XEnd false] x) = [DStr "a"; DStr "b"] /\
  buffered (lrun [XSave true; XEval; XEnd false] x) = [] /\
  buffered (lrun ([XSave true; XCall [DStr "c"; DStr "d"] None true; XEnter; XEval] ++ map XEv (les ++ lback) ++ [XExit]) x) = [DStr "c"; DStr "d"].
Proof. cbv zeta. repeat split; vm_compute; reflexivity. Qed.

(** C27. Masks. *)
Theorem C27_mask_positions {F} `{OField F} (mask act : @dten F) sh p d :
  shape (snd mask) = sh ++ [p] -> shape (snd act) = sh ++ [p; d] -> fst mask = fst act ->
  apply_mask mask act = Ok (Some (fst act, tgen (sh ++ [p; d]) (fun i => fmul (tget (snd act) i) (tget (snd mask) (removelast i))))).
Proof. exact (mask_positions mask act sh p d). Qed.
Print Assumptions C27_mask_positions.
(** A 0/1 mask keeps or zeroes whole positions. *)
Theorem C27_mask_zeroes {F} `{OField F} (mask act r : tensor F) sh p d i j :
  shape mask = sh ++ [p] -> r = tgen (sh ++ [p; d]) (fun i => fmul (tget act i) (tget mask (removelast i))) ->
  valid (sh ++ [p]) i -> j < d ->
  (tget mask i = f0 -> tget r (i ++ [j]) = f0) /\ (tget mask i = f1 -> tget r (i ++ [j]) = tget act (i ++ [j])).
Proof. exact (mask_zeroes mask act r sh p d i j). Qed.
Print Assumptions C27_mask_zeroes.
Theorem C27_mask_ignored {F} `{OField F} (mask act : @dten F) sh p sh' p' d :
  shape (snd mask) = sh ++ [p] -> shape (snd act) = sh' ++ [p'; d] ->
  length sh = length sh' -> p <> p' -> apply_mask mask act = Ok None.
Proof. exact (mask_ignored mask act sh p sh' p' d). Qed.
Print Assumptions C27_mask_ignored.
Theorem C27_mask_features {F} `{OField F} (mask act : @dten F) :
  shape (snd mask) = shape (snd act) -> shape (snd act) <> [] -> fst mask = fst act ->
  apply_mask mask act = Ok (Some (fst act, tgen (shape (snd act)) (fun i => fmul (tget (snd act) i) (tget (snd mask) i)))).
Proof. exact (mask_features mask act). Qed.
Print Assumptions C27_mask_features.
Theorem C27_mask_features_ignored {F} `{OField F} (mask act : @dten F) sh n sh' n' :
  shape (snd mask) = sh ++ [n] -> shape (snd act) = sh' ++ [n'] ->
  length sh = length sh' -> n <> n' -> apply_mask mask act = Ok None.
Proof. exact (mask_features_ignored mask act sh n sh' n'). Qed.
Print Assumptions C27_mask_features_ignored.
Theorem C27_mask_rank {F} `{OField F} (mask act : @dten F) :
  length (shape (snd mask)) <> length (shape (snd act)) ->
  S (length (shape (snd mask))) <> length (shape (snd act)) -> apply_mask mask act = Err AssertionError.
Proof. exact (mask_rank mask act). Qed.
Print Assumptions C27_mask_rank.
Theorem C27_mask_device {F} `{OField F} (mask act : @dten F) sh p d :
  shape (snd mask) = sh ++ [p] -> shape (snd act) = sh ++ [p; d] -> fst mask <> fst act ->
  apply_mask mask act = Err RuntimeError.
Proof. exact (mask_device mask act sh p d). Qed.
Print Assumptions C27_mask_device.
(** What is logged of the input of a module. *)
Theorem C27_forward_logged {F} `{OField F} (kind : mid -> mkind) (eigh : tensor F -> res (tensor F * tensor F)) gm m n t (x : @lx F) :
  o_forward (x_opt x) = [PLog] -> dget n (x_log x) = None ->
  match x_mask x with
  | None => exists x', forward_hook kind eigh gm m n [t] x = (x', Ok tt) /\ logged x' n "forward" = Some (snd (u_d (uget (x_heap x) t)))
  | Some mk => match apply_mask mk (u_d (uget (x_heap x) t)) with
               | Err e => forward_hook kind eigh gm m n [t] x = (x, Err e)
               | Ok None => exists x', forward_hook kind eigh gm m n [t] x = (x', Ok tt) /\ logged x' n "forward" = Some (snd (u_d (uget (x_heap x) t)))
               | Ok (Some d) => exists x', forward_hook kind eigh gm m n [t] x = (x', Ok tt) /\ logged x' n "forward" = Some (snd d)
               end
  end.
Proof. exact (forward_logged kind eigh gm m n t x). Qed.
Print Assumptions C27_forward_logged.
(** Statistics see the same tensors. *)
Theorem C27_batch_statistics {F} `{OField F} (kind : mid -> mkind) (wsize : mid -> nat) (eigh : tensor F -> res (tensor F * tensor F)) (enc : @dten F -> array) ids mask es (x x1 x2 : @lx F) :
  reachable kind wsize eigh enc x -> begins ids mask x x1 -> moments_only (x_opt x) ->
  run_evs kind eigh es x1 = (x2, Ok tt) -> own_backward [] es ->
  run_calls (stat_calls kind (x_mods x) (x_names x) (x_opt x) mask (x_offload x) (x_heap x) [] es) (x_state x) = (x_state x2, Ok tt) /\
  x_heap x2 = heap_after (x_heap x) es.
Proof. exact (batch_statistics kind wsize eigh enc ids mask es x x1 x2). Qed.
Print Assumptions C27_batch_statistics.
(** The second position of the first sample is padding. *)
Example C27_example : let x := lrun (watched [("forward", [AStr "log"; AStr "mean"])]) lnew in
  let ev := [MTensor 1 (UT xact false true); MCall 0 0 [1] (OutTensor 2 (node (zt [2; 2; 1] [0; 0; 0; 0]%Z))) true] in
  let go mask := fst (levs ev (fst (lx_start [DStr "a"; DStr "b"] mask x))) in
  lshow (go (Some xmask)) "fc" "forward" = Some ([2; 2; 2], ints [1; 2; 0; 0; 5; 6; 7; 8]%Z) /\ sshow (go (Some xmask)) SMean "forward" = Some ([2], ints [13; 16]%Z) /\
  lshow (go (Some (Cpu, zt [2; 3] [1; 0; 1; 1; 1; 1]%Z))) "fc" "forward" = Some ([2; 2; 2], ints [1; 2; 3; 4; 5; 6; 7; 8]%Z) /\
  lshow (go (Some (Cpu, zt [2; 2; 2] [1; 0; 1; 0; 1; 0; 1; 0]%Z))) "fc" "forward" = Some ([2; 2; 2], ints [1; 0; 3; 0; 5; 0; 7; 0]%Z) /\
  snd (levs ev (fst (lx_start [DStr "a"; DStr "b"] (Some (Cpu, zt [2] [1; 0]%Z)) x))) = Err AssertionError /\
  snd (levs ev (fst (lx_start [DStr "a"; DStr "b"] (Some (Gpu, zt [2; 2] [1; 0; 1; 1]%Z)) x))) = Err RuntimeError.
Proof. cbv zeta. repeat split; vm_compute; reflexivity. Qed.

(** C28. Plugin lists. *)
Theorem C28_setup_ok {F} kw (x : @lx F) :
  all_known (kw_get "forward" kw) -> all_known (kw_get "backward" kw) -> all_known (kw_get "grad" kw) ->
  exists o, lx_setup kw x = (with_opt x o, Ok tt) /\ requested (kw_get "forward" kw) (o_forward o) /\
    requested (kw_get "backward" kw) (o_backward o) /\ requested (kw_get "grad" kw) (o_grad o).
Proof. exact (setup_ok kw x). Qed.
Print Assumptions C28_setup_ok.
Theorem C28_setup_bad {F} kw (x : @lx F) :
  ~ (all_known (kw_get "forward" kw) /\ all_known (kw_get "backward" kw) /\ all_known (kw_get "grad" kw)) ->
  exists o, lx_setup kw x = (with_opt x o, Err AssertionError) /\ o_grad o = [] /\
    (all_known (kw_get "forward" kw) -> requested (kw_get "forward" kw) (o_forward o)) /\
    (~ all_known (kw_get "forward" kw) -> o_forward o = []) /\
    (all_known (kw_get "forward" kw) -> all_known (kw_get "backward" kw) -> requested (kw_get "backward" kw) (o_backward o)) /\
    (~ (all_known (kw_get "forward" kw) /\ all_known (kw_get "backward" kw)) -> o_backward o = []).
Proof. exact (setup_bad kw x). Qed.
Print Assumptions C28_setup_bad.
Theorem C28_requested_nodup l ps :
  requested l ps -> NoDup ps.
Proof. exact (requested_nodup l ps). Qed.
Print Assumptions C28_requested_nodup.
(** The result depends only on the set of requested plugins. *)
Theorem C28_requested_unique l l' ps ps' :
  requested l ps -> requested l' ps' ->
  (forall p, (exists a, In a l /\ known a = Some p) <-> (exists a, In a l' /\ known a = Some p)) -> ps = ps'.
Proof. exact (requested_unique l l' ps ps'). Qed.
Print Assumptions C28_requested_unique.
(** setup rewrites the lists in the caller's dictionary; using the dictionary again gives the same options. *)
Theorem C28_opt_setup_again kw o kw' :
  opt_setup kw = (o, kw', Ok tt) -> exists kw'', opt_setup kw' = (o, kw'', Ok tt).
Proof. exact (opt_setup_again kw o kw'). Qed.
Print Assumptions C28_opt_setup_again.
Example C28_example : let kw := [("backward", [AStr "corrected_eigval"; AClass PMean; AStr "log"; AStr "mean"]); ("unused", [AOther])] in
  all_known (kw_get "backward" kw) /\ requested (kw_get "backward" kw) [PLog; PMean; PCorrectedEigval] /\
  fst (fst (opt_setup kw)) = Opts [] [PLog; PMean; PCorrectedEigval] [] /\ snd (opt_setup kw) = Ok tt /\
  fst (fst (opt_setup [("forward", [AStr "log"]); ("backward", [AStr "median"]); ("grad", [AStr "log"])])) = Opts [PLog] [] [] /\
  snd (opt_setup [("forward", [AStr "log"]); ("backward", [AStr "median"]); ("grad", [AStr "log"])]) = Err AssertionError.
Proof.
  cbv zeta. split; [intros a; cbn; intuition (subst; discriminate)|]. split.
  - split; [repeat constructor|]. intros p. split.
    + intros [<-|[<-|[<-|[]]]]; [exists (AStr "log")|exists (AStr "mean")|exists (AStr "corrected_eigval")]; cbn; auto 6.
    + intros (a & Ha & Ka). cbn in Ha. destruct Ha as [<-|[<-|[<-|[<-|[]]]]]; cbn in Ka; injection Ka as <-; cbn; auto.
  - repeat split.
Qed.

(** C29. Gradient statistics without Log. *)
Theorem C29_batch_without_log {F} `{OField F} (kind : mid -> mkind) (wsize : mid -> nat) (eigh : tensor F -> res (tensor F * tensor F)) (enc : @dten F -> array) kw ids mask es t m i g (x0 x x1 x2 : @lx F) :
  reachable kind wsize eigh enc x -> lx_setup kw x0 = (x, Ok tt) -> begins ids mask x x1 ->
  kw_get "grad" kw <> [] -> (forall a, In a (kw_get "grad" kw) -> known a <> Some PLog) ->
  run_evs kind eigh es x1 = (x2, Ok tt) -> In (t, (m, i)) (outputs es) -> In m (x_mods x) -> run_ev kind eigh (MGrad t g) x2 = (x2, Err AssertionError).
Proof. exact (batch_without_log kind wsize eigh enc kw ids mask es t m i g x0 x x1 x2). Qed.
Print Assumptions C29_batch_without_log.
Theorem C29_batch_with_log {F} `{OField F} (kind : mid -> mkind) (wsize : mid -> nat) (eigh : tensor F -> res (tensor F * tensor F)) (enc : @dten F -> array) kw ids mask es t g (x0 x x1 x2 : @lx F) :
  reachable kind wsize eigh enc x -> lx_setup kw x0 = (x, Ok tt) -> begins ids mask x x1 ->
  (kw_get "grad" kw = [] \/ exists a, In a (kw_get "grad" kw) /\ known a = Some PLog) ->
  run_evs kind eigh es x1 = (x2, Ok tt) -> snd (run_ev kind eigh (MGrad t g) x2) <> Err AssertionError.
Proof. exact (batch_with_log kind wsize eigh enc kw ids mask es t g x0 x x1 x2). Qed.
Print Assumptions C29_batch_with_log.
Example C29_example : let kw := [("grad", [AStr "covariance"])] in let kw' := [("grad", [AStr "covariance"; AStr "log"])] in
  let x kw := lrun (watched kw) lnew in let x1 kw := fst (lx_start [DStr "a"; DStr "b"] None (x kw)) in
  lx_setup kw (lrun [XWatch [("fc", 0)]] lnew) = (x kw, Ok tt) /\ begins [DStr "a"; DStr "b"] None (x kw) (x1 kw) /\
  levs les (x1 kw) = (fst (levs les (x1 kw)), Ok tt) /\ In (4, (0, 3)) (outputs les) /\ In 0 (x_mods (x kw)) /\
  snd (levs (les ++ lback) (x1 kw)) = Err AssertionError /\ snd (levs (les ++ lback) (x1 kw')) = Ok tt.
Proof.
  cbv zeta. split; [reflexivity|]. split; [apply lbegins; reflexivity|]. split; [apply ok_pair; reflexivity|]. split; [cbn; auto|]. split; [vm_compute; auto|]. split; vm_compute; reflexivity.
Qed.

(** C33. Statistics of masked sequences. *)
Theorem C33_masked_statistics {F} `{OField F} (dk : @sdisk F) inf o n st D (bs : list (@mbatch F)) s :
  bs <> [] -> Forall (mb_ok D) bs -> concat (map (mb_kept D) bs) <> [] ->
  run_calls (map (mb_call (KLinear inf o) n st) bs) state_init = (s, Ok tt) ->
  exists s' dk', finalize dk s = (s', Ok dk') /\
    stored s' st n "forward" = Some (moment st D (concat (map (mb_kept D) bs)) (fnat (length (concat (map (mb_kept D) bs))))).
Proof. exact (masked_statistics dk inf o n st D bs s). Qed.
Print Assumptions C33_masked_statistics.
(** Without a mask the same rows are divided by the number of samples. *)
Theorem C33_plain_statistics {F} `{OField F} (dk : @sdisk F) inf o n st D (b : @mbatch F) s :
  mb_ok D b -> (forall p q, p < mb_B b -> q < mb_P b -> mb_keep b p q = true) ->
  run_calls [mb_plain (KLinear inf o) n st b] state_init = (s, Ok tt) ->
  length (mb_kept D b) = mb_B b * mb_P b /\
  exists s' dk', finalize dk s = (s', Ok dk') /\ stored s' st n "forward" = Some (moment st D (mb_kept D b) (fnat (mb_B b))).
Proof. exact (plain_statistics dk inf o n st D b s). Qed.
Print Assumptions C33_plain_statistics.
(** Two samples, two positions, one of them padding: mean and covariance over three rows. With an all-ones mask the mean
    is taken over four rows, without a mask the sum of the four rows is divided by two. *)
Example C33_example : let run cs := fst (finalize ex_dk (fst (run_calls cs state_init))) in let k := KLinear 2 1 in
  mb_ok 2 xmb /\ mb_ok 2 xones /\ map (map this) (mb_kept 2 xmb) = [ints [1; 2]%Z; ints [5; 6]%Z; ints [7; 8]%Z] /\
  snd (run_calls [mb_call k "fc" SMean xmb] state_init) = Ok tt /\
  oshow (stored (run [mb_call k "fc" SMean xmb]) SMean "fc" "forward") = Some ([2], [13 # 3; 16 # 3]%Q) /\
  oshow (stored (run [mb_call k "fc" SCov xmb]) SCov "fc" "forward") = Some ([2; 2], [25; 88 # 3; 88 # 3; 104 # 3]%Q) /\
  oshow (stored (run [mb_call k "fc" SMean xones]) SMean "fc" "forward") = Some ([2], [4; 5]%Q) /\
  oshow (stored (run [mb_plain k "fc" SMean xones]) SMean "fc" "forward") = Some ([2], [8; 10]%Q).
Proof. cbv zeta. split; [apply xmb_ok|]. split; [apply xones_ok|]. repeat split; vm_compute; reflexivity. Qed.

(** C62. Modules the hooks reject. *)
Theorem C62_batch_inputs {F} `{OField F} (kind : mid -> mkind) (wsize : mid -> nat) (eigh : tensor F -> res (tensor F * tensor F)) (enc : @dten F -> array) ids mask es c m ins out gm (x x1 x2 : @lx F) :
  reachable kind wsize eigh enc x -> begins ids mask x x1 -> run_evs kind eigh es x1 = (x2, Ok tt) -> In m (x_mods x) ->
  length ins <> 1 -> snd (run_ev kind eigh (MCall c m ins out gm) x2) = Err AssertionError.
Proof. exact (batch_inputs kind wsize eigh enc ids mask es c m ins out gm x x1 x2). Qed.
Print Assumptions C62_batch_inputs.
(** Watched modules must return a tensor that requires gradients. *)
Theorem C62_batch_outputs {F} `{OField F} (kind : mid -> mkind) (wsize : mid -> nat) (eigh : tensor F -> res (tensor F * tensor F)) (enc : @dten F -> array) ids mask es c m i out gm (x x1 x2 : @lx F) :
  reachable kind wsize eigh enc x -> begins ids mask x x1 -> run_evs kind eigh es x1 = (x2, Ok tt) -> In m (x_mods x) ->
  (forall t u, out = OutTensor t u -> u_req u = false) -> (forall e, out <> OutRaise e) ->
  match run_ev kind eigh (MCall c m [i] out gm) x2 with
  | (_, Ok _) => False
  | (_, Err e) => (o_forward (x_opt x) = [] -> mask = None -> e = match out with OutTensor _ _ => RuntimeError | _ => AttributeError end)
  end.
Proof. exact (batch_outputs kind wsize eigh enc ids mask es c m i out gm x x1 x2). Qed.
Print Assumptions C62_batch_outputs.
Example C62_example : let x := lrun (watched [] ++ map XEv les) lnew in let x1 := fst (lx_start [DStr "a"; DStr "b"] None x) in
  reachable lk lw ex_eigh lenc x /\ begins [DStr "a"; DStr "b"] None x x1 /\ In 0 (x_mods x) /\
  snd (levs [MCall 8 0 [1; 3] (OutTensor 9 (node (zt [2; 1] [0; 0]%Z))) true] x1) = Err AssertionError /\
  snd (levs [MCall 8 0 [1] (OutTensor 9 (leaf (zt [2; 1] [0; 0]%Z))) false] x1) = Err RuntimeError /\
  snd (levs [MCall 8 0 [1] OutOther true] x1) = Err AttributeError /\
  snd (levs [MCall 8 1 [1; 3] OutOther true] x1) = Ok tt.
Proof. cbv zeta. split; [apply lreach|]. split; [apply lbegins; vm_compute; reflexivity|]. split; [vm_compute; auto|]. repeat split; vm_compute; reflexivity. Qed.

(** C63. An epoch of statistics. *)
Theorem C63_pristine_init {F} w t off :
  pristine (x_state (@lx_init F w t off)).
Proof. exact (pristine_init w t off). Qed.
Print Assumptions C63_pristine_init.
(** Constructing, watching and configuring leaves the statistics empty. *)
Theorem C63_pristine_ops {F} `{OField F} (kind : mid -> mkind) (wsize : mid -> nat) (eigh : tensor F -> res (tensor F * tensor F)) (enc : @dten F -> array) os (x : @lx F) :
  Forall preparation os -> pristine (x_state x) -> pristine (x_state (run_ops kind wsize eigh enc os x)).
Proof. exact (pristine_ops kind wsize eigh enc os x). Qed.
Print Assumptions C63_pristine_ops.
Theorem C63_epoch_statistics {F} `{OField F} (kind : mid -> mkind) (wsize : mid -> nat) (eigh : tensor F -> res (tensor F * tensor F)) (enc : @dten F -> array) bs (x x' : @lx F) :
  epoch kind eigh enc bs x x' -> reachable kind wsize eigh enc x -> pristine (x_state x) -> moments_only (x_opt x) -> skipn 1 (o_grad (x_opt x)) = [] ->
  Forall (fun b => own_backward [] (bt_evs b)) bs ->
  let cs := epoch_calls kind (x_mods x) (x_names x) (x_opt x) (x_offload x) (x_heap x) bs in
  Forall call_ok cs -> forall st m t, let ccs := calls_for st m t cs in
    (ccs = [] -> stored (x_state (fst (lx_finalize x'))) st m t = None) /\
    (ccs <> [] -> stored (x_state (fst (lx_finalize x'))) st m t = Some (moment st (width (all_rows ccs)) (all_rows ccs) (all_count ccs))).
Proof. exact (epoch_statistics kind wsize eigh enc bs x x'). Qed.
Print Assumptions C63_epoch_statistics.
(** Two batches, the first with two calls of the layer: the mean over the six inputs divided by their number. *)
Example C63_example : let x := lrun (watched kstat) lnew in
  let b1 := Batch [DStr "a"; DStr "b"] None (les ++ lback) in let b2 := Batch [DStr "c"; DStr "d"] None [MCall 2 0 [3] (OutTensor 4 (node (zt [2; 1] [0; 0]%Z))) true] in
  let y := lrun ([XStart [DStr "a"; DStr "b"] None] ++ map XEv (bt_evs b1) ++ [XEnd false; XStart [DStr "c"; DStr "d"] None] ++ map XEv (bt_evs b2) ++ [XEnd false]) x in
  let cs := epoch_calls lk (x_mods x) (x_names x) (x_opt x) (x_offload x) (x_heap x) [b1; b2] in
  epoch lk ex_eigh lenc [b1; b2] x y /\ reachable lk lw ex_eigh lenc x /\ pristine (x_state x) /\ moments_only (x_opt x) /\ skipn 1 (o_grad (x_opt x)) = [] /\
  Forall (fun b => own_backward [] (bt_evs b)) [b1; b2] /\ Forall call_ok cs /\
  length cs = 8 /\ length (all_rows (calls_for SMean "fc" "forward" cs)) = 6 /\
  sshow (fst (lx_finalize y)) SMean "forward" = Some ([2], [1; 4 # 3]%Q) /\ sshow (fst (lx_finalize y)) SCov "backward" = Some ([1; 1], [15 # 4]%Q).
Proof.
  cbv zeta. split.
  { refine (e_start_end _ _ _ (Batch _ _ _) _ false _ _ _ (ok_pair _ _) (e_start_end _ _ _ (Batch _ _ _) _ false _ _ _ (ok_pair _ _) _)); cbn [bt_ids bt_mask bt_evs].
    - vm_compute; reflexivity.
    - vm_compute; reflexivity.
    - match goal with |- epoch _ _ _ _ ?a ?b => replace b with a by (vm_compute; reflexivity) end. constructor. }
  split; [apply lreach|]. split; [apply pristine_ops; [repeat constructor|apply pristine_init]|]. split; [intros p; vm_compute; intuition (subst; auto)|].
  split; [reflexivity|]. split; [repeat (apply Forall_cons; [cbn; auto 10|]); apply Forall_nil|]. split.
  { apply call_okb_ok. vm_compute. reflexivity. }
  repeat split; vm_compute; reflexivity.
Qed.

(** C64. Logging the inputs of a re-used module. *)
Theorem C64_reuse_overwrites {F} `{OField F} (kind : mid -> mkind) (wsize : mid -> nat) (eigh : tensor F -> res (tensor F * tensor F)) (enc : @dten F -> array) ids c1 c2 m i1 i2 t1 u1 t2 u2 g1 g2 (x x1 x2 : @lx F) :
  reachable kind wsize eigh enc x -> begins ids None x x1 ->
  o_forward (x_opt x) = [PLog] -> times m (x_mods x) = 1 -> t1 <> i1 -> t2 <> i1 ->
  twf (snd (mem_get (x_heap x) i1)) -> twf (snd (mem_get (dset t1 u1 (x_heap x)) i2)) ->
  run_evs kind eigh [MCall c1 m [i1] (OutTensor t1 u1) g1; MCall c2 m [i2] (OutTensor t2 u2) g2] x1 = (x2, Ok tt) ->
  sum_onto [snd (mem_get (x_heap x) i1); snd (mem_get (dset t1 u1 (x_heap x)) i2)] (snd (mem_get (x_heap x2) i1)) /\
  logged x2 (name_of (x_names x) m) "forward" = Some (snd (mem_get (x_heap x2) i1)).
Proof. exact (reuse_overwrites kind wsize eigh enc ids c1 c2 m i1 i2 t1 u1 t2 u2 g1 g2 x x1 x2). Qed.
Print Assumptions C64_reuse_overwrites.
(** The first input, (1, 2; 3, 4), is overwritten with the sum of both inputs, and the gradient is computed from it. *)
Example C64_example : let x := lrun (watched [("forward", [AStr "log"]); ("grad", [AStr "log"])] ++ [XEv (MTensor 3 (leaf (zt [2; 2] [-1; 0; 2; 1]%Z))); XEv (MTensor 1 (leaf (zt [2; 2] [1; 2; 3; 4]%Z)))]) lnew in
  let calls := [MCall 0 0 [1] (OutTensor 2 (node (zt [2; 1] [0; 0]%Z))) true; MCall 1 0 [3] (OutTensor 4 (node (zt [2; 1] [0; 0]%Z))) true] in
  let x1 := fst (lx_start [DStr "a"; DStr "b"] None x) in let x2 := fst (levs calls x1) in
  reachable lk lw ex_eigh lenc x /\ begins [DStr "a"; DStr "b"] None x x1 /\ o_forward (x_opt x) = [PLog] /\ times 0 (x_mods x) = 1 /\ levs calls x1 = (x2, Ok tt) /\
  show (snd (mem_get (x_heap x2) 1)) = ([2; 2], ints [0; 2; 5; 5]%Z) /\
  lshow (fst (levs ([MTensor 5 (leaf (zt [2; 1] [1; 2]%Z)); MTensor 6 (leaf (zt [2; 1] [3; -1]%Z))] ++ lback) x2)) "fc" "grad" = Some ([2; 1; 2], ints [-3; 2; 8; 9]%Z).
Proof. cbv zeta. split; [apply lreach|]. split; [apply lbegins; vm_compute; reflexivity|]. do 2 (split; [vm_compute; reflexivity|]). split; [apply ok_pair; vm_compute; reflexivity|]. split; vm_compute; reflexivity. Qed.

