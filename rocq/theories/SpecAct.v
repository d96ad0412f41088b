(** Vocabulary for tensors handed to watch_activation. *)
From Verif Require Import Py Field Tensor ModelGrad Monad ModelState ModelMmap ModelSaver ModelLogger SpecGrad SpecState SpecLogger.
Local Open Scope string_scope.
Local Open Scope list_scope.
Local Open Scope nat_scope.

Section Spec.
  Context {F : Type} `{OField F}.
  (** the phase logs first and then collects statistics *)
  Definition logs_first (ps : list plugin) : Prop := exists r, ps = PLog :: r /\ ~ In PLog r.
  (** every tensor requires gradients *)
  Definition trackable (x : @lx F) (ts : list (string * tid)) : Prop := forall n t, In (n, t) ts -> u_req (uget (x_heap x) t) = true.
  (** the names are new in the log *)
  Definition new_names (x : @lx F) (ts : list (string * tid)) : Prop := NoDup (map fst ts) /\ forall n, In n (map fst ts) -> logged x n "forward" = None.
  (** what the statistics see: the tensor without its module, unmasked *)
  Definition act_calls (x : @lx F) (ts : list (string * tid)) : list (@call F) :=
    concat (map (fun p => map (fun st => Call st (BInfo (option_map snd (x_mask x)) (Node [])) None (fst p) "forward" (Some (mem_get (x_heap x) (snd p))) (x_offload x))
                              (concat (map stat_of (o_forward (x_opt x))))) ts).
  (** the same for the gradient [g] that reaches the tensors called [ns] *)
  Definition act_grad_calls (x : @lx F) (g : tid) (ns : list string) : list (@call F) :=
    concat (map (fun n => map (fun st => Call st (BInfo (option_map snd (x_mask x)) (Node [])) None n "backward" (Some (mem_get (x_heap x) g)) (x_offload x))
                              (concat (map stat_of (o_backward (x_opt x))))) ns).
  Definition names_of_tensor (t : tid) (ts : list (string * tid)) : list string := map fst (filter (fun p => t =? snd p) ts).
End Spec.
