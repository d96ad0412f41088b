(** Specification vocabulary for the configured data type (C93). *)
From Coq Require Import ZArith.
From Verif Require Import Py Field Tensor ModelGrad Monad ModelState ModelMmap ModelSaver ModelLogger ModelDtype SpecGrad SpecState SpecLogger.
Local Open Scope nat_scope.

Section Spec.
  Context {F : Type} `{OField F}.
  Notation tensor := (tensor F).
  Notation dten := (@dten F).
  Notation uten := (@uten F).
  Notation lx := (@lx F).
  Notation ev := (@ev F).
  (** a LogIX object with a data type after any sequence of public operations and program events *)
  Definition reachable_dt (kind : mid -> mkind) (wsize : mid -> nat) (eigh : tensor -> res (tensor * tensor)) (enc : dten -> array)
    (dt : option (@dcast F)) (x : lx) : Prop := exists w t off os, x = run_ops_dt kind wsize eigh enc dt os (lx_init w t off).
  (** what reaches the log: an input of a module, a gradient of its output, or the two from which the per-sample gradient is made *)
  Inductive handed := HIn (m : mid) (d : dten) | HOut (m : mid) (d : dten) | HGr (m : mid) (a g : dten).
  Definition hand_mod (e : handed) : mid := match e with HIn m _ | HOut m _ | HGr m _ _ => m end.
  Definition hand_type (e : handed) : string := match e with HIn _ _ => "forward" | HOut _ _ => "backward" | HGr _ _ _ => "grad" end.
  Definition logs (ps : list plugin) : bool := existsb (plugin_eqb PLog) ps.
  (** in order of arrival; [outs], [cs]: the outputs and calls so far *)
  Fixpoint hands (o : opts) (h : list (tid * uten)) (outs : list (tid * (mid * tid))) (cs : dict nat mid) (es : list ev) : list handed :=
    match es with
    | [] => []
    | MTensor t u :: r => hands o (dset t u h) outs cs r
    | MCall c m ins out _ :: r =>
        match ins with [i] => if logs (o_forward o) then [HIn m (mem_get h i)] else [] | _ => [] end ++
        hands o (match out with OutTensor t u => dset t u h | _ => h end)
                (match ins, out with [i], OutTensor t _ => outs ++ [(t, (m, i))] | _, _ => outs end) (dset c m cs) r
    | MGrad t g :: r =>
        (if logs (o_grad o) then map (fun p => HGr (fst (snd p)) (mem_get h (snd (snd p))) (mem_get h g)) (filter (fun p => t =? fst p) outs) else []) ++
        hands o h outs cs r
    | MBack c gs :: r =>
        match dget c cs, gs with Some m, [g] => if logs (o_backward o) then [HOut m (mem_get h g)] else [] | _, _ => [] end ++
        hands o h outs cs r
    | MRaise _ :: r => hands o h outs cs r
    end.
  (** the tensor that is logged: masked or made into a gradient first, then converted *)
  Definition becomes (kind : mid -> mkind) (c : @dcast F) (mask : option dten) (e : handed) (t : tensor) : Prop :=
    match e with
    | HIn _ d => t = snd (dc_cast c (seen mask d))
    | HOut _ d => t = snd (dc_cast c d)
    | HGr m a g => exists p, psg_is kind (m, (a, g)) p /\ t = snd (dc_cast c (fst a, p))
    end.
  (** what concerns a log name and type, once per watch of the module *)
  Definition arriving (mods : list mid) (names : dict mid string) (n ty : string) (es : list handed) : list handed :=
    concat (map (fun e => if String.eqb (name_of names (hand_mod e)) n && String.eqb (hand_type e) ty then repeat e (times (hand_mod e) mods) else []) es).
  (** the modules' inputs and output gradients are well-formed tensors *)
  Definition hand_wf (e : handed) : Prop := match e with HIn _ d | HOut _ d => twf (snd d) | HGr _ _ _ => True end.
  (** none of the tensors given to the modules, and of the gradients of their outputs, has the data type already *)
  Definition foreign (c : @dcast F) (e : ev) : Prop :=
    match e with
    | MCall _ _ ts _ _ | MBack _ ts => Forall (fun t => dc_has c t = false) ts
    | _ => True
    end.
  (** the same statistics call with the tensor converted *)
  Definition converted (c : @dcast F) (k : @call F) : @call F :=
    Call (k_stat k) (k_b k) (k_mod k) (k_m k) (k_t k) (option_map (dc_cast c) (k_data k)) (k_off k).
  (** activations and output gradients are logged and their means and covariances are collected *)
  Definition logs_and_moments (o : opts) : Prop :=
    forall p, In p (o_forward o) \/ In p (o_backward o) -> p = PLog \/ p = PMean \/ p = PCovariance.
End Spec.
