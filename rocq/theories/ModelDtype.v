(** Model of the conversion of logged tensors to the configured data type: /repo/logix/config.py:70-81 [get_dtype] and the
    places where /repo/logix/logging/logger.py uses [self.dtype]. ModelLogger.v is the logger for the default "none";
    here the hooks are written again with the conversions. Everything else of the logger does not use the data type. *)
From Coq Require Import ZArith.
From Verif Require Import Py Field Tensor ModelGrad Monad ModelState ModelMmap ModelSaver ModelLogger ModelConfig.
Local Open Scope nat_scope.

(** config.py:70-81 *)
Definition get_dtype (log_dtype : pv) : option dtype :=
  match log_dtype with
  | PStr s => if String.eqb s "none" then None
              else if String.eqb s "float64" then Some F64
              else if String.eqb s "float16" then Some F16
              else if String.eqb s "bfloat16" then Some BF16
              else if String.eqb s "int8" then Some I8
              else Some F32
  | _ => Some F32
  end.

Section Dtype.
  Context {F : Type} `{OField F}.
  Notation tensor := (tensor F).
  Notation dten := (@dten F).
  Notation lx := (@lx F).

  (** torch's [t.to(dtype=...)] for one data type: is it a floating type, which tensors of the program have it already
      ([to] then returns the tensor itself; overwriting a tensor does not change its type), and what the values become.
      The values of the model are exact: sums of converted tensors are not rounded again. *)
  Record dcast := DCast { dc_float : bool; dc_has : tid -> bool; dc_cast : dten -> dten }.
  Variable kind : mid -> mkind.
  Variable wsize : mid -> nat.
  Variable eigh : tensor -> res (tensor * tensor).
  Variable enc : dten -> array.
  (** logger.py:46: the logger's data type *)
  Variable dt : option dcast.

  (** [if self.dtype is not None: x = x.to(dtype=self.dtype)]. A converted tensor is a new one; while autograd records
      ([gm]) it is part of the graph, unless the type is not a floating one. *)
  Definition to_dtype (gm : bool) (h : @heap F) (r : lref) : lref :=
    match dt with
    | None => r
    | Some c =>
        match r with
        | Ref t => if dc_has c t then Ref t
                   else let u := uget h t in
                        let req := gm && u_req u && dc_float c in
                        Own (UT (dc_cast c (u_d u)) req (negb req))
        | Own u => let req := u_req u && dc_float c in Own (UT (dc_cast c (u_d u)) req (if dc_float c then u_leaf u else true))
        end
    end.
  (** logger.py:103-143; the conversion at 131-132 *)
  Definition forward_hook_dt (gm : bool) (m : mid) (name : string) (inputs : list tid) : SM lx unit := fun x =>
    match inputs with
    | [t] =>
        let u := uget (x_heap x) t in
        (let! act := lift (match x_mask x with
                           | None => Ok (Ref t)
                           | Some mk => let* r := apply_mask mk (u_d u) in
                                        Ok (match r with
                                            | None => Ref t
                                            | Some d => Own (UT d (gm && u_req u) (negb (gm && u_req u)))
                                            end)
                           end) in
         let act := to_dtype gm (x_heap x) act in
         seach (fun p => run_plugin eigh p (Some (kind m)) name "forward" (Some act)) (o_forward (x_opt x))) x
    | _ => (x, Err AssertionError)
    end.
  (** logger.py:145-177; the conversion at 165-166 *)
  Definition backward_hook_dt (m : mid) (name : string) (grad_outputs : list tid) : SM lx unit := fun x =>
    match grad_outputs with
    | [g] => let error := to_dtype false (x_heap x) (Ref g) in
             seach (fun p => run_plugin eigh p (Some (kind m)) name "backward" (Some error)) (o_backward (x_opt x)) x
    | _ => (x, Err AssertionError)
    end.
  (** logger.py:202-219; the conversion at 207-208: the gradient is computed from the unconverted tensors *)
  Definition grad_tensor_hook_dt (m : mid) (name : string) (inp g : tid) : SM lx unit := fun x =>
    match o_grad (x_opt x) with
    | [] => (x, Ok tt)
    | p :: _ =>
        if plugin_eqb p PLog then
          let a := u_d (uget (x_heap x) inp) in
          let b := u_d (uget (x_heap x) g) in
          (let! psg := lift (if dev_eqb (fst a) (fst b) then compute_per_sample_gradient (snd a) (snd b) (kind m) else Err RuntimeError) in
           let psg := to_dtype false (x_heap x) (Own (UT (fst a, psg) false true)) in
           seach (fun p => run_plugin eigh p (Some (kind m)) name "grad" (Some psg)) (firstn 1 (o_grad (x_opt x)))) x
        else (x, Err AssertionError)
    end.
  (** logger.py:224-247; the conversion at 235-236. Autograd is recording when activations are watched. *)
  Definition tensor_forward_hook_dt (t : tid) (name : string) : SM lx unit := fun x =>
    seach (fun p => run_plugin eigh p None name "forward" (Some (to_dtype true (x_heap x) (Ref t)))) (o_forward (x_opt x)) x.
  (** logger.py:249-272; the conversion at 260-261 *)
  Definition tensor_backward_hook_dt (name : string) (g : tid) : SM lx unit := fun x =>
    seach (fun p => run_plugin eigh p None name "backward" (Some (to_dtype false (x_heap x) (Ref g)))) (o_backward (x_opt x)) x.
  (** logger.py:296-308: the hook is registered on the program's tensor *)
  Definition register_all_tensor_hooks_dt (ts : list (string * tid)) : SM lx unit :=
    seach (fun p => tensor_forward_hook_dt (snd p) (fst p) ;;
                    let! x := sget in
                    register_tensor_hook (uget (x_heap x) (snd p)) (HActT (snd p) (fst p))) ts.
  (** the program's events, as [run_ev] of ModelLogger.v *)
  Definition run_ev_dt (e : @ev F) : SM lx unit :=
    match e with
    | MTensor t u => fun x => (with_heap x (dset t u (x_heap x)), Ok tt)
    | MCall c m ins out gm =>
        (fun x => (with_calls x (dset c (back_of m (x_reg x)) (x_calls x)), Ok tt)) ;;
        let! x := sget in
        seach (fun n => forward_hook_dt gm m n ins) (pre_of m (x_reg x)) ;;
        match out with
        | OutRaise e => sfail e
        | OutOther => let! x := sget in seach (fun n => grad_hook m n ins out) (fwd_of m (x_reg x))
        | OutTensor t u =>
            (fun x => (with_heap x (dset t u (x_heap x)), Ok tt)) ;;
            let! x := sget in
            seach (fun n => grad_hook m n ins out) (fwd_of m (x_reg x))
        end
    | MGrad t g =>
        let! x := sget in
        seach (fun h => match h with
                        | HGradT _ m n i => grad_tensor_hook_dt m n i g
                        | HActT _ n => tensor_backward_hook_dt n g
                        | _ => sret tt
                        end) (on_tensor t (x_reg x))
    | MBack c gs =>
        let! x := sget in
        seach (fun h => match h with HBack m n => backward_hook_dt m n gs | _ => sret tt end)
              (match dget c (x_calls x) with Some l => l | None => [] end)
    | MRaise e => sfail e
    end.
  Definition run_evs_dt (es : list ev) : SM lx unit := seach run_ev_dt es.
  (** the public operations *)
  Definition run_op_dt (o : @op F) : SM lx unit :=
    match o with
    | XWatchAct ts => register_all_tensor_hooks_dt ts
    | XEv e => run_ev_dt e
    | _ => run_op kind wsize eigh enc o
    end.
  Definition run_ops_dt (os : list op) (x : lx) : lx := fold_left (fun x o => fst (run_op_dt o x)) os x.
End Dtype.
