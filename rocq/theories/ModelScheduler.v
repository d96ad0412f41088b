(** Model of /repo/logix/scheduler.py. *)
From Coq Require Import ZArith.
From Verif Require Import Py PyStr Field Tensor ModelGrad Monad ModelState ModelMmap ModelSaver ModelLogger ModelModules ModelLora.
Local Open Scope string_scope.
Local Open Scope list_scope.
Local Open Scope nat_scope.

(** A scheduler: its arguments, the epoch counter, the schedule, and what the iterator has not yet handed out.
    setup() rewrites names in the lists of a schedule entry; they contain classes only and every entry is used once. *)
Record sched := Sched { sc_lora : string; sc_hessian : string; sc_save : string; sc_epoch : Z; sc_all : list okwargs; sc_rest : list okwargs }.

(** scheduler.py:41-43 *)
Definition sanity_check (lora hessian : string) : res unit :=
  if mem lora ["none"; "random"; "pca"] then
    if mem hessian ["none"; "raw"; "kfac"; "ekfac"] then Ok tt else Err AssertionError
  else Err AssertionError.
(** scheduler.py:45-50 *)
Definition lora_epoch (lora : string) : Z :=
  if String.eqb lora "random" then 0 else if String.eqb lora "pca" then 1 else -1.
(** scheduler.py:52-55, 103-104 *)
Definition save_epoch (save : string) (all : list okwargs) : Z :=
  if negb (String.eqb save "none") then Z.of_nat (length all) - 1 else -1.
(** [last_state[k].append(p)] *)
Definition kw_append (k : string) (p : plugin) (kw : okwargs) : res okwargs :=
  match dget k kw with Some l => Ok (dset k (l ++ [AClass p]) kw) | None => Err KeyError end.
Definition has_class (p : plugin) (l : list parg) : bool := existsb (fun a => match a with AClass q => plugin_eqb p q | _ => false end) l.
(** scheduler.py:57-82 *)
Definition configure_schedule (lora hessian save : string) : res (list okwargs) :=
  let both := [("forward", [AClass PCovariance]); ("backward", [AClass PCovariance])] in
  let l1 := if String.eqb lora "pca" then [both] else [] in
  let l2 := if String.eqb hessian "ekfac" then l1 ++ [both] else l1 in
  let last := [("forward", []); ("backward", []); ("grad", [])] in
  let* last := if negb (String.eqb save "none") then kw_append save PLog last else Ok last in
  let with_log := fun kw => if has_class PLog (kw_get "grad" kw) then Ok kw else kw_append "grad" PLog kw in
  let* last :=
    if String.eqb hessian "kfac" then let* k := kw_append "forward" PCovariance last in kw_append "backward" PCovariance k
    else if String.eqb hessian "ekfac" then let* k := with_log last in kw_append "grad" PCorrectedEigval k
    else if String.eqb hessian "raw" then let* k := with_log last in kw_append "grad" PCovariance k
    else Ok last in
  Ok (l2 ++ [last]).
(** scheduler.py:20-39 *)
Definition new_sched (lora hessian save : string) : res sched :=
  let* _ := sanity_check lora hessian in
  let* all := configure_schedule lora hessian save in
  Ok (Sched lora hessian save (-1) all all).

Section Next.
  Context {F : Type} `{OField F}.
  Context (rnd : mid -> list nat -> F) (svd : tensor F -> res (tensor F)).
  Notation lm := (@lm F).
  Definition on_lm {A} (m : SM lm A) : SM (sched * lm) A := fun p => let (s, r) := m (snd p) in ((fst p, s), r).
  (** scheduler.py:87-101, __next__ *)
  Definition sched_next : SM (sched * lm) Z :=
    let! st := (fun p : sched * lm =>
                  let c := fst p in
                  match sc_rest c with
                  | [] => (p, Err StopIteration)
                  | st :: r => ((Sched (sc_lora c) (sc_hessian c) (sc_save c) (sc_epoch c + 1) (sc_all c) r, snd p), Ok st)
                  end) in
    let! p := sget in
    let c := fst p in
    (if (sc_epoch c =? lora_epoch (sc_lora c))%Z then on_lm (lm_add_lora rnd svd true true None None None None) else sret tt) ;;
    (if (sc_epoch c =? save_epoch (sc_save c) (sc_all c))%Z then on_lm (on_x (lx_save true)) else sret tt) ;;
    on_lm (on_x (lx_setup st)) ;;
    sret (sc_epoch c).
End Next.
