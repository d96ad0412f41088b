(** A concrete Lightning trainer around the layer of ExTrainer. *)
From Coq Require Import ZArith QArith Qcanon.
From Verif Require Import Py PyStr Field Tensor ModelGrad Monad ModelState ModelMmap ModelSaver ModelLoader ModelLogger ModelModules ModelLora ModelScheduler ModelInfluence ModelUtils ModelTrainer ModelLightning SpecGrad SpecState SpecInfluence SpecRows SpecTrainer SpecLightning ExNum ExState ExInfluence ExLogger ExLora ExRows ExTrainer.
Local Open Scope string_scope.
Local Open Scope list_scope.
Local Open Scope nat_scope.

(** the extractor counts its calls *)
Definition lext (b : @micro Qc) : SM nat (list did) := fun n => (S n, let* l := ttok (mi_input b) in Ok (map DStr l)).
Definition lbody (b : @micro Qc) := mi_body b 2.
Definition largs : @plargs Qc := PA false false [] [FLinear] 2 xd "dot".
Notation lextract := (pl_extract lrnd lsvd tkind xeigh xinverse xsqrt tenc tdec tshow_id lext None lbody).
Notation linfluence := (pl_influence lrnd lsvd tkind xeigh xinverse xsqrt tenc tdec tshow_id lext None lbody).
Notation lself := (pl_self lrnd lsvd tkind xeigh xinverse xsqrt tenc tdec tshow_id lext None lbody).
Definition lnew (hessian : string) : @pl Qc nat :=
  match new_pl hessian "grad" tlm0 0 with Ok q => fst (new_module lrnd lsvd largs troot q) | Err _ => PL t1 0 0 false end.
Definition l1 := Eval vm_compute in lnew "raw".
Definition l2 := Eval vm_compute in fst (lextract largs [[ta; tc]; [tu]] l1).
Definition lview (q : @pl Qc nat) := tview (pl_t q).
(** ekfac needs two epochs; a solver that returns the standard basis *)
Definition leigh (t : tensor Qc) : res (tensor Qc * tensor Qc) :=
  match shape t with [n; _] => Ok (zt [n] (repeat 1%Z n), zt [n; n] (concat (map (fun i => map (fun j => if Nat.eqb i j then 1%Z else 0%Z) (seq 0 n)) (seq 0 n)))) | _ => Err RuntimeError end.
Notation lextract2 := (pl_extract lrnd lsvd tkind leigh xinverse xsqrt tenc tdec tshow_id lext None lbody).
Definition lfour := [[ta; tc]; [ta; tc]; [ta; tc]; [ta; tc]].
Definition le1 := Eval vm_compute in lnew "ekfac".
(** the same trainer after some other run of one epoch *)
Definition le3 : @pl Qc nat := PL (pl_t le1) (pl_ext le1) 1 false.
(** the logs of the batches of an influence run *)
Definition lx2 : @lx Qc := Eval vm_compute in fst ((lx_setup [("grad", [AStr "log"])] ;; lx_eval) (lm_x (tr_lm (pl_t l2)))).
Fixpoint light_logs (bs : list (@micro Qc)) (x : @lx Qc) (e : nat) : option (list (list string * nd (@sval Qc)) * @lx Qc * nat) :=
  match bs with
  | [] => Some ([], x, e)
  | b :: r => match lext b e with
              | (e1, Ok ids) =>
                  match (lx_start ids None ;; run_evs tkind xeigh (lbody b) ;; lx_end xeigh tenc false) x with
                  | (x1, Ok _) => match read_got x1 (GView (x_ids x1)) with
                                  | (Some ids', l) => match light_logs r x1 e1 with Some (ls, x2, e2) => Some ((map tshow_id ids', leaf_map VT l) :: ls, x2, e2) | None => None end
                                  | _ => None
                                  end
                  | _ => None
                  end
              | _ => None
              end
  end.
Notation llogged := (logged tkind xeigh tenc tshow_id lext None lbody).
Lemma light_logs_ok bs x e ls x1 e1 : light_logs bs x e = Some (ls, x1, e1) -> llogged x e bs ls x1 e1.
Proof.
  revert x e ls x1 e1. induction bs as [|b bs IH]; intros x e ls x1 e1; cbn [light_logs]; [intros [= <- <- <-]; constructor|].
  destruct (lext b e) as [e2 [ids|er]] eqn:E1; [|discriminate]. destruct ((lx_start ids None ;; run_evs tkind xeigh (lbody b) ;; lx_end xeigh tenc false) x) as [y [[]|er]] eqn:E2; [|discriminate].
  destruct (read_got y (GView (x_ids y))) as [[ids'|] l] eqn:E3; [|discriminate]. destruct (light_logs bs y e2) as [[[ls2 x2] e3]|] eqn:E4; [|discriminate]. intros [= <- <- <-].
  apply logged_batch with (e1 := e2) (ids := ids) (m := None) (x1 := y); auto.
Qed.
Definition ll := Eval vm_compute in match light_logs [tu; tv; tz] lx2 2 with Some (l, _, _) => l | None => [] end.
Definition lx3 := Eval vm_compute in match light_logs [tu; tv; tz] lx2 2 with Some (_, x, _) => x | None => lx2 end.
(** a classification batch: a tuple of inputs and labels; the default ids *)
Definition lpair : ModelUtils.data := Data (Some [DTorch (Some "xyz"); DTorch (Some "012")]) (Some 2).
Definition ldict : ModelUtils.data := Data (Some [DOther; DOther]) (Some 2).
(** three samples in such a batch *)
Definition ldef (d : ModelUtils.data) (_ : @micro Qc) : SM env (list did) := default_extract (fun _ : unit => d) (fun s => s) Datatypes.tt.
Definition l3 := tmicro 0 3 [1; 2; 3; 1; -1; 2]%Z [1; 2; 1]%Z.
Definition lset (q : @pl Qc nat) : @pl Qc env := PL (pl_t q) default_ext 0 false.
(** a log directory with a truncated metadata file *)
Definition lbroken (q : @pl Qc nat) : @pl Qc nat :=
  let x := lm_x (tr_lm (pl_t q)) in
  PL (tr_set_lm (pl_t q) (tr_sched (pl_t q)) (lm_set_x (tr_lm (pl_t q)) (with_store x (x_saver x) (dset (meta_name (chunk_file 0 0)) FBroken (x_dir x)) (x_disk x)))) (pl_ext q) (pl_epoch q) (pl_stop q).
