(** A new Lightning module with LoRA, its logging run over the three samples of ExBorn.v and its influence run over four. *)
From Coq Require Import ZArith QArith Qcanon Lia.
From Verif Require Import Py PyStr Field Tensor ModelGrad Monad ModelState ModelMmap ModelSaver ModelLoader ModelLogger ModelModules ModelLora ModelScheduler ModelInfluence ModelUtils ModelTrainer ModelLightning SpecGrad SpecState SpecStore SpecLogger SpecInfluence SpecRows SpecTrainer SpecLightning SpecDisk SpecLora SpecScheduler SpecNew SpecWhole SpecLightWhole ExNum ExState ExInfluence ExLogger ExLora ExRows ExTrainer ExLightning ExDisk ExNew ExWhole ExBorn ExLightWhole.
Local Open Scope string_scope.
Local Open Scope list_scope.
Local Open Scope nat_scope.

Definition lbargs : @plargs Qc := PA true false [] [FLinear] 2 xd "dot".
Notation lbextract := (pl_extract lrnd lsvd bkind xeigh xinverse xsqrt tenc tdec tshow_id lext None lbody).
Notation lbinfluence := (pl_influence lrnd lsvd bkind xeigh xinverse xsqrt tenc tdec tshow_id lext None lbody).
Notation lbtraining := (light_training lrnd lsvd bkind xeigh tenc tdec tshow_id lext None lbody).
Notation lbtesting := (light_testing bkind xeigh tenc tshow_id lext None lbody).
Definition lb0 : @pl Qc nat := Eval vm_compute in match new_pl "raw" "grad" tlm0 0 with Ok q => q | Err _ => PL t1 0 0 false end.
Definition lb1 := Eval vm_compute in fst (new_module lrnd lsvd lbargs troot lb0).
Definition lb2 := Eval vm_compute in fst (lbextract lbargs [[ba; bc]; [bu]] lb1).
Fixpoint lblogs (bs : list (@micro Qc)) (x : @lx Qc) (e : nat) : option (list (list string * nd (@sval Qc)) * @lx Qc * nat) :=
  match bs with
  | [] => Some ([], x, e)
  | b :: r => match lext b e with
              | (e1, Ok ids) =>
                  match (lx_start ids None ;; run_evs bkind xeigh (lbody b) ;; lx_end xeigh tenc false) x with
                  | (x1, Ok _) => match read_got x1 (GView (x_ids x1)) with
                                  | (Some ids', l) => match lblogs r x1 e1 with Some (ls, x2, e2) => Some ((map tshow_id ids', leaf_map VT l) :: ls, x2, e2) | None => None end
                                  | _ => None
                                  end
                  | _ => None
                  end
              | _ => None
              end
  end.
Lemma lblogs_ok bs x e ls x1 e1 : lblogs bs x e = Some (ls, x1, e1) -> logged bkind xeigh tenc tshow_id lext None lbody x e bs ls x1 e1.
Proof.
  revert x e ls x1 e1. induction bs as [|b bs IH]; intros x e ls x1 e1; cbn [lblogs]; [intros [= <- <- <-]; constructor|].
  destruct (lext b e) as [e2 [ids|er]] eqn:E1; [|discriminate]. destruct ((lx_start ids None ;; run_evs bkind xeigh (lbody b) ;; lx_end xeigh tenc false) x) as [y [[]|er]] eqn:E2; [|discriminate].
  destruct (read_got y (GView (x_ids y))) as [[ids'|] l] eqn:E3; [|discriminate]. destruct (lblogs bs y e2) as [[[ls2 x2] e3]|] eqn:E4; [|discriminate]. intros [= <- <- <-].
  apply logged_batch with (e1 := e2) (ids := ids) (m := None) (x1 := y); auto.
Qed.
Definition lbe := Eval vm_compute in fst (pl_epoch_start lrnd lsvd lb1).
Definition lbd := Eval vm_compute in match lblogs [ba; bc] (lm_x (tr_lm (pl_t lbe))) 0 with Some r => r | None => ([], lm_x (tr_lm (pl_t lbe)), 0) end.
Definition lbx := Eval vm_compute in fst ((lx_setup [("grad", [AStr "log"])] ;; lx_eval) (lm_x (tr_lm (pl_t lb2)))).
Definition lbq := Eval vm_compute in match lblogs [bu; bv; bz] lbx (pl_ext lb2) with Some r => r | None => ([], lbx, 0) end.
Lemma lb_training : lbtraining [bname] lbargs lb1 [ba; bc] ["a"; "b"; "c"] bM.
Proof.
  split; [discriminate|]. split; [repeat constructor; intros []|]. split; [intros m [<-|[]]; left; reflexivity|]. split; [cbn; lia|].
  split; [repeat constructor; cbn; intuition discriminate|]. split; [repeat constructor; apply bown|]. split; [intros b e e' ids _; apply lext_json|]. split; [exists F32, tword, texact; split; [exact tcodec|exact bM_storable]|].
  exists lbe, (fst (fst lbd)), (snd (fst lbd)), (snd lbd), [2; 1]. split; [apply t_pair; vm_compute; reflexivity|]. split; [apply lblogs_ok; vm_compute; reflexivity|]. split; [vm_compute; reflexivity|]. repeat split; [discriminate|repeat constructor; discriminate].
Qed.
Lemma lb_testing : lbtesting lb2 [bu; bv; bz] ["u"; "v"; "w"; "z"] bQ.
Proof.
  split; [apply uniform_ok; vm_compute; reflexivity|]. exists lbx, (fst (fst lbq)), (snd (fst lbq)), (snd lbq), [1; 2; 1]. split; [apply t_pair; vm_compute; reflexivity|]. split; [apply lblogs_ok; vm_compute; reflexivity|]. split; [vm_compute; reflexivity|]. repeat split; [discriminate|repeat constructor; discriminate].
Qed.
