(** A new trainer that adds LoRA, its logging run over three samples and its influence run over four. *)
From Coq Require Import ZArith QArith Qcanon Lia Field_theory.
From Verif Require Import Py PyStr Field Tensor ModelGrad Monad ModelState ModelMmap ModelSaver ModelLoader ModelLogger ModelModules ModelLora ModelScheduler ModelInfluence ModelUtils ModelTrainer SpecGrad SpecState SpecStore SpecLogger SpecInfluence SpecRows SpecTrainer SpecDisk SpecLora SpecScheduler SpecNew SpecWhole InfProofs3 ExNum ExState ExInfluence ExLogger ExLora ExRows ExTrainer ExDisk ExNew ExWhole.
Local Open Scope string_scope.
Local Open Scope list_scope.
Local Open Scope nat_scope.

(** module 3 is the bottleneck of rank 1 *)
Definition bkind (m : mid) : mkind := if m =? 3 then KLinear 1 1 else KLinear 2 1.
Definition bmicro (k n : nat) (ins errs : list Z) : @micro Qc :=
  Micro (Data None (Some k)) None (Some [5; -100; 5]%Z) (fun scale =>
    [MTensor 1 (leaf (zt [n; 1] ins)); MCall 0 3 [1] (OutTensor 2 (node (zt [n; 1] (repeat 0%Z n)))) true;
     MTensor 5 (leaf (zt [n; 1] (map (Z.mul (Z.of_nat scale)) errs))); MGrad 2 5; MBack 0 [5]]).
Notation bextract := (extract_log lrnd lsvd bkind xeigh xinverse xsqrt tenc tdec tshow_id (Some ttok) (fun s => s)).
Notation binfluence := (influence lrnd lsvd bkind xeigh xinverse xsqrt tenc tdec tshow_id (Some ttok) (fun s => s)).
Notation btraining := (training lrnd lsvd bkind xeigh tenc tdec tshow_id (Some ttok) (fun s => s)).
Notation btesting := (testing lrnd lsvd bkind xeigh tenc tshow_id (Some ttok) (fun s => s)).
Notation btrained := (trained bkind xeigh tenc tshow_id (Some ttok) (fun s => s)).
Definition bargs := nargs true false.
Definition bname := "fc.logix_lora_B".
Definition b1 := Eval vm_compute in fst (nnew true false tlm0).
Definition ba := bmicro 0 2 [1; 2]%Z [1; 2]%Z.
Definition bc := bmicro 1 1 [3]%Z [1]%Z.
Definition bu := bmicro 2 1 [2]%Z [3]%Z.
Definition bv := bmicro 3 2 [1; -1]%Z [1; -2]%Z.
Definition bz := bmicro 4 1 [1]%Z [1]%Z.
Definition b2 := Eval vm_compute in fst (bextract bargs [[[ba]; [bc]]] b1).
Fixpoint blogs_of (ms : list (@micro Qc)) (x : @lx Qc) : option (list (list string * nd (@sval Qc)) * @lx Qc) :=
  match ms with
  | [] => Some ([], x)
  | m :: r => match training_step bkind xeigh tenc (Some ttok) (fun s => s) bargs m x with
              | (x1, Ok _) => match lx_get_log true x1 with
                              | (_, Ok (GCopy (Some ids) l)) => match blogs_of r x1 with Some (ls, x2) => Some ((map tshow_id ids, leaf_map VT l) :: ls, x2) | None => None end
                              | _ => None
                              end
              | _ => None
              end
  end.
Lemma blogs_ok ms x ls x1 : blogs_of ms x = Some (ls, x1) -> btrained bargs x ms ls x1.
Proof.
  revert x ls x1. induction ms as [|m ms IH]; intros x ls x1; cbn [blogs_of]; [intros [= <- <-]; constructor|].
  destruct (training_step _ _ _ _ _ bargs m x) as [y [[]|e]] eqn:E1; [|discriminate]. destruct (lx_get_log true y) as [y' [[v|[ids|] l]|e]] eqn:E2; try discriminate.
  destruct (blogs_of ms y) as [[ls2 x2]|] eqn:E3; [|discriminate]. intros [= <- <-]. apply trained_step with (x1 := y); [exact E1| |apply IH, E3].
  pose proof E2 as E4. unfold lx_get_log in E4. injection E4 as <- _. exact E2.
Qed.
Definition bd1 := Eval vm_compute in fst (on_epoch_begin lrnd lsvd b1).
Definition bdlogs := Eval vm_compute in match blogs_of [ba; bc] (lm_x (tr_lm bd1)) with Some p => fst p | None => [] end.
Definition bdx1 := Eval vm_compute in match blogs_of [ba; bc] (lm_x (tr_lm bd1)) with Some p => snd p | None => lm_x (tr_lm bd1) end.
Definition b3 := Eval vm_compute in fst (on_train_begin lrnd lsvd bargs (tr_set_mode b2 "influence")).
Definition bqlogs := Eval vm_compute in match blogs_of [bu; bv; bz] (lm_x (tr_lm b3)) with Some p => fst p | None => [] end.
Definition bqx := Eval vm_compute in match blogs_of [bu; bv; bz] (lm_x (tr_lm b3)) with Some p => snd p | None => lm_x (tr_lm b3) end.
(** gradients *)
Definition bM : @tlog Qc := [(bname, [("grad", (Cpu, zt [3; 1; 1] [2; 8; 6]%Z))])].
Definition bQ : @tlog Qc := [(bname, [("grad", (Cpu, zt [4; 1; 1] [12; 2; 4; 2]%Z))])].
Lemma bM_storable : storable texact [bname] 3 bM.
Proof.
  split; [apply uniform_ok; vm_compute; reflexivity|]. split; [apply ok_b_ok; vm_compute; reflexivity|]. intros m [<-|[]]. exists Cpu, (zt [3; 1; 1] [2; 8; 6]%Z), 1, [1].
  split; [reflexivity|]. split; [reflexivity|]. split; [cbn; lia|]. cbn [zt Tensor.data]. rewrite Forall_map. repeat (constructor; [eexists; split; [|reflexivity]; lia|]). constructor.
Qed.
Lemma bown k n ins errs : forall c, own_backward [] (mi_body (bmicro k n ins errs) c).
Proof. intros c. cbn. split; [left; reflexivity|exact Logic.I]. Qed.
Lemma born_training : btraining [bname] bargs b1 [[ba]; [bc]] ["a"; "b"; "c"] bM.
Proof.
  split; [discriminate|]. split; [repeat constructor; intros []|]. split; [intros m [<-|[]]; left; reflexivity|]. split; [cbn; lia|].
  split; [repeat constructor; cbn; intuition discriminate|]. split; [repeat constructor; apply bown|]. split; [exists F32, tword, texact; split; [exact tcodec|exact bM_storable]|].
  exists bd1, bdlogs, bdx1, [2; 1]. split; [apply t_pair; vm_compute; reflexivity|]. split; [apply blogs_ok; vm_compute; reflexivity|]. split; [vm_compute; reflexivity|]. repeat split; [discriminate|repeat constructor; discriminate].
Qed.
Lemma born_testing : btesting bargs b2 [[[bu; bv]; [bz]]] ["u"; "v"; "w"; "z"] bQ.
Proof.
  split; [apply uniform_ok; vm_compute; reflexivity|]. split; [apply ok_b_ok; vm_compute; reflexivity|]. split; [repeat constructor; discriminate|].
  exists b3, bqlogs, bqx, [1; 2; 1]. split; [apply t_pair; vm_compute; reflexivity|]. split; [apply blogs_ok; vm_compute; reflexivity|]. split; [vm_compute; reflexivity|]. repeat split; [discriminate|repeat constructor; discriminate].
Qed.
Section Inverts.
  Context {F : Type} `{OField F} (is0 : F -> bool) (is0_spec : forall x, is0 x = true <-> x = f0).
  Add Field exbornfield : f_theory.
  Lemma tiny_inverts : inverts (small_inverse is0) 1.
  Proof.
    intros a (Sa & Sy) Wa PD. unfold small_inverse. rewrite Sa. destruct (is0 _) eqn:Z; [|eexists; reflexivity]. exfalso. apply is0_spec in Z.
    destruct (PD (fun _ => f1)) as (_ & D1); [exists 0; split; [lia|exact (F_1_neq_0 f_theory)]|]. cbn [sum] in D1. apply D1. rewrite Z. ring.
  Qed.
End Inverts.
Lemma binverts : inverts xinverse 1.
Proof. exact (tiny_inverts q0 q0_spec). Qed.
Lemma bM_inverts m x : grad_of bM m = Some x -> inverts xinverse (prod (tl (shape (snd x)))).
Proof. unfold grad_of, look, bM. cbn [dget]. destruct (eqb_spec m bname) as [->|]; [|discriminate]. intros [= <-]. exact binverts. Qed.
Lemma bM_matrices : matrices [bname] bM.
Proof. intros m [<-|[]]. exists Cpu, (zt [3; 1; 1] [2; 8; 6]%Z), 3, 1, 1. split; reflexivity. Qed.
Lemma bQ_plain : plain_log Cpu 4 bQ.
Proof. split; [repeat constructor; intros []|]. intros m [<-|[]]. exists (zt [4; 1; 1] [12; 2; 4; 2]%Z), 1, 1. split; [reflexivity|]. split; reflexivity. Qed.
Lemma bQ_within : within bQ bM.
Proof. intros m x. unfold grad_of, look, bQ. cbn [dget]. destruct (eqb_spec m bname) as [->|]; [|discriminate]. intros [= <-]. eexists. split; reflexivity. Qed.
