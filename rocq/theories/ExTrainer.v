(** A concrete trainer: one linear layer with 2 inputs and 1 output. *)
From Coq Require Import ZArith QArith Qcanon.
From Verif Require Import Py PyStr Field Tensor ModelGrad Monad ModelState ModelMmap ModelSaver ModelLoader ModelLogger ModelModules ModelLora ModelScheduler ModelInfluence ModelUtils ModelTrainer SpecGrad SpecState SpecInfluence SpecRows SpecTrainer TrainProofs4 ExNum ExState ExInfluence ExLogger ExLora ExRows.
Local Open Scope string_scope.
Local Open Scope list_scope.
Local Open Scope nat_scope.

(** floating-point numbers that hold small integers: the integer plus 128, then three zero bytes *)
Definition byte_of (z : Z) : byte := match Byte.of_N (Z.to_N (z + 128)) with Some b => b | None => x00 end.
Definition of_byte (b : byte) : Z := (Z.of_N (Byte.to_N b) - 128)%Z.
Definition tenc (d : @dten Qc) : array := Arr (shape (snd d)) F32 (concat (map (fun q : Qc => [byte_of (Qnum (this q)); x00; x00; x00]) (Tensor.data (snd d)))).
Fixpoint words (l : list byte) : list Z := match l with b :: _ :: _ :: _ :: r => of_byte b :: words r | _ => [] end.
Definition tdec (a : array) : @dten Qc := (Cpu, zt (a_shape a) (words (a_bytes a))).
Definition tshow_id (i : did) : string := match i with DStr s => s | _ => "?" end.
(** the tokenizer knows four batches *)
Definition ttok (d : ModelUtils.data) : res (list string) :=
  match d_len d with Some 0 => Ok ["a"; "b"] | Some 1 => Ok ["c"] | Some 2 => Ok ["u"] | Some 3 => Ok ["v"; "w"] | Some 4 => Ok ["z"] | _ => Err ValueError end.
Definition troot : mtree := MT 0 KOther [] [] [("fc", MT 1 (KLinear 2 1) [] [1] [])].
Definition tkind (_ : mid) : mkind := KLinear 2 1.
(** a batch of samples with their inputs and the errors of the layer's outputs *)
Definition tmicro (k n : nat) (ins errs : list Z) : @micro Qc :=
  Micro (Data None (Some k)) None (Some [5; -100; 5]%Z) (fun scale =>
    [MTensor 1 (leaf (zt [n; 2] ins)); MCall 0 1 [1] (OutTensor 2 (node (zt [n; 1] (repeat 0%Z n)))) true;
     MTensor 5 (leaf (zt [n; 1] (map (Z.mul (Z.of_nat scale)) errs))); MGrad 2 5; MBack 0 [5]]).
Definition targs : @hfargs Qc := HA false false [] [FLinear] 2 xd "dot" None "detokenize" (-100).
Definition tlm0 : @lm Qc := LM (@lx_init Qc 0 100 false) None 2 [] [(1, (zt [1; 2] [1; 1]%Z, None))] None None (lcfg "random" 1 false None) None None None.
Definition tnew (hessian : string) := new_trainer lrnd lsvd targs hessian "grad" tlm0 troot.
Notation textract := (extract_log lrnd lsvd tkind xeigh xinverse xsqrt tenc tdec tshow_id (Some ttok) (fun s => s)).
Notation tinfluence := (influence lrnd lsvd tkind xeigh xinverse xsqrt tenc tdec tshow_id (Some ttok) (fun s => s)).
Notation tself := (self_influence lrnd lsvd tkind xeigh xinverse xsqrt tenc tdec tshow_id (Some ttok) (fun s => s)).
Definition ta := tmicro 0 2 [1; 2; 3; 1]%Z [1; 2]%Z.
Definition tc := tmicro 1 1 [-1; 2]%Z [1]%Z.
Definition tu := tmicro 2 1 [2; 2]%Z [3]%Z.
Definition tv := tmicro 3 2 [0; 1; 1; -1]%Z [1; -2]%Z.
Definition tz := tmicro 4 1 [1; 0]%Z [1]%Z.
Definition tview (p : @tr Qc) := option_map (fun a => let v := view (tr_ifn p) a in (i_src v, i_tgt v, vshow (i_val v))) (tr_scores p).
Definition t1 := Eval vm_compute in fst (tnew "raw").
Definition t2 := Eval vm_compute in fst (textract targs [[[ta]; [tc]]] t1).
(** the copies of the logs of some training steps *)
Fixpoint train_logs (a : @hfargs Qc) (ms : list (@micro Qc)) (x : @lx Qc) : option (list (list string * nd (@sval Qc)) * @lx Qc) :=
  match ms with
  | [] => Some ([], x)
  | m :: r => match training_step tkind xeigh tenc (Some ttok) (fun s => s) a m x with
              | (x1, Ok _) => match lx_get_log true x1 with
                              | (_, Ok (GCopy (Some ids) l)) => match train_logs a r x1 with Some (ls, x2) => Some ((map tshow_id ids, leaf_map VT l) :: ls, x2) | None => None end
                              | _ => None
                              end
              | _ => None
              end
  end.
Notation ttrained := (trained tkind xeigh tenc tshow_id (Some ttok) (fun s => s)).
Lemma train_logs_ok a ms x ls x1 : train_logs a ms x = Some (ls, x1) -> ttrained a x ms ls x1.
Proof.
  revert x ls x1. induction ms as [|m ms IH]; intros x ls x1; cbn [train_logs]; [intros [= <- <-]; constructor|].
  destruct (training_step _ _ _ _ _ a m x) as [y [[]|e]] eqn:E1; [|discriminate]. destruct (lx_get_log true y) as [y' [[v|[ids|] l]|e]] eqn:E2; try discriminate.
  destruct (train_logs a ms y) as [[ls2 x2]|] eqn:E3; [|discriminate]. intros [= <- <-]. apply trained_step with (x1 := y); [exact E1| |apply IH, E3].
  pose proof E2 as E4. unfold lx_get_log in E4. injection E4 as <- _. exact E2.
Qed.
Definition t3 := Eval vm_compute in fst (on_train_begin lrnd lsvd targs (tr_set_mode t2 "influence")).
Definition tx3 := lm_x (tr_lm t3).
Definition tlogs := Eval vm_compute in match train_logs targs [tu; tv; tz] tx3 with Some p => fst p | None => [] end.
Definition tx4 := Eval vm_compute in match train_logs targs [tu; tv; tz] tx3 with Some p => snd p | None => tx3 end.
Definition tload := Eval vm_compute in match log_dataloader tdec tshow_id targs t3 with (_, Ok l) => l | _ => [] end.
(** the gradients of the four samples *)
Definition tM : @tlog Qc := [("fc", [("grad", (Cpu, zt [4; 1; 2] [12; 12; 0; 2; -4; 4; 2; 0]%Z))])].
Definition plain_b (s : @lstate Qc) : bool :=
  negb (hasattr "ekfac_eigval_state" s) && (negb (hasattr "covariance_eigval_state" s) && (negb (hasattr "covariance_eigvec_state" s) && forallb (fun a => hasattr a s) (st_states s))).
Lemma plain_ok s : plain_b s = true -> plain_state s.
Proof.
  unfold plain_b. intros E. apply andb_true_iff in E as [E1 E]. apply andb_true_iff in E as [E2 E]. apply andb_true_iff in E as [E3 E4]. apply negb_true_iff in E1, E2, E3. rewrite forallb_forall in E4. constructor.
  - exact E1.
  - rewrite E2, E3. reflexivity.
  - intros a Ha. apply E4. apply mem_In. exact Ha.
  - intros ev m t D. unfold hasattr, dmem in E2. rewrite D in E2. discriminate E2.
Qed.
Definition tbad : @hfargs Qc := HA false false [] [FLinear] 2 xd "cosin" None "detokenize" (-100).
Definition tnone : @hfargs Qc := HA false false [] [FLinear] 2 xd "dot" None "index" (-100).
Lemma t_pair {S A} (p : S * res A) (y : A) : snd p = Ok y -> p = (fst p, Ok y).
Proof. destruct p. cbn. intros ->. reflexivity. Qed.
