(** Small integers as 32-bit numbers; the epoch of a trainer that saves; two LogIX objects on one directory. *)
From Coq Require Import ZArith QArith Qcanon Lia.
From Verif Require Import Py PyStr Field Tensor ModelGrad Monad ModelState ModelMmap ModelSaver ModelLoader ModelLogger ModelModules ModelLora ModelScheduler ModelInfluence ModelUtils ModelTrainer SpecGrad SpecState SpecStore SpecInfluence SpecRows SpecTrainer SpecDisk ExNum ExState ExInfluence ExLogger ExLora ExRows ExTrainer.
Local Open Scope string_scope.
Local Open Scope list_scope.
Local Open Scope nat_scope.

Definition tword (q : Qc) : list byte := [byte_of (Qnum (this q)); x00; x00; x00].
Definition texact (q : Qc) : Prop := exists z, (-128 <= z < 128)%Z /\ q = qz z.
Lemma of_byte_of z : (-128 <= z < 128)%Z -> of_byte (byte_of z) = z.
Proof.
  intros B. unfold of_byte, byte_of. destruct (Byte.of_N (Z.to_N (z + 128))) as [b|] eqn:E.
  - apply Byte.to_of_N in E. rewrite E. rewrite Z2N.id; lia.
  - apply Byte.of_N_None_iff in E. lia.
Qed.
Lemma num_int z : Qnum (this (qz z)) = z.
Proof.
  unfold qz, Q2Qc, inject_Z. cbn [this]. unfold Qred. pose proof (Z.ggcd_gcd z 1) as G. pose proof (Z.ggcd_correct_divisors z 1) as D. destruct (Z.ggcd z 1) as [g [a b]]. cbn [fst snd] in *. rewrite Z.gcd_1_r in G. subst g. destruct D as [D _]. cbn [Qnum]. lia.
Qed.
Lemma tcodec : codec F32 tword texact tenc tdec.
Proof.
  constructor.
  - reflexivity.
  - discriminate.
  - reflexivity.
  - intros sh l X. unfold tdec. cbn [a_shape a_bytes]. f_equal. unfold zt. f_equal. induction X as [|q l (z & B & ->) X IH]; [reflexivity|]. cbn [map concat tword app words]. rewrite num_int, (of_byte_of z B), IH. reflexivity.
Qed.

(** the epoch of [t1] *)
Definition td1 := Eval vm_compute in fst (on_epoch_begin lrnd lsvd t1).
Definition tdx := lm_x (tr_lm td1).
Definition tdlogs := Eval vm_compute in match train_logs targs [ta; tc] tdx with Some p => fst p | None => [] end.
Definition tdx1 := Eval vm_compute in match train_logs targs [ta; tc] tdx with Some p => snd p | None => tdx end.
Definition tdx2 := Eval vm_compute in fst (lx_finalize tdx1).
(** the gradients of the three samples *)
Definition tdM : @tlog Qc := [("fc", [("grad", (Cpu, zt [3; 1; 2] [2; 4; 12; 4; -2; 4]%Z))])].
Lemma tdM_storable : storable texact ["fc"] 3 tdM.
Proof.
  split; [apply uniform_ok; vm_compute; reflexivity|]. split; [apply ok_b_ok; vm_compute; reflexivity|]. intros m [<-|[]]. exists Cpu, (zt [3; 1; 2] [2; 4; 12; 4; -2; 4]%Z), 1, [2].
  split; [reflexivity|]. split; [reflexivity|]. split; [cbn; lia|]. cbn [zt Tensor.data]. rewrite Forall_map. repeat (constructor; [eexists; split; [|reflexivity]; lia|]). constructor.
Qed.
(** a directory written by an object that collected no statistics, and a second LogIX object on it, with a batch to save *)
Definition tyops := run_ops tkind (fun _ => 2) xeigh tenc.
Definition tybatch i := [XSetup [("grad", [AStr "log"])]; XSave true; XStart [DStr i] None] ++ map XEv (mi_body tu 2) ++ [XEnd false].
Definition ty1 : @lx Qc := Eval vm_compute in tyops (XWatch [("fc", 1)] :: tybatch "t" ++ [XFinalize]) (@lx_init Qc 0 100 false).
Definition ty0 : @lx Qc := with_store (@lx_init Qc 0 100 false) (saver_init 0 0 100 []) (x_dir ty1) (x_disk ty1).
