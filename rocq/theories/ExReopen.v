(** Scoring in a second process: the runs of ExWhole.v, with a new LogIX object and a new trainer for the test samples, and another
    batch size of the log loader. *)
From Coq Require Import ZArith QArith Qcanon Lia.
From Verif Require Import Py PyStr Field Tensor ModelGrad Monad ModelState ModelMmap ModelSaver ModelLoader ModelLogger ModelModules ModelLora ModelScheduler ModelInfluence ModelUtils ModelTrainer SpecGrad SpecState SpecStore SpecLogger SpecInfluence SpecRows SpecTrainer SpecDisk SpecWhole SpecReopen InfProofs3 ExNum ExState ExInfluence ExLogger ExLora ExRows ExTrainer ExDisk ExWhole.
Local Open Scope string_scope.
Local Open Scope list_scope.
Local Open Scope nat_scope.

(** a new LogIX object in the directory left by [p] *)
Definition ro_lm (p : @tr Qc) : @lm Qc :=
  let x := @lx_init Qc 0 100 false in let y := lm_x (tr_lm p) in
  LM (with_store x (x_saver x) (x_dir y) (x_disk y)) None 2 [] [(1, (zt [1; 2] [1; 1]%Z, None))] None None (lcfg "random" 1 false None) None None (lm_conf (tr_lm p)).
Definition ro_args : @hfargs Qc := HA false true [] [FLinear] 3 xd "dot" None "detokenize" (-100).
Definition ro_tr (h : string) (p : @tr Qc) := new_trainer lrnd lsvd ro_args h "grad" (ro_lm p) troot.
Definition ro1 := Eval vm_compute in fst (ro_tr "raw" t2).
Definition rok1 := Eval vm_compute in fst (ro_tr "kfac" tk2).
Lemma ro_reopened : reopened t2 ro1.
Proof. split; [vm_compute; reflexivity|]. split; [vm_compute; reflexivity|]. split; [repeat split; vm_compute; reflexivity|]. cbv zeta. split; [vm_compute; reflexivity|]. split; [vm_compute; reflexivity|]. apply pristine_b; vm_compute; reflexivity. Qed.
Lemma rok_reopened : reopened tk2 rok1.
Proof. split; [vm_compute; reflexivity|]. split; [vm_compute; reflexivity|]. split; [repeat split; vm_compute; reflexivity|]. cbv zeta. split; [vm_compute; reflexivity|]. split; [vm_compute; reflexivity|]. apply pristine_b; vm_compute; reflexivity. Qed.
Definition ro3 := Eval vm_compute in fst (on_train_begin lrnd lsvd ro_args (tr_set_mode ro1 "influence")).
Definition rologs := Eval vm_compute in match train_logs ro_args [tu; tv; tz] (lm_x (tr_lm ro3)) with Some p => fst p | None => [] end.
Definition rox4 := Eval vm_compute in match train_logs ro_args [tu; tv; tz] (lm_x (tr_lm ro3)) with Some p => snd p | None => lm_x (tr_lm ro3) end.
Lemma ro_testing : htesting ro_args ro1 [[[tu; tv]; [tz]]] ["u"; "v"; "w"; "z"] tM.
Proof.
  split; [apply uniform_ok; vm_compute; reflexivity|]. split; [apply ok_b_ok; vm_compute; reflexivity|]. split; [repeat constructor; discriminate|].
  exists ro3, rologs, rox4, [1; 2; 1]. split; [apply t_pair; vm_compute; reflexivity|]. split; [apply train_logs_ok; vm_compute; reflexivity|]. split; [vm_compute; reflexivity|]. repeat split; [discriminate|repeat constructor; discriminate].
Qed.
Definition rok3 := Eval vm_compute in fst (on_train_begin lrnd lsvd ro_args (tr_set_mode rok1 "influence")).
Definition roklogs := Eval vm_compute in match train_logs ro_args [tu; tv; tz] (lm_x (tr_lm rok3)) with Some p => fst p | None => [] end.
Definition rokx4 := Eval vm_compute in match train_logs ro_args [tu; tv; tz] (lm_x (tr_lm rok3)) with Some p => snd p | None => lm_x (tr_lm rok3) end.
Lemma rok_testing : htesting ro_args rok1 [[[tu; tv]; [tz]]] ["u"; "v"; "w"; "z"] tM.
Proof.
  split; [apply uniform_ok; vm_compute; reflexivity|]. split; [apply ok_b_ok; vm_compute; reflexivity|]. split; [repeat constructor; discriminate|].
  exists rok3, roklogs, rokx4, [1; 2; 1]. split; [apply t_pair; vm_compute; reflexivity|]. split; [apply train_logs_ok; vm_compute; reflexivity|]. split; [vm_compute; reflexivity|]. repeat split; [discriminate|repeat constructor; discriminate].
Qed.
Definition rof3 := Eval vm_compute in fst (on_train_begin lrnd lsvd targs (tr_set_mode ro1 "influence")).
Definition roflogs := Eval vm_compute in match train_logs targs [tu; tv; tz] (lm_x (tr_lm rof3)) with Some p => fst p | None => [] end.
Definition rofx4 := Eval vm_compute in match train_logs targs [tu; tv; tz] (lm_x (tr_lm rof3)) with Some p => snd p | None => lm_x (tr_lm rof3) end.
Lemma rof_testing : htesting targs ro1 [[[tu; tv]; [tz]]] ["u"; "v"; "w"; "z"] tM.
Proof.
  split; [apply uniform_ok; vm_compute; reflexivity|]. split; [apply ok_b_ok; vm_compute; reflexivity|]. split; [repeat constructor; discriminate|].
  exists rof3, roflogs, rofx4, [1; 2; 1]. split; [apply t_pair; vm_compute; reflexivity|]. split; [apply train_logs_ok; vm_compute; reflexivity|]. split; [vm_compute; reflexivity|]. repeat split; [discriminate|repeat constructor; discriminate].
Qed.
