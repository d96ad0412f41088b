(** Concrete configurations. *)
From Coq Require Import ZArith.
From Verif Require Import Py PyStr Monad ModelConfig SpecConfig.
Local Open Scope string_scope.
Local Open Scope list_scope.
Local Open Scope nat_scope.

(** a file with settings, a run with it, its saved configuration, and a run of another project *)
Definition cfile : dict string pv := [("lora", PDict [("rank", PInt 8); ("init", PStr "pca"); ("parameter_sharing_groups", PList [PStr "mlp"; PStr "attn"])]); ("root_dir", PStr "/data/"); ("logging", PDict [("num_workers", PInt 2)])].
Definition cfs0 : fs := FS [("my.yaml", PDict cfile); ("empty.yaml", PNone); ("typo.yaml", PDict [("lora", PDict [("rnak", PInt 8)])]); ("odd.yaml", PDict [("extra", PInt 1); ("logging", PDict [("log_dtype", PStr "float16"); ("rank", PDict [])])])] [].
Definition cfs1 : fs := Eval vm_compute in fst (new_run (Some "p") (Some "my.yaml") None cfs0).
Definition crun : run := Eval vm_compute in match snd (new_run (Some "p") (Some "my.yaml") None cfs0) with Ok R => R | Err _ => Run [] "" end.
Definition cfs2 : fs := Eval vm_compute in snd (fst (finalize_config (crun, cfs1))).
Definition crun2 : run := Eval vm_compute in match snd (new_run (Some "q") None None cfs2) with Ok R => R | Err _ => Run [] "" end.
Lemma crun_valid : exists lg lo, valid (r_cfg crun) "/data/" "p" lg lo /\ dget "rank" lo = Some (PInt 8) /\ dget "num_workers" lg = Some (PInt 2) /\ dget "flush_threshold" lg = Some (PInt 1000000000).
Proof.
  eexists _, _. split; [constructor; try reflexivity; intros k Hk; cbn [In logging_fields lora_fields] in Hk; repeat (destruct Hk as [<-|Hk]; [eexists; split; reflexivity|]); destruct Hk|repeat split].
Qed.
Lemma crun2_valid : exists lg lo, valid (r_cfg crun2) "./logix" "q" lg lo /\ dget "rank" lo = Some (PInt 64).
Proof.
  eexists _, _. split; [constructor; try reflexivity; intros k Hk; cbn [In logging_fields lora_fields] in Hk; repeat (destruct Hk as [<-|Hk]; [eexists; split; reflexivity|]); destruct Hk|reflexivity].
Qed.
