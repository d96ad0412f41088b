(** C92: saved rows that still belong to the batch log (logix/logging/log_saver.py, logger.py). *)
From Coq Require Import ZArith QArith Qcanon.
From Verif Require Import Py Field Tensor ModelGrad Monad ModelState ModelMmap ModelSaver ModelLogger SpecGrad SpecState SpecLogger ViewProofs2 ExNum ExState ExLogger ExView.
Local Open Scope string_scope.
Local Open Scope list_scope.
Local Open Scope nat_scope.

(** C92. At the end of the batch the buffer holds what was saved then. *)
Theorem C92_rows_at_end {F} `{OField F} (kind : mid -> mkind) (wsize : mid -> nat) (eigh : tensor F -> res (tensor F * tensor F)) (enc : @dten F -> array) ids mask es (x x1 x2 x3 : @lx F) o r asked :
  reachable kind wsize eigh enc x -> begins ids mask x x1 -> run_evs kind eigh es x1 = (x2, o) -> ends eigh enc asked x2 x3 r ->
  settle x3 = x_saver x3.
Proof. exact (ends_synced kind wsize eigh enc ids mask es x x1 x2 x3 o r asked). Qed.
Print Assumptions C92_rows_at_end.
(** Backward passes after the end of the batch change the rows that are still in the buffer. *)
Theorem C92_rows_follow {F} `{OField F} (kind : mid -> mkind) (wsize : mid -> nat) (eigh : tensor F -> res (tensor F * tensor F)) (enc : @dten F -> array) ids mask es es' (x x1 x2 x3 x4 : @lx F) o o' j i m t u :
  reachable kind wsize eigh enc x -> begins ids mask x x1 -> run_evs kind eigh es x1 = (x2, o) ->
  ends eigh enc true x2 x3 (Ok tt) -> s_buffer (x_saver x3) <> [] -> run_evs kind eigh es' x3 = (x4, o') ->
  NoDup ids -> nth_error ids j = Some i -> log_at x2 m t = Some (Own u) -> fst (u_d u) = Cpu ->
  exists u', log_at x4 m t = Some (Own u') /\ forall a, row_read enc j (u_d u') = Ok a -> cell (s_buffer (settle x4)) i m t = Some a.
Proof. exact (ends_follow kind wsize eigh enc ids mask es es' x x1 x2 x3 x4 o o' j i m t u). Qed.
Print Assumptions C92_rows_follow.
(** What finalize() writes is what the rows are then. *)
Theorem C92_finalize_writes {F} `{OField F} (x x' : @lx F) :
  lx_finalize x = (x', Ok tt) -> saver_finalize (x_dir x) (settle x) = (x_dir x', x_saver x', Ok tt).
Proof. exact (finalize_writes x x'). Qed.
Print Assumptions C92_finalize_writes.
(** Not so when the buffer was written out at the end of the batch, or when the log is on a GPU. *)
Theorem C92_rows_kept {F} `{OField F} (kind : mid -> mkind) (wsize : mid -> nat) (eigh : tensor F -> res (tensor F * tensor F)) (enc : @dten F -> array) ids mask es es' (x x1 x2 x3 x4 : @lx F) o r o' asked :
  reachable kind wsize eigh enc x -> begins ids mask x x1 -> run_evs kind eigh es x1 = (x2, o) -> ends eigh enc asked x2 x3 r ->
  (s_buffer (x_saver x3) = [] \/ forall m t u, log_at x2 m t = Some (Own u) -> fst (u_d u) <> Cpu) ->
  run_evs kind eigh es' x3 = (x4, o') -> settle x4 = x_saver x3.
Proof. exact (ends_keep kind wsize eigh enc ids mask es es' x x1 x2 x3 x4 o r o' asked). Qed.
Print Assumptions C92_rows_kept.
(** The next batch does not change the rows saved before it. *)
Theorem C92_next_batch {F} `{OField F} (kind : mid -> mkind) (wsize : mid -> nat) (eigh : tensor F -> res (tensor F * tensor F)) (enc : @dten F -> array) ids mask es (x x1 x2 : @lx F) o :
  reachable kind wsize eigh enc x -> begins ids mask x x1 -> run_evs kind eigh es x1 = (x2, o) -> settle x2 = settle x.
Proof. exact (next_keeps kind wsize eigh enc ids mask es x x1 x2 o). Qed.
Print Assumptions C92_next_batch.
(** So the files need not hold what was saved: the same program with and without a backward pass outside the batch
    stores other rows for the samples of the batch. *)
Theorem C92_rows_at_end_refuted :
  reachable lk lw ex_eigh venc v0 /\ begins vids None v0 v1 /\ levs vfirst v1 = (v2, Ok tt) /\ ends ex_eigh venc true v2 v3 (Ok tt) /\
  levs vmore v3 = (v4, Ok tt) /\ settle v4 <> x_saver v3 /\ x_dir (fst (lx_finalize v4)) <> x_dir (fst (lx_finalize v3)).
Proof.
  split; [exact vreach|]. split; [left; vm_compute; reflexivity|]. split; [vm_compute; reflexivity|]. split; [left; exists true; split; vm_compute; reflexivity|]. split; [vm_compute; reflexivity|].
  split; intros E.
  - apply (f_equal (fun s => vrow s (DStr "a"))) in E. vm_compute in E. discriminate E.
  - apply (f_equal vfiles) in E. vm_compute in E. discriminate E.
Qed.
Print Assumptions C92_rows_at_end_refuted.
(** Samples "a" and "b" are saved with gradients (1, 2) and (6, 8). A later backward pass for other samples adds
    (15, 0) and (2, 1); finalize() stores the sums. On the GPU the log has the sums and the files the saved rows. *)
Example C92_example :
  NoDup vids /\ s_buffer (x_saver v3) <> [] /\ (exists u, log_at v2 "fc" "grad" = Some (Own u) /\ fst (u_d u) = Cpu) /\
  vrow (settle v3) (DStr "a") = Some ([1; 2], [1; 0; 0; 0; 2; 0; 0; 0]%N) /\
  vrow (settle v4) (DStr "a") = Some ([1; 2], [16; 0; 0; 0; 2; 0; 0; 0]%N) /\ vrow (settle v4) (DStr "b") = Some ([1; 2], [8; 0; 0; 0; 9; 0; 0; 0]%N) /\
  vfiles (x_dir (fst (lx_finalize v3))) = [[1; 0; 0; 0; 2; 0; 0; 0; 6; 0; 0; 0; 8; 0; 0; 0]%N] /\
  snd (lx_finalize v4) = Ok tt /\ vfiles (x_dir (fst (lx_finalize v4))) = [[16; 0; 0; 0; 2; 0; 0; 0; 8; 0; 0; 0; 9; 0; 0; 0]%N].
Proof.
  split; [repeat constructor; cbn; intuition discriminate|]. split; [discriminate|]. split; [eexists; split; vm_compute; reflexivity|]. repeat split; vm_compute; reflexivity.
Qed.
(** After the next start() the rows stay; on the GPU they always do, and so they do when the buffer was written out. *)
Example C92_kept_example :
  levs (map vgpu vfirst) v1 = (g2, Ok tt) /\ ends ex_eigh venc true g2 g3 (Ok tt) /\ levs (map vgpu vmore) g3 = (g4, Ok tt) /\
  lshow g4 "fc" "grad" = Some ([2; 1; 2], ints [16; 2; 8; 9]%Z) /\ vrow (settle g4) (DStr "a") = Some ([1; 2], [1; 0; 0; 0; 2; 0; 0; 0]%N) /\
  vrow (settle n4) (DStr "a") = Some ([1; 2], [1; 0; 0; 0; 2; 0; 0; 0]%N) /\ lshow n4 "fc" "grad" = Some ([2; 1; 2], ints [15; 0; 2; 1]%Z) /\
  s_buffer (x_saver f3) = [] /\ vfiles (x_dir f4) = [[1; 0; 0; 0; 2; 0; 0; 0; 6; 0; 0; 0; 8; 0; 0; 0]%N].
Proof. split; [vm_compute; reflexivity|]. split; [left; exists true; split; vm_compute; reflexivity|]. repeat split; vm_compute; reflexivity. Qed.
