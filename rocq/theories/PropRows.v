(** Source samples handed over in several calls, and repeated questions. *)
From Coq Require Import ZArith QArith Qcanon.
From Verif Require Import Py PyStr Field Tensor ModelGrad Monad ModelState ModelInfluence SpecGrad SpecState SpecInfluence SpecRows InfProofs17 InfProofs19 InfProofs20 ExNum ExState ExInfluence ExRows.
Local Open Scope string_scope.
Local Open Scope list_scope.
Local Open Scope nat_scope.

(** C67. Any cut of the source samples into calls. *)
Theorem C67_source_batches {F} `{OField F} (eigh : tensor F -> res (tensor F * tensor F)) (inverse : tensor F -> res (tensor F)) (fsqrt : F -> F) n (A : @tlog F) sids loader mode prec h groups d ks (f : @ifn F) s' r :
  uniform n A -> length sids = n -> splits ks n -> plain_state (if_state f) -> if_scores f = None ->
  influence_all eigh inverse fsqrt (sids, Nest (log_nd A)) loader mode prec h groups d (if_state f) = (s', Ok (Some r)) ->
  exists f' os, calls_all eigh inverse fsqrt (map (fun b => ICall F b loader mode prec h groups d) (batches 0 ks sids A)) f = (f', Ok os) /\ if_state f' = s' /\
    saved f' r /\ length os = length ks /\ Forall (fun o => o <> None) os.
Proof. exact (source_batches eigh inverse fsqrt n A sids loader mode prec h groups d ks f s' r). Qed.
Print Assumptions C67_source_batches.
(** One call for some of the samples, in any state. *)
Theorem C67_source_rows {F} `{OField F} (eigh : tensor F -> res (tensor F * tensor F)) (inverse : tensor F -> res (tensor F)) (fsqrt : F -> F) off k n (A : @tlog F) sids loader mode prec h groups d (s s' : @lstate F) o :
  off + k <= n -> k <> 0 -> uniform n A -> length sids = n ->
  influence_all eigh inverse fsqrt (sids, Nest (log_nd A)) loader mode prec h groups d s = (s', Ok o) ->
  influence_all eigh inverse fsqrt (firstn k (skipn off sids), Nest (log_nd (part off k A))) loader mode prec h groups d s = (s', Ok (option_map (rows_of off k) o)).
Proof. exact (fun L N => all_part eigh inverse fsqrt off k n L N A sids loader mode prec h groups d s s' o). Qed.
Print Assumptions C67_source_rows.
(** With corrected eigenvalues several calls do not save what one call returns. *)
Theorem C67_ekfac_refuted : ~ forall (C EC : @tlog Qc) (E : dict string (@dten Qc)) (A B : @tlog Qc) (s : @lstate Qc) sids tids ks d,
  ekfac_state s C EC E -> plain_log Cpu (length sids) A -> plain_log Cpu (length tids) B -> all_on Cpu B -> within A B -> grad_first B -> (forall m, In m (dkeys B) -> In m (dkeys A)) ->
  (forall m, In m (dkeys A) -> ekfac_data Cpu EC E A m) -> covered C A -> splits ks (length sids) ->
  (let (f, r) := xcalls_all (map (fun b => ICall Qc b [(tids, Nest (log_nd B))] "dot" true "kfac" None d) (batches 0 ks sids A)) (x_init s) in
   match r with Ok _ => Ok (option_map (fun a => let v := view f a in (i_src v, i_tgt v, vshow (i_val v))) (if_scores f)) | Err e => Err e end) =
  oa (xall (sids, Nest (log_nd A)) [(tids, Nest (log_nd B))] "dot" true "kfac" None d s).
Proof. exact ekfac_source. Qed.
Print Assumptions C67_ekfac_refuted.
(** Three source samples as one and two, against batches of two and one, with KFAC, groups and norms, and with the raw
    preconditioner; with corrected eigenvalues the second call uses larger eigenvalues. *)
Example C67_example : uniform 3 xB /\ splits [1; 2] 3 /\ plain_state xstate /\ plain_state ystate /\
  wwhole [2; 1] "l2" (Some ["1"]) xstate = Ok (Some (["u"; "v"; "w"], ["a"; "b"; "c"],
    [("total", ([3; 3], [7415 # 452403; 2659 # 452403; -422039 # 1809612; 2864 # 150801; 13348 # 452403; -336961 # 1809612; -8125 # 150801; -18077 # 904806; 354199 # 1809612]%Q));
     ("1", ([3; 3], [22 # 2709; -1 # 3612; -697 # 3612; 4 # 301; 235 # 10836; -1769 # 10836; -52 # 903; -449 # 10836; 1555 # 10836]%Q))])) /\
  wsaved [1; 2] [2; 1] "l2" (Some ["1"]) xstate = wwhole [2; 1] "l2" (Some ["1"]) xstate /\
  wwhole [3] "dot" None ystate = Ok (Some (["u"; "v"; "w"], ["a"; "b"; "c"], [("", ([3; 3], [273 # 110; 31 # 22; -203 # 55; 31 # 22; 45 # 22; 6 # 11; -203 # 55; 6 # 11; 866 # 55]%Q))])) /\
  wsaved [2; 1] [3] "dot" None ystate = wwhole [3] "dot" None ystate /\ wsaved [2; 1] [3] "dot" None zstate <> wwhole [3] "dot" None zstate.
Proof.
  split; [apply uniform_ok; vm_compute; reflexivity|]. split; [repeat split; [discriminate|repeat constructor; discriminate]|]. split; [apply x_reached|]. split; [apply x_reached|]. repeat split; try (vm_compute; reflexivity). intros E. vm_compute in E. discriminate E.
Qed.

(** C68. Asking again. *)
Theorem C68_ask_again {F} `{OField F} (eigh : tensor F -> res (tensor F * tensor F)) (inverse : tensor F -> res (tensor F)) (fsqrt : F -> F) q a qs (s s1 : @lstate F) :
  plain_state s -> ask eigh inverse fsqrt q s = (s1, Ok a) -> ask eigh inverse fsqrt q (asked eigh inverse fsqrt qs s1) = (asked eigh inverse fsqrt qs s1, Ok a).
Proof. exact (ask_again eigh inverse fsqrt q a qs s s1). Qed.
Print Assumptions C68_ask_again.
Theorem C68_ask_keeps {F} `{OField F} (eigh : tensor F -> res (tensor F * tensor F)) (inverse : tensor F -> res (tensor F)) (fsqrt : F -> F) qs (s : @lstate F) a :
  plain_state s -> ~ In a ["covariance_inverse_state"; "covariance_eigval_state"; "covariance_eigvec_state"] -> dget a (attrs (asked eigh inverse fsqrt qs s)) = dget a (attrs s).
Proof. exact (ask_keeps eigh inverse fsqrt qs s a). Qed.
Print Assumptions C68_ask_keeps.
(** The hypothesis holds after any statistics, and stays. *)
Theorem C68_plain_kept {F} `{OField F} (eigh : tensor F -> res (tensor F * tensor F)) (inverse : tensor F -> res (tensor F)) (fsqrt : F -> F) qs (s : @lstate F) : plain_state s -> plain_state (asked eigh inverse fsqrt qs s).
Proof. exact (plain_kept eigh inverse fsqrt qs s). Qed.
Print Assumptions C68_plain_kept.
Theorem C68_plain_reached {F} `{OField F} cs dk : plain_state (fst (run_calls cs (@state_init F))) /\ plain_state (fst (finalize dk (fst (run_calls cs (@state_init F))))).
Proof. exact (plain_reached (fun _ => Err RuntimeError) (fun _ => Err RuntimeError) cs dk). Qed.
Print Assumptions C68_plain_reached.
(** Questions in between that compute both caches and one that fails. *)
Example C68_example : let q := QAll sA (batches 0 [2; 1] ["a"; "b"; "c"] xB) "cosine" true "auto" None xd in
  let qs := [QPre sB xd "kfac"; QPre sB None "raw"; QInf sA sB "euclid" true "auto" None xd; QSelf sB true "auto" None None] in let xask := ask xeigh xinverse xsqrt in
  let shw r := match r with Ok (AAll (Some x)) => Ok (i_src x, i_tgt x, vshow (i_val x)) | Ok _ => Err TypeError | Err e => Err e end in
  map (fun q => is_Ok (snd (xask q xstate))) qs = [true; false; false; true] /\
  is_Ok (snd (xask q xstate)) = true /\ shw (snd (xask q (asked xeigh xinverse xsqrt qs (fst (xask q xstate))))) = shw (snd (xask q xstate)).
Proof. cbv zeta. repeat split; vm_compute; reflexivity. Qed.
