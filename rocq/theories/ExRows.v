(** Concrete cases for source samples handed over in several calls. *)
From Coq Require Import ZArith QArith Qcanon.
From Verif Require Import Py PyStr Field Tensor ModelGrad Monad ModelState ModelInfluence SpecGrad SpecState SpecInfluence SpecRows GradProofs1 InfProofs20 ExNum ExState ExInfluence.
Local Open Scope string_scope.
Local Open Scope list_scope.
Local Open Scope nat_scope.

Definition uniform_b (n : nat) (L : @tlog Qc) : bool :=
  forallb (fun x => match shape (snd (snd x)) with k :: r => (k =? n) && (length (data (snd (snd x))) =? prod (k :: r)) | [] => false end) (items L).
Lemma uniform_ok n L : uniform_b n L = true -> uniform n L.
Proof.
  intros E m t x Lx. apply look_items in Lx. unfold uniform_b in E. rewrite forallb_forall in E. specialize (E _ Lx). cbn [snd] in E. destruct (shape (snd x)) as [|k r] eqn:Sx; [discriminate E|]. apply andb_true_iff in E. destruct E as (E1 & E2). apply Nat.eqb_eq in E1. apply Nat.eqb_eq in E2. subst k. exists r. split; [reflexivity|]. unfold twf. rewrite Sx. exact E2.
Qed.
Lemma x_reached cs : plain_state (fst (fin cs)).
Proof. apply (plain_reached xeigh xinverse cs ex_dk). Qed.
(** the three samples of [xB] against themselves, in batches of the given sizes *)
Definition wcalls (ks ls : list nat) mode groups : list (icall Qc) := map (fun b => ICall Qc b (batches 0 ls ["a"; "b"; "c"] xB) mode true "auto" groups xd) (batches 0 ks ["u"; "v"; "w"] xB).
(** what is saved after calls that all succeed, and after the single call *)
Definition wsaved (ks ls : list nat) mode groups (s : @lstate Qc) := let (f, r) := xcalls_all (wcalls ks ls mode groups) (x_init s) in
  match r with Ok _ => Ok (option_map (fun a => let v := view f a in (i_src v, i_tgt v, vshow (i_val v))) (if_scores f)) | Err e => Err e end.
Definition wwhole (ls : list nat) mode groups (s : @lstate Qc) := oa (xall (xlog xB ["u"; "v"; "w"]) (batches 0 ls ["a"; "b"; "c"] xB) mode true "auto" groups xd s).

Lemma ekfac_source : ~ forall (C EC : @tlog Qc) (E : dict string (@dten Qc)) (A B : @tlog Qc) (s : @lstate Qc) sids tids ks d,
  ekfac_state s C EC E -> plain_log Cpu (length sids) A -> plain_log Cpu (length tids) B -> all_on Cpu B -> within A B -> grad_first B -> (forall m, In m (dkeys B) -> In m (dkeys A)) ->
  (forall m, In m (dkeys A) -> ekfac_data Cpu EC E A m) -> covered C A -> splits ks (length sids) ->
  (let (f, r) := xcalls_all (map (fun b => ICall Qc b [(tids, Nest (log_nd B))] "dot" true "kfac" None d) (batches 0 ks sids A)) (x_init s) in
   match r with Ok _ => Ok (option_map (fun a => let v := view f a in (i_src v, i_tgt v, vshow (i_val v))) (if_scores f)) | Err e => Err e end) =
  oa (xall (sids, Nest (log_nd A)) [(tids, Nest (log_nd B))] "dot" true "kfac" None d s).
Proof.
  intros X. assert (PB : plain_log Cpu 3 xB) by (apply x_plain; reflexivity).
  assert (WI : within xB xB) by apply x_within. assert (ON : all_on Cpu xB) by apply x_on.
  assert (DB : forall m, In m (dkeys xB) -> ekfac_data Cpu zEC zE xB m) by (intros m; apply z_data; reflexivity).
  assert (CB : covered zC xB) by (apply covered_b; vm_compute; reflexivity).
  assert (Sp : splits [2; 1] 3) by (repeat split; [discriminate|repeat constructor; discriminate]).
  assert (FI : grad_first xB) by reflexivity. assert (IN : forall m, In m (dkeys xB) -> In m (dkeys xB)) by (intros m Im; exact Im).
  pose proof (X zC zEC zE xB xB zstate ["u"; "v"; "w"] ["a"; "b"; "c"] [2; 1] xd z_state PB PB ON WI FI IN DB CB Sp) as Y. vm_compute in Y. discriminate Y.
Qed.
