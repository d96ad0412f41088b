(** Without statistics, training does not depend on the state of the statistics. *)
From Coq Require Import ZArith.
From Verif Require Import Py PyStr Field Tensor ModelGrad Monad ModelState ModelMmap ModelSaver ModelLoader ModelLogger ModelModules ModelLora ModelScheduler ModelInfluence ModelUtils ModelTrainer SpecGrad SpecState SpecInfluence SpecRows SpecTrainer.
Local Open Scope string_scope.
Local Open Scope list_scope.
Local Open Scope nat_scope.

Section Proofs.
  Context {F : Type} `{OField F}.
  Notation tensor := (tensor F).
  Notation lx := (@lx F).
  Notation lstate := (@lstate F).
  Context (kind : mid -> mkind) (eigh : tensor -> res (tensor * tensor)) (enc : @dten F -> array).
  Context (tok : option (data -> res (list string))) (hash : string -> string).

  Definition ind {A} (m : SM lx A) (x : lx) (s : lstate) : Prop :=
    m (with_state x s) = (with_state (fst (m x)) s, snd (m x)) /\ x_opt (fst (m x)) = x_opt x /\ x_state (fst (m x)) = x_state x.
  Lemma ind_ret {A} (a : A) x s : ind (sret a) x s.
  Proof. repeat split. Qed.
  Lemma ind_lift {A} (r : res A) x s : ind (lift r) x s.
  Proof. repeat split. Qed.
  Lemma ind_fail {A} e x s : ind (A:=A) (sfail e) x s.
  Proof. repeat split. Qed.
  Lemma ind_bind {A B} (m : SM lx A) (k : A -> SM lx B) x s :
    ind m x s -> (forall a, snd (m x) = Ok a -> ind (k a) (fst (m x)) s) -> ind (sbind m k) x s.
  Proof.
    intros (E & O & Q) K. unfold ind, sbind in *. rewrite E. destruct (m x) as [x1 [a|e]]; cbn [fst snd] in *; [|auto].
    destruct (K a eq_refl) as (E1 & O1 & Q1). rewrite E1, O1, Q1. auto.
  Qed.
  Lemma ind_get {B} (k : lx -> SM lx B) x s : k (with_state x s) = k x -> ind (k x) x s -> ind (sbind sget k) x s.
  Proof. intros E I1. unfold ind, sbind, sget in *. rewrite E. exact I1. Qed.
  Lemma ind_each {A} (f : A -> SM lx unit) (l : list A) x s : log_only x -> (forall a y, log_only y -> ind (f a) y s) -> ind (seach f l) x s.
  Proof.
    intros L K. revert x L. induction l as [|a l IH]; intros x L; [apply ind_ret|]. cbn [seach]. apply ind_bind; [apply K, L|]. intros u _. apply IH.
    destruct (K a x L) as (_ & O & _). unfold log_only. rewrite O. exact L.
  Qed.
  Lemma ind_log_put m t r x s : ind (log_put m t r) x s.
  Proof.
    unfold ind, log_put. cbn [with_state x_log x_heap]. destruct (dget t (match dget m (x_log x) with Some l => l | None => [] end)) as [old|]; [|repeat split].
    destruct (iadd_ _ _); [|repeat split]. destruct old; repeat split.
  Qed.
  Lemma only_fwd (x : lx) : log_only x -> o_forward (x_opt x) = [].
  Proof. unfold log_only. intros ->. reflexivity. Qed.
  Lemma only_bwd (x : lx) : log_only x -> o_backward (x_opt x) = [].
  Proof. unfold log_only. intros ->. reflexivity. Qed.
  Lemma only_grad (x : lx) : log_only x -> o_grad (x_opt x) = [PLog].
  Proof. unfold log_only. intros ->. reflexivity. Qed.
  Lemma ind_forward gm m n ins x s : log_only x -> ind (forward_hook kind eigh gm m n ins) x s.
  Proof.
    intros L. unfold ind, forward_hook. destruct ins as [|t [|]]; try (repeat split; fail). cbn [with_state x_heap x_mask x_opt]. rewrite (only_fwd x L). cbn [seach].
    destruct (x_mask x) as [mk|]; [|repeat split]. unfold sbind, lift. destruct (apply_mask mk (u_d (uget (x_heap x) t))) as [[r|]|e]; repeat split.
  Qed.
  Lemma ind_backward m n gs x s : log_only x -> ind (backward_hook kind eigh m n gs) x s.
  Proof. intros L. unfold ind, backward_hook. destruct gs as [|g [|]]; try (repeat split; fail). cbn [with_state x_opt]. rewrite (only_bwd x L). repeat split. Qed.
  Lemma ind_tensor_backward n g x s : log_only x -> ind (tensor_backward_hook eigh n g) x s.
  Proof. intros L. unfold ind, tensor_backward_hook. cbn [with_state x_opt]. rewrite (only_bwd x L). repeat split. Qed.
  Lemma ind_register u h x s : ind (register_tensor_hook u h) x s.
  Proof. unfold ind, register_tensor_hook. destruct (u_req u); repeat split. Qed.
  Lemma ind_grad_hook m n ins out x s : ind (grad_hook m n ins out) x s.
  Proof. unfold grad_hook. destruct ins as [|i [|]]; try apply ind_fail. destruct out; try apply ind_fail. apply ind_register. Qed.
  Lemma ind_grad_tensor m n i g x s : log_only x -> ind (grad_tensor_hook kind eigh m n i g) x s.
  Proof.
    intros L. unfold ind, grad_tensor_hook. cbn [with_state x_opt x_heap]. rewrite (only_grad x L). cbn [plugin_eqb firstn].
    unfold sbind at 1 2 3 4, lift. destruct (if dev_eqb _ _ then _ else _) as [psg|e]; [|repeat split]. cbn [seach run_plugin].
    change (ind (log_put n "grad" (Own (UT (fst (u_d (uget (x_heap x) i)), psg) false true)) ;; sret tt) x s). apply ind_bind; [apply ind_log_put|]. intros u _. apply ind_ret.
  Qed.
  Lemma ind_seq {A B} (m : SM lx A) (k : A -> SM lx B) x s : log_only x ->
    ind m x s -> (forall a y, log_only y -> ind (k a) y s) -> ind (sbind m k) x s.
  Proof. intros L I1 K. apply ind_bind; [exact I1|]. intros a _. apply K. destruct I1 as (_ & O & _). unfold log_only. rewrite O. exact L. Qed.
  Lemma ind_ev e x s : log_only x -> ind (run_ev kind eigh e) x s.
  Proof.
    intros L. destruct e as [t u|c m ins out gm|t g|c gs|e]; cbn [run_ev].
    - repeat split.
    - apply ind_seq; [exact L|repeat split|]. intros _ y Ly. apply ind_get; [reflexivity|]. apply ind_seq; [exact Ly|apply ind_each; [exact Ly|]; intros n z Lz; apply ind_forward, Lz|].
      intros _ z Lz. destruct out as [t u| |e].
      + apply ind_seq; [exact Lz|repeat split|]. intros _ w Lw. apply ind_get; [reflexivity|]. apply ind_each; [exact Lw|]. intros n v _. apply ind_grad_hook.
      + apply ind_get; [reflexivity|]. apply ind_each; [exact Lz|]. intros n v _. apply ind_grad_hook.
      + apply ind_fail.
    - apply ind_get; [reflexivity|]. apply ind_each; [exact L|]. intros h y Ly. destruct h; try apply ind_ret; [apply ind_grad_tensor, Ly|apply ind_tensor_backward, Ly].
    - apply ind_get; [reflexivity|]. apply ind_each; [exact L|]. intros h y Ly. destruct h; try apply ind_ret. apply ind_backward, Ly.
    - apply ind_fail.
  Qed.
  Lemma ind_evs es x s : log_only x -> ind (run_evs kind eigh es) x s.
  Proof. intros L. apply ind_each; [exact L|]. intros e y Ly. apply ind_ev, Ly. Qed.
  Lemma ind_enter x s : log_only x -> ind lx_enter x s.
  Proof.
    intros L. unfold lx_enter. apply ind_seq; [exact L|unfold logger_clear|].
    - apply ind_seq; [exact L|repeat split|]. intros _ y Ly. apply ind_seq; [exact Ly|apply ind_ret|]. intros _ z Lz. apply ind_ret.
    - intros _ y Ly. unfold register_all_module_hooks. apply ind_get; [reflexivity|]. apply ind_each; [exact Ly|]. intros m z Lz. unfold ind. cbn [with_state x_names]. destruct (dget m (x_names z)); repeat split.
  Qed.
  Lemma ind_save_log x s : ind (lx_save_log enc) x s.
  Proof.
    unfold ind, lx_save_log. cbn [with_state x_ids x_dir x_saver x_heap x_log]. destruct (x_ids x) as [ids|]; [|repeat split].
    destruct (save_log _ _ _ _) as [[d' s'] o]. repeat split.
  Qed.
  Lemma ind_exit x s : log_only x -> ind (lx_exit eigh enc) x s.
  Proof.
    intros L. unfold lx_exit. apply ind_get; [reflexivity|]. unfold update. apply ind_get; [reflexivity|]. rewrite (only_grad x L). cbn [skipn seach].
    apply ind_seq; [exact L|apply ind_ret|]. intros _ y _. destruct (_ || _); [apply ind_save_log|apply ind_ret].
  Qed.
  Lemma ind_finish (body : SM lx unit) x s : log_only x -> (forall y, log_only y -> ind body y s) ->
    ind (fun x => match body x with
             | (x', Ok _) => lx_exit eigh enc x'
             | (x', Err e) => match lx_exit eigh enc x' with (x'', Ok _) => (x'', Err e) | (x'', Err e') => (x'', Err e') end
             end) x s.
  Proof.
    intros L B. destruct (B x L) as (E & O & Q). unfold ind. rewrite E. destruct (body x) as [x1 [[]|e]]; cbn [fst snd] in *.
    - assert (L1 : log_only x1) by (unfold log_only; rewrite O; exact L). destruct (ind_exit x1 s L1) as (E1 & O1 & Q1). rewrite O1, Q1. auto.
    - assert (L1 : log_only x1) by (unfold log_only; rewrite O; exact L). destruct (ind_exit x1 s L1) as (E1 & O1 & Q1). rewrite E1. destruct (lx_exit eigh enc x1) as [x2 [[]|e2]]; cbn [fst snd] in *; rewrite O1, Q1; auto.
  Qed.
  Lemma ind_block ids mask body x s : log_only x -> (forall y, log_only y -> ind body y s) -> ind (block eigh enc ids mask body) x s.
  Proof.
    intros L B. unfold block. destruct ids as [ids|].
    - unfold with_block, lx_call. apply ind_seq; [exact L|apply ind_seq; [exact L|repeat split|]; intros _ y _; repeat split|]. intros _ y Ly.
      apply ind_seq; [exact Ly|apply ind_enter, Ly|]. intros _ z Lz. apply ind_finish; assumption.
    - apply ind_seq; [exact L|repeat split|]. intros _ y Ly. apply ind_seq; [exact Ly|apply ind_enter, Ly|]. intros _ z Lz. apply ind_finish; assumption.
  Qed.
  Lemma ind_training a m x s : log_only x -> ind (training_step kind eigh enc tok hash a m) x s.
  Proof.
    intros L. unfold training_step. apply ind_seq; [exact L|apply ind_lift|]. intros ids y Ly. apply ind_seq; [exact Ly|apply ind_lift|]. intros sc z Lz.
    apply ind_block; [exact Lz|]. intros w Lw. apply ind_evs, Lw.
  Qed.
  Lemma ind_got copy x s : ind (lx_get_log copy) x s.
  Proof. unfold ind, lx_get_log. cbn [with_state x_heap x_log x_ids]. destruct copy; repeat split. Qed.
End Proofs.
