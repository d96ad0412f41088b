(** The module-level functions. *)
From Verif Require Import Py PyStr Monad ModelRun.
From Verif Require ModelConfig.
Local Open Scope string_scope.
Local Open Scope list_scope.

Section Proofs.
  Context {W O A R : Type}.
  Variable construct : string -> string -> W -> W * res O.
  Variable methods : string -> O -> A -> W -> W * res R.
  Notation run_mcalls := (run_mcalls construct methods).
  Notation init := (init construct).
  Notation module_call := (module_call methods).

  Theorem uninitialised name a (s : @mw W O) : In name wrapped -> mw_inst s = None -> module_call name a s = (s, Err RuntimeError).
  Proof. intros I E. unfold ModelRun.module_call. rewrite (proj2 (mem_In name wrapped) I). unfold wrapper. rewrite E. reflexivity. Qed.
  Theorem first_init p c (s : @mw W O) w r : mw_inst s = None -> construct p (match c with Some f => f | None => "./config.yaml" end) (mw_world s) = (w, r) ->
    init p c s = match r with Ok o => (MW (Some o) w, Ok (Some o)) | Err e => (MW None w, Err e) end.
  Proof. intros E C. unfold ModelRun.init, default_config. rewrite E, C. destruct r; reflexivity. Qed.
  Lemma inst_step c (s : @mw W O) o : mw_inst s = Some o -> mw_inst (run_mcall construct methods c s) = Some o.
  Proof.
    intros E. destruct c as [p cf|n a|f]; cbn [run_mcall].
    - unfold ModelRun.init. rewrite E. exact E.
    - unfold ModelRun.module_call. destruct (mem n wrapped); [|exact E]. unfold wrapper. rewrite E. destruct (mem n logix_methods); [|exact E].
      destruct (methods n o a (mw_world s)); reflexivity.
    - exact E.
  Qed.
  Lemma inst_kept cs (s : @mw W O) o : mw_inst s = Some o -> mw_inst (run_mcalls cs s) = Some o.
  Proof. unfold ModelRun.run_mcalls. revert s. induction cs as [|c cs IH]; intros s E; [exact E|]. cbn [fold_left]. apply IH. apply inst_step. exact E. Qed.
  Theorem later_init p c (s s1 : @mw W O) o cs p' c' : init p c s = (s1, Ok (Some o)) ->
    let t := run_mcalls cs s1 in mw_inst t = Some o /\ init p' c' t = (t, Ok None).
  Proof.
    intros E. cbv zeta. assert (I1 : mw_inst s1 = Some o).
    { unfold ModelRun.init in E. destruct (mw_inst s); [discriminate E|]. destruct (construct _ _ _) as [w [o'|e]]; [injection E as <- ->; reflexivity|discriminate E]. }
    pose proof (inst_kept cs s1 o I1) as I2. split; [exact I2|]. unfold ModelRun.init. rewrite I2. reflexivity.
  Qed.
  Theorem delegates p c (s s1 : @mw W O) o cs name a : init p c s = (s1, Ok (Some o)) -> In name wrapped -> name <> "add_analysis" ->
    let t := run_mcalls cs s1 in module_call name a t = (MW (Some o) (fst (methods name o a (mw_world t))), snd (methods name o a (mw_world t))).
  Proof.
    intros E I N. cbv zeta. destruct (later_init p c s s1 o cs p c E) as (J & _). unfold ModelRun.module_call. rewrite (proj2 (mem_In name wrapped) I). unfold wrapper. rewrite J.
    assert (M : mem name logix_methods = true).
    { apply mem_In. unfold wrapped in I. cbn [In] in I. repeat (destruct I as [<-|I]; [first [congruence | cbn; tauto]|]). destruct I. }
    rewrite M. destruct (methods name o a _); reflexivity.
  Qed.
  Theorem no_analysis a (s : @mw W O) : module_call "add_analysis" a s = (s, Err (match mw_inst s with None => RuntimeError | Some _ => AttributeError end)).
  Proof. unfold ModelRun.module_call. cbn. unfold wrapper. destruct (mw_inst s); reflexivity. Qed.
End Proofs.

Theorem init_needs_file p c (s : @mw ModelConfig.fs ModelConfig.run) :
  mw_inst s = None -> dget (match c with Some f => f | None => "./config.yaml" end) (ModelConfig.f_files (mw_world s)) = None ->
  init (fun pr cf => ModelConfig.new_run (Some pr) (Some cf) None) p c s = (s, Err AssertionError).
Proof.
  intros E D. rewrite (first_init _ p c s (mw_world s) (Err AssertionError) E).
  - destruct s as [i w]. cbn in *. subst. reflexivity.
  - unfold ModelConfig.new_run, sbind, ModelConfig.init_config. rewrite D. reflexivity.
Qed.
