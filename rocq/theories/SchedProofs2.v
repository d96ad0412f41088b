(** add_lora forgets the statistics. *)
From Coq Require Import ZArith Lia.
From Verif Require Import Py PyStr Field Tensor ModelGrad Monad ModelState ModelMmap ModelSaver ModelLogger ModelModules ModelLora ModelScheduler SpecGrad SpecState SpecLogger SpecLora SpecScheduler StateProofs6 LogProofs1 LoraProofs2 LoraProofs6 LoraProofs7 SchedProofs.
Local Open Scope string_scope.
Local Open Scope list_scope.
Local Open Scope nat_scope.

Section P.
  Context {F : Type} `{OField F}.
  Context (rnd : mid -> list nat -> F) (svd : tensor F -> res (tensor F)).
  Notation lm := (@lm F).
  Notation tensor := (tensor F).

  (** operations that leave the logging part alone *)
  Definition xkeep {A} (m : SM lm A) : Prop := forall s s' r, m s = (s', r) -> lm_x s' = lm_x s.
  Lemma xk_ret {A} (a : A) : xkeep (sret a).
  Proof. intros s s' r [= <- _]. reflexivity. Qed.
  Lemma xk_fail {A} e : xkeep (A := A) (sfail e).
  Proof. intros s s' r [= <- _]. reflexivity. Qed.
  Lemma xk_lift {A} (r : res A) : xkeep (lift r).
  Proof. intros s s' r' [= <- _]. reflexivity. Qed.
  Lemma xk_get : xkeep sget.
  Proof. intros s s' r [= <- _]. reflexivity. Qed.
  Lemma xk_bind {A B} (m : SM lm A) (f : A -> SM lm B) : xkeep m -> (forall a, xkeep (f a)) -> xkeep (sbind m f).
  Proof.
    intros Hm Hf s s' r. unfold sbind. destruct (m s) as [s1 [a|e]] eqn:E; [|intros [= <- _]; exact (Hm _ _ _ E)].
    intros E2. rewrite (Hf _ _ _ _ E2). exact (Hm _ _ _ E).
  Qed.
  Lemma xk_new k sh : xkeep (new_layer rnd k sh).
  Proof. intros s s' r [= <- _]. reflexivity. Qed.
  Lemma xk_weight m f : xkeep (set_weight m f).
  Proof. intros s s' r. unfold set_weight. destruct (dget _ _) as [[v b]|]; [|intros [= <- _]; reflexivity]. destruct (f v); intros [= <- _]; reflexivity. Qed.
  Lemma xk_node key a b c t : xkeep (lora_node key a b c t).
  Proof. intros s s' r [= <- _]. reflexivity. Qed.
  Ltac xk := repeat (first [apply xk_bind; [|intros] | apply xk_ret | apply xk_fail | apply xk_lift | apply xk_get | apply xk_new | apply xk_weight | apply xk_node]).
  Lemma xk_lora rank t sh : xkeep (new_lora rnd rank t sh).
  Proof. unfold new_lora, zero_weight, linear_layer, conv_layer. destruct (t_kind t), sh; xk. Qed.
  Lemma xk_shared rank t : xkeep (new_shared rnd rank t).
  Proof. unfold new_shared, linear_layer, conv_layer. destruct (t_kind t); xk. Qed.
  Lemma xk_pca rank t l cov : xkeep (pca_init svd rank t l cov).
  Proof. unfold pca_init. destruct l as [? ? ? ? [|[? a] [|b [|[? c] [|d [|]]]]]]; try apply xk_fail. destruct (t_kind t); xk. Qed.
  Lemma xk_item c reach i sh : xkeep (lora_item rnd svd c reach i sh).
  Proof.
    unfold lora_item. apply xk_bind; [destruct (t_kind (i_mod i)); xk|intros _]. apply xk_bind; [xk|intros psg]. apply xk_bind.
    - destruct (_ && _); [|xk]. apply xk_bind; [apply xk_shared|intros; xk].
    - intros sh'. apply xk_bind; [apply xk_lora|intros l]. apply xk_bind; [destruct (String.eqb _ _); [|xk]; apply xk_bind; [xk|intros s]; apply xk_bind; [xk|intros cov]; apply xk_pca|intros _].
      destruct reach; [intros s s' r [= <- _]; reflexivity|xk].
  Qed.
  Lemma xk_loop c tf nf reach l : forall sh, xkeep (lora_loop rnd svd c tf nf reach l sh).
  Proof. induction l as [|i l IH]; intros sh; cbn [lora_loop]; [xk|]. destruct (module_check i tf nf false); [|apply IH]. apply xk_bind; [apply xk_item|intros; apply IH]. Qed.
  Lemma xk_handler tf nf : xkeep (handler_add_lora rnd svd tf nf).
  Proof.
    intros s s' r. unfold handler_add_lora. destruct (lm_handler s) as [h|]; [|intros [= <- _]; reflexivity]. destruct (dget _ _) as [cs|]; [|intros [= <- _]; reflexivity]. cbv zeta.
    match goal with |- context [lm_set_lora s (lm_cfg s) (Some ?h)] => set (h' := h) end. set (s0 := lm_set_lora s (lm_cfg s) (Some h')).
    change (lm_x s) with (lm_x s0). destruct (lm_root s0) as [root|]; [|intros [= <- _]; reflexivity]. destruct (is_nil (all_params root)); [intros [= <- _]; reflexivity|].
    destruct root as [id k cls ps kids]. destruct kids as [|c kids].
    - destruct (module_check _ tf nf false); [|intros [= <- _]; reflexivity]. intros E.
      exact (xk_bind _ _ (xk_item _ _ _ _) (fun a => xk_bind _ _ (xk_loop _ _ _ _ _ _) (fun _ => xk_ret tt)) _ _ _ E).
    - intros E. exact (xk_bind _ _ (xk_loop _ _ _ _ _ _) (fun _ => xk_ret tt) _ _ _ E).
  Qed.
  Lemma clear_success nc l : forall (s s' : @lstate F),
    seach (fun a => if mem a nc then sret tt else let! _ := attr a in set_attr a (Node [])) l s = (s', Ok tt) ->
    (forall a, In a l -> ~ In a nc -> dget a (attrs s') = Some (Node [])) /\ (forall a, dget a (attrs s) = Some (Node []) -> dget a (attrs s') = Some (Node [])) /\ st_states s' = st_states s.
  Proof.
    induction l as [|b l IH]; intros s s' E; [injection E as <-; split; [intros a []|auto]|].
    cbn [seach] in E. apply sbind_ok in E as (s1 & [] & E1 & E2). destruct (IH _ _ E2) as (A & B & C).
    assert (D : (~ In b nc -> dget b (attrs s1) = Some (Node [])) /\ (forall a, dget a (attrs s) = Some (Node []) -> dget a (attrs s1) = Some (Node [])) /\ st_states s1 = st_states s).
    { destruct (mem b nc) eqn:M; [injection E1 as <-; split; [intros N; exfalso; apply N, mem_In, M|auto]|].
      apply sbind_ok in E1 as (s0 & x & E0 & E1). unfold attr in E0. destruct (dget b (attrs s)); [|discriminate E0]. injection E0 as <- _. injection E1 as <-. cbn [attrs with_attrs st_states].
      split; [intros _; apply dget_dset_eq|]. split; [|reflexivity]. intros a Ha. destruct (string_dec a b) as [->|Ne]; [apply dget_dset_eq|rewrite dget_dset_neq by congruence; exact Ha]. }
    destruct D as (D1 & D2 & D3). split; [|split; [auto|congruence]]. intros a [->|Ha] N; [apply B, D1, N|exact (A a Ha N)].
  Qed.
  Lemma set_state_other n k v (s s' : @lstate F) r a : set_state n k v s = (s', r) -> a <> n -> dget a (attrs s') = dget a (attrs s).
  Proof.
    intros E N. unfold set_state, sbind at 1, sget in E. destruct (mem n (st_states s)); [|injection E as <- _; reflexivity].
    unfold sbind at 1, attr in E. destruct (dget n (attrs s)) as [x|]; [|injection E as <- _; reflexivity]. unfold sbind at 1, lift in E. destruct (nd_set1 x k v) as [x'|e]; [|injection E as <- _; reflexivity].
    injection E as <- _. cbn [attrs with_attrs]. apply dget_dset_neq. congruence.
  Qed.
  Lemma watch_state wsize ms (x x' : @lx F) o a : watch wsize ms x = (x', o) -> a <> "model_module" -> dget a (attrs (x_state x')) = dget a (attrs (x_state x)).
  Proof.
    intros E N. unfold watch in E. rewrite (sbind_run _ _ _ _ _ (add_modules_run ms x)) in E. set (y := with_mods x _ _) in *. rewrite (sbind_run _ _ y y y) in E by reflexivity. cbv zeta in E.
    change (x_state x) with (x_state y). destruct (map (fun p : mid * string => wsize (fst p)) (x_names y)) as [|d ds]; [injection E as <- _; reflexivity|].
    unfold sbind at 1 in E. destruct ((set_state _ _ _ ;; set_state _ _ _) (x_state y)) as [s' r] eqn:Es.
    assert (A : dget a (attrs s') = dget a (attrs (x_state y))).
    { unfold sbind at 1 in Es. destruct (set_state "model_module" "path" _ (x_state y)) as [s1 r1] eqn:E1. rewrite <- (set_state_other _ _ _ _ _ _ a E1 N). destruct r1; [exact (set_state_other _ _ _ _ _ _ a Es N)|injection Es as <- _; reflexivity]. }
    destruct r; [match type of E with context [x_shared ?z] => destruct (x_shared z) end|]; injection E as <- _; exact A.
  Qed.
  Lemma add_lora_fresh clear tf nf cfg (s s' : lm) : lm_add_lora rnd svd true clear tf nf None cfg s = (s', Ok tt) ->
    forall a, In a (st_states (x_state (lm_x s))) -> ~ In a (st_noclear (x_state (lm_x s))) -> a <> "model_module" ->
    dget a (attrs (x_state (lm_x s'))) = Some (Node []).
  Proof.
    intros E a Ha Hn Nm. unfold lm_add_lora in E. apply sbind_ok in E as (s0 & [] & E0 & E). injection E0 as <-. apply sbind_ok in E as (s0 & s1 & E0 & E). injection E0 as <- <-.
    apply sbind_ok in E as (s2 & [] & E2 & E). apply xk_handler in E2. cbn [lm_x lm_set_lora] in E2. apply sbind_ok in E as (s3 & [] & E3 & E). injection E3 as <-.
    apply sbind_ok in E as (s4 & [] & E4 & E). apply save_lora_keeps in E4 as (f & ->). apply sbind_ok in E as (s5 & [] & E5 & E). rewrite Bool.orb_true_r in E5.
    unfold on_x in E5. change (lm_x (lm_set_file s2 f)) with (lm_x s2) in E5. rewrite E2 in E5. destruct (lx_clear (lm_x s)) as [x r] eqn:Ec. injection E5 as <- ->.
    assert (A : dget a (attrs (x_state x)) = Some (Node [])).
    { unfold lx_clear in Ec. apply sbind_ok in Ec as (x1 & [] & Ec1 & Ec2). assert (Ex : x_state x = x_state x1) by (unfold logger_clear, clear_hooks in Ec2; cbv [sbind] in Ec2; injection Ec2 as <-; reflexivity). rewrite Ex.
      destruct (state_clear (x_state (lm_x s))) as [st o] eqn:Es. injection Ec1 as <- ->. cbn [x_state with_state]. unfold state_clear, sbind at 1, sget in Es. apply clear_success in Es as (A & _). exact (A a Ha Hn). }
    apply sbind_ok in E as (s6 & s7 & E6 & E). injection E6 as <- <-. cbn [lm_root lm_set_x lm_set_file] in E. destruct (lm_root s2) as [root|]; [|discriminate E].
    unfold lm_watch, on_x in E. match type of E with (let (_, _) := watch ?w ?ms ?y in _) = _ => destruct (watch w ms y) as [x' r] eqn:Ew end. injection E as <- ->. cbn [lm_x lm_set_x].
    rewrite (watch_state _ _ _ _ _ _ Ew Nm). exact A.
  Qed.
End P.
Lemma begun_step {F} `{OField F} (rnd : mid -> list nat -> F) (svd : tensor F -> res (tensor F)) lora hessian save k (p : sched * lm) :
  begun rnd svd lora hessian save k (fst p) -> k < epochs lora hessian -> begun rnd svd lora hessian save (S k) (fst (fst (sched_next rnd svd p))).
Proof. destruct p as [c s]. intros B L. apply (begun_next rnd svd lora hessian save k c s _ (snd (fst (sched_next rnd svd (c, s)))) (snd (sched_next rnd svd (c, s))) B L). destruct (sched_next rnd svd (c, s)) as [[a b] r]. reflexivity. Qed.
Lemma no_params (t : mtree) : (forall u, below u t -> t_params u = []) -> all_params t = [].
Proof.
  induction t as [id k cls ps kids IH] using mtree_ind'. intros A. cbn [all_params]. pose proof (A _ (below_refl _)) as P. cbn in P. subst ps. cbn [app].
  assert (B : forall nc, In nc kids -> all_params (snd nc) = []).
  { intros [key c] Hc. rewrite Forall_forall in IH. apply (IH _ Hc). intros u B. apply A. eapply below_kid; [|exact B]. exact Hc. }
  clear -B. induction kids as [|nc l IH]; [reflexivity|]. cbn [map concat]. rewrite (B nc (or_introl eq_refl)). apply IH. intros x Hx. apply B. right. exact Hx.
Qed.
Lemma next_no_parameters {F} `{OField F} (rnd : mid -> list nat -> F) (svd : tensor F -> res (tensor F)) lora hessian save k c (s : @lm F) root cs :
  good lora hessian save -> begun rnd svd lora hessian save k c -> adds_lora lora k ->
  lm_root s = Some root -> (forall u, below u root -> t_params u = []) -> dget "covariance_state" (attrs (x_state (lm_x s))) = Some cs ->
  snd (sched_next rnd svd (c, s)) = Err StopIteration.
Proof.
  intros G B A R N Cs. 
  assert (L : k < epochs lora hessian) by (unfold epochs; destruct A as [[-> ->]|[-> ->]]; cbn; destruct (String.eqb hessian "ekfac"); lia).
  destruct (next_epoch rnd svd lora hessian save k c s G B L) as (c' & s1 & r & E1 & _ & E2). specialize (E1 A).
  assert (X : r = Err StopIteration).
  { unfold lm_add_lora, sbind, sget in E1. cbn [lm_handler lm_set_lora] in E1. unfold handler_add_lora in E1. cbn [lm_handler lm_set_lora lm_x lm_root] in E1.
    destruct (lm_handler s) as [h|]; cbn [lm_set_lora lm_x lm_root lm_cfg lm_handler] in E1; rewrite Cs in E1; rewrite R in E1; rewrite (no_params _ N) in E1; cbn [is_nil] in E1; congruence. }
  subst r. rewrite E2. reflexivity.
Qed.
