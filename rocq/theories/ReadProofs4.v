(** Lemmas: scores in the model with objects. *)
From Verif Require Import Py PyStr Field Tensor ModelGrad Monad ModelState ModelInfluence ModelReads SpecInfluence SpecReads.
From Verif Require Import StateProofs1 InfProofs1 InfProofs2 InfProofs16 ReadProofs1 ReadProofs2 ReadProofs3.
Local Open Scope nat_scope.

Section ReadProofs4.
  Context {F : Type} `{OField F}.
  Notation tensor := (tensor F).
  Notation sval := (@sval F).
  Notation lstate := (@lstate F).
  Notation dten := (@dten F).
  Notation world := (@world F).
  Notation logs := (list (bool * nd sval)).
  Notation tlog := (@tlog F).
  Variable eigh : tensor -> res (tensor * tensor).
  Variable inverse : tensor -> res tensor.
  Variable fsqrt : F -> F.
  Variable K : Prop.

  Definition more (L : logs) {A} (s : lstate) (a : A) (w : world) (b : A) : Prop := exists L', w = World s L' /\ b = a /\ grows L L'.
  Lemma more_weak (L0 L : logs) {A} (s : lstate) (a : A) w b : grows L0 L -> same L s a w b -> more L0 s a w b.
  Proof. intros G [-> ->]. exists L. auto. Qed.
  (** preconditioning, or not *)
  Lemma tr_maybe (L : logs) (prec : bool) ids r b (X : tlog) d h s : nth_error L r = Some (b, log_nd X) -> (b = false -> K) ->
    tracks K (fun s' g w rl => exists L' n c (P : tlog), w = World s' L' /\ grows L L' /\ g = (ids, Nest (log_nd P)) /\ rl = (ids, At n) /\ nth_error L' n = Some (c, log_nd P) /\ (c = false -> K) /\
        ((n = r /\ P = X /\ (prec = true -> uncovered s (log_nd X))) \/ n >= length L) /\ (prec = false -> P = X))
      ((if prec then precondition eigh inverse (ids, Nest (log_nd X)) d h else sret (ids, Nest (log_nd X))) s)
      ((if prec then precondition_r eigh inverse (ids, At r) d h else sret (ids, At r)) (World s L)).
  Proof.
    intros E HK. destruct prec.
    - eapply tr_mono; [apply (tr_precondition eigh inverse K L ids r b (log_nd X) d h s E HK)|]. intros s1 g w rl [(-> & -> & -> & U)|(P & -> & -> & ->)].
      + exists L, r, b, X. repeat (split; [solve [auto|apply grows_refl]|]). discriminate.
      + exists (L ++ [(true, log_nd P)]), (length L), true, P. split; [reflexivity|]. split; [apply grows_app|]. split; [reflexivity|]. split; [reflexivity|].
        split; [rewrite nth_error_app2 by auto; rewrite Nat.sub_diag; reflexivity|]. split; [discriminate|]. split; [right; auto|discriminate].
    - exists (World s L), (ids, At r). split; [reflexivity|]. exists L, r, b, X. repeat (split; [solve [auto|apply grows_refl]|]). split; [left; split; [reflexivity|split; [reflexivity|discriminate]]|auto].
  Qed.
  Lemma tr_self (L : logs) ids r b (X : tlog) prec h groups d s : nth_error L r = Some (b, log_nd X) -> (b = false -> K) ->
    tracks K (more L) (compute_self_influence eigh inverse (ids, Nest (log_nd X)) prec h groups d s)
      (compute_self_influence_r eigh inverse (ids, At r) prec h groups d (World s L)).
  Proof.
    intros E HK. unfold compute_self_influence, compute_self_influence_r. cbn [fst snd].
    eapply tr_bind; [apply (tr_maybe L prec ids r b X d h s E HK)|]. intros s1 g w rl _ (L' & n & c & P & -> & G & -> & -> & EP & HP & _ & _). cbn [snd].
    unfold lift at 1 6. unfold sbind at 1 6. rewrite (sbind_run _ _ _ _ _ (logs_run r (World s1 L') _ (G _ _ E))). cbn [snd].
    eapply tr_bind; [apply tr_lift|]. intros s2 ms w ? Y [-> ->]. apply lift_ok in Y. destruct Y as [-> _].
    eapply tr_bind; [apply (tr_self_loop K L' groups r b X n c P (G _ _ E) HK EP HP ms (init_scores groups) s1)|]. intros s2 tot w ? Y [-> ->].
    eapply tr_bind; [apply tr_lift|]. intros s3 vals w ? Z [-> ->]. eapply tr_bind; [apply tr_lift|]. intros s4 v w ? V [-> ->].
    eapply tr_mono; [apply (tr_ret K L')|]. intros. eapply more_weak; eassumption.
  Qed.
  (** what a call that returned did to the logs *)
  Definition inf_out (L : logs) (A B : tlog) (prec : bool) t c {V} (s : lstate) (v : V) (w : world) (v' : V) : Prop :=
    v' = v /\ exists L' dv, w = World s L' /\ (prec = false -> dev_from dv A B) /\ nth_error L' t = Some (c, log_nd (moved dv B)) /\
    (forall r x, r <> t -> nth_error L r = Some x -> nth_error L' r = Some x).
  Lemma tr_influence (L : logs) sids tids a b (A : tlog) t c (B : tlog) mode prec h groups d s :
    nth_error L a = Some (b, log_nd A) -> (b = false -> K) -> nth_error L t = Some (c, log_nd B) -> (c = false -> K) -> a <> t \/ (prec = true /\ ~ uncovered s (log_nd A)) ->
    tracks K (inf_out L A B prec t c) (compute_influence eigh inverse fsqrt (sids, Nest (log_nd A)) (tids, Nest (log_nd B)) mode prec h groups d s)
      (compute_influence_r eigh inverse fsqrt (sids, At a) (tids, At t) mode prec h groups d (World s L)).
  Proof.
    intros EA Ha EB Hb N. unfold compute_influence, compute_influence_r. destruct (mem mode _); [|apply tr_fail].
    eapply tr_bind; [apply (tr_maybe L prec sids a b A d h s EA Ha)|]. intros s1 g w rl _ (L1 & n & c1 & P & -> & G & -> & -> & EP & HP & Nn & Pp). cbn [fst snd].
    assert (NT : n <> t). { destruct Nn as [(-> & _ & U)|Nn]; [destruct N as [N|[Hp N]]; [exact N|exfalso; exact (N (U Hp))]|]. intros ->. assert (t < length L) by (apply nth_error_Some; congruence). lia. }
    eapply (tr_bind K (fun s (p : @scores F * @glog F) w (tot : @scores F) => exists dv, w = World s (upd L1 t (c, log_nd (moved dv B))) /\ tot = fst p /\ snd p = (tids, Nest (log_nd (moved dv B))) /\ dev_from dv P B)).
    { unfold lift at 1. unfold sbind at 1. rewrite (sbind_run _ _ _ _ _ (logs_run t (World s1 L1) _ (G _ _ EB))). cbn [snd].
      unfold lift at 4. unfold sbind at 4.
      eapply tr_bind; [apply (tr_sync K L1 n c1 c P B t s1 EP HP (G _ _ EB))|]. intros s2 z w u Y (dv & Dv & -> & ->). apply lift_ok in Y. destruct Y as [-> _].
      set (L2 := upd L1 t (c, log_nd (moved dv B))). assert (E2 : nth_error L2 n = Some (c1, log_nd P)) by (unfold L2; rewrite (nth_error_upd_other _ _ _ _ _ (G _ _ EB) NT); exact EP).
      assert (T2 : nth_error L2 t = Some (c, log_nd (moved dv B))) by exact (nth_error_upd_same _ _ _ _ (G _ _ EB)).
      rewrite (sbind_run _ _ _ _ _ (logs_run n (World s1 L2) _ E2)). cbn [snd].
      eapply tr_bind; [apply tr_lift|]. intros s3 ms w ? Y [-> ->]. apply lift_ok in Y. destruct Y as [-> _].
      pose proof (tr_dot_loop K L2 groups n c1 P t c (moved dv B) E2 HP T2 Hb ms (init_scores groups) s1) as Q.
      match type of Q with tracks _ _ (lift ?f _) _ => destruct f as [tot|e] end.
      - destruct Q as (w & ? & Q & -> & ->). rewrite Q. eexists _, _. split; [reflexivity|]. exists dv. auto.
      - destruct Q as (w & e' & Q & He). rewrite Q. exists w, e'. auto. }
    intros s2 pr w tot _ (dv & -> & -> & Dp & Dv). set (L2 := upd L1 t (c, log_nd (moved dv B))).
    assert (T2 : nth_error L2 t = Some (c, log_nd (moved dv B))) by exact (nth_error_upd_same _ _ _ _ (G _ _ EB)).
    eapply (tr_bind K (more L2)).
    { destruct pr as [t0 g0]. cbn [fst snd] in *. subst g0. destruct (String.eqb mode "cosine"); [|destruct (String.eqb mode "l2")].
      - eapply tr_bind; [apply (tr_self L2 tids t c (moved dv B) true h groups d s2 T2 Hb)|]. intros s3 nv w ? _ (L3 & -> & -> & G3).
        eapply tr_mono; [apply tr_lift|]. intros. eapply more_weak; eassumption.
      - eapply tr_bind; [apply (tr_self L2 tids t c (moved dv B) true h groups d s2 T2 Hb)|]. intros s3 nv w ? _ (L3 & -> & -> & G3).
        eapply tr_mono; [apply tr_lift|]. intros. eapply more_weak; eassumption.
      - eapply tr_mono; [apply tr_ret|]. intros. eapply more_weak; [apply grows_refl|eassumption]. }
    intros s3 tot w ? _ (L3 & -> & -> & G3). eapply tr_bind; [apply tr_lift|]. intros s4 vals w ? Z [-> ->]. apply lift_ok in Z. destruct Z as [-> _].
    eapply tr_bind; [apply tr_lift|]. intros s4 v w ? Z [-> ->]. apply lift_ok in Z. destruct Z as [-> _].
    eapply tr_mono; [apply tr_ret|]. intros s4 v4 w v5 [-> ->]. split; [reflexivity|]. exists L3, dv. split; [reflexivity|].
    split; [intros Hp; rewrite <- (Pp Hp); exact Dv|]. split; [apply G3, T2|]. intros r x Nr Er. apply G3. unfold L2. rewrite (nth_error_upd_other _ _ _ _ _ (G _ _ EB) Nr). apply G, Er.
  Qed.
  Lemma tr_influence_flat (L : logs) sids tids a b (A : tlog) u mode prec h groups d s :
    nth_error L a = Some (b, log_nd A) -> (b = false -> K) ->
    tracks K (more L) (compute_influence eigh inverse fsqrt (sids, Nest (log_nd A)) (tids, Flat u) mode prec h groups d s)
      (compute_influence_r eigh inverse fsqrt (sids, At a) (tids, One u) mode prec h groups d (World s L)).
  Proof.
    intros EA Ha. unfold compute_influence, compute_influence_r. destruct (mem mode _); [|apply tr_fail].
    eapply tr_bind; [apply (tr_maybe L prec sids a b A d h s EA Ha)|]. intros s1 g w rl _ (L1 & n & c1 & P & -> & G & -> & -> & EP & HP & Nn & Pp). cbn [fst snd].
    eapply (tr_bind K (fun s (p : @scores F * @glog F) w (tot : @scores F) => w = World s L1 /\ tot = fst p /\ snd p = (tids, Flat u))).
    { eapply tr_bind; [apply (tr_on K L1 (attr "model_module") s1)|]. intros s2 mm w ? _ [-> ->]. unfold lift at 1 5. unfold sbind at 1 5.
      eapply tr_bind; [apply (tr_flat K L1 n c1 (log_nd P) _ s2 EP HP)|]. intros s3 fs w ? _ [-> ->]. eapply tr_bind; [apply tr_lift|]. intros s4 x w ? _ [-> ->].
      unfold lift. unfold sbind. destruct (add_score x (init_scores groups) "total") as [tot|e]; [|exists (World s4 L1), e; auto]. eexists _, _. split; [reflexivity|]. auto. }
    intros s2 pr w tot _ (-> & -> & Dp).
    eapply (tr_bind K (same L1)).
    { destruct pr as [t0 g0]. cbn [fst snd] in *. subst g0. destruct (String.eqb mode "cosine"); [apply tr_fail|destruct (String.eqb mode "l2"); [apply tr_fail|apply tr_ret]]. }
    intros s3 tot w ? _ [-> ->]. eapply tr_bind; [apply tr_lift|]. intros s4 vals w ? Z [-> ->]. apply lift_ok in Z. destruct Z as [-> _].
    eapply tr_bind; [apply tr_lift|]. intros s4 v w ? Z [-> ->]. apply lift_ok in Z. destruct Z as [-> _].
    eapply tr_mono; [apply tr_ret|]. intros. eapply more_weak; eassumption.
  Qed.
End ReadProofs4.
