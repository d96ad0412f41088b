(** Lemmas: a log with an inserted empty dictionary stays that way, and no scores are computed with it. *)
From Verif Require Import Py PyStr Field Tensor ModelGrad Monad ModelState ModelInfluence ModelReads SpecInfluence SpecReads.
From Verif Require Import StateProofs1 InfProofs1 InfProofs2 InfProofs16 ReadProofs1 ReadProofs2 ReadProofs3.
Local Open Scope nat_scope.

Section ReadProofs5.
  Context {F : Type} `{OField F}.
  Notation tensor := (tensor F).
  Notation sval := (@sval F).
  Notation lstate := (@lstate F).
  Notation dten := (@dten F).
  Notation world := (@world F).
  Notation logs := (list (bool * nd sval)).
  Variable eigh : tensor -> res (tensor * tensor).
  Variable inverse : tensor -> res tensor.
  Variable fsqrt : F -> F.

  Definition bad (x : nd sval) (m k : string) : Prop :=
    exists d e, x = Node d /\ dget m d = Some (Node e) /\ (forall t, dget "grad" e <> Some (Leaf t)) /\ dget k e = Some (Node []).
  Definition spoiled_at (w : world) (r : nat) (m k : string) : Prop := exists b x, nth_error (w_logs w) r = Some (b, x) /\ bad x m k.
  Lemma spoiled_iff w r : spoiled w r <-> exists m k, spoiled_at w r m k.
  Proof.
    split.
    - intros (b & d & m & e & k & E & D & G & Hk). exists m, k, b, (Node d). split; [exact E|]. exists d, e. auto.
    - intros (m & k & b & x & E & d & e & -> & D & G & Hk). exists b, d, m, e, k. auto.
  Qed.
  Lemma bad_getitem2 b x m k m' t' : bad x m k -> bad (fst (getitem2 b x m' t')) m k.
  Proof.
    intros (d & e & -> & D & G & Hk). unfold getitem2, getitem. destruct (dget m' d) as [y|] eqn:E.
    - destruct y as [v|e']; [cbn [fst]; rewrite (dset_same m' _ d E); exists d, e; auto|].
      destruct (dget t' e') as [z|] eqn:T.
      + cbn [fst]. rewrite (dset_same m' _ d E). exists d, e. auto.
      + destruct b; cbn [fst]; [|rewrite (dset_same m' _ d E); exists d, e; auto].
        destruct (String.eqb_spec m m') as [->|N].
        * assert (e' = e) as -> by congruence. eexists _, _. split; [reflexivity|]. split; [apply dget_dset_eq|]. split.
          -- intros t. destruct (String.eqb_spec "grad" t') as [<-|N']; [rewrite dget_dset_eq; discriminate|rewrite dget_dset_neq by exact N'; apply G].
          -- rewrite dget_dset_neq by congruence. exact Hk.
        * exists (dset m' (Node (dset t' (Node []) e')) d), e. split; [reflexivity|]. split; [rewrite dget_dset_neq by exact N; exact D|auto].
    - assert (N : m <> m') by congruence. destruct b; cbn [fst]; [|exists d, e; auto]. cbn [dget fst]. eexists _, e. split; [reflexivity|]. split; [|auto].
      rewrite !dget_dset_neq by exact N. exact D.
  Qed.
  Lemma move_entries_get dv (e : dict string (nd sval)) k : match dget k e with
    | Some (Node z) => dget k (fst (move_entries dv e)) = Some (Node z)
    | Some (Leaf v) => exists v', dget k (fst (move_entries dv e)) = Some (Leaf v')
    | None => dget k (fst (move_entries dv e)) = None end.
  Proof.
    induction e as [|[k' y] e IH]; [reflexivity|]. cbn [dget move_entries]. destruct (as_dten y) as [t|x] eqn:Y.
    - destruct (move_entries dv e) as [e' o]. cbn [fst dget] in *. destruct (eqb k k'); [|exact IH]. destruct y as [v|z]; [eauto|discriminate].
    - cbn [fst dget]. destruct (eqb k k'); [destruct y; eauto|]. destruct (dget k e) as [[v|z]|]; eauto.
  Qed.
  Lemma move_modules_get dv (d : dict string (nd sval)) m e : dget m d = Some (Node e) -> dget m (fst (move_modules dv d)) = Some (Node e) \/ dget m (fst (move_modules dv d)) = Some (Node (fst (move_entries dv e))).
  Proof.
    induction d as [|[m' y] d IH]; [discriminate|]. cbn [dget]. destruct y as [v|e'].
    - cbn [move_modules fst dget]. destruct (eqb m m'); [discriminate|auto].
    - cbn [move_modules]. destruct (move_entries dv e') as [e2 [u|x]] eqn:M.
      + destruct (move_modules dv d) as [d' o]. cbn [fst dget] in *. destruct (eqb m m'); [|exact IH]. intros [= ->]. rewrite M. auto.
      + cbn [fst dget]. destruct (eqb m m'); [|auto]. intros [= ->]. rewrite M. auto.
  Qed.
  Lemma bad_move dv x m k : bad x m k -> bad (fst (move_log dv x)) m k.
  Proof.
    intros (d & e & -> & D & G & Hk). unfold move_log. destruct (move_modules dv d) as [d' o] eqn:M. cbn [fst]. pose proof (move_modules_get dv d m e D) as [Q|Q]; rewrite M in Q; cbn [fst] in Q.
    - exists d', e. auto.
    - exists d', (fst (move_entries dv e)). split; [reflexivity|]. split; [exact Q|]. split.
      + intros t. pose proof (move_entries_get dv e "grad") as X. destruct (dget "grad" e) as [[v|z]|] eqn:Y; [exfalso; exact (G v eq_refl)|rewrite X; discriminate|rewrite X; discriminate].
      + pose proof (move_entries_get dv e k) as X. rewrite Hk in X. exact X.
  Qed.
  Lemma move_entries_bad dv (e : dict string (nd sval)) k z : dget k e = Some (Node z) -> exists e' x, move_entries dv e = (e', Err x).
  Proof.
    induction e as [|[k' y] e IH]; [discriminate|]. cbn [dget move_entries]. destruct (as_dten y) as [t|x] eqn:Y; [|eauto].
    destruct (eqb k k'); [intros [= ->]; discriminate|]. intros Q. destruct (IH Q) as (e' & x & ->). eauto.
  Qed.
  Lemma move_bad dv x m k : bad x m k -> exists y e, move_log dv x = (y, Err e).
  Proof.
    intros (d & e & -> & D & _ & Hk). unfold move_log. assert (X : exists d' x, move_modules dv d = (d', Err x)).
    { induction d as [|[m' y] d IH]; [discriminate|]. cbn [dget] in D. cbn [move_modules]. destruct y as [v|e']; [eauto|]. destruct (eqb m m').
      - injection D as ->. destruct (move_entries_bad dv e k [] Hk) as (e1 & x & ->). eauto.
      - destruct (move_entries dv e') as [e1 [u|x]]; [|eauto]. destruct (IH D) as (d' & x & ->). eauto. }
    destruct X as (d' & x & ->). eauto.
  Qed.
  Lemma first_bad x m k : bad x m k -> exists p, first_item x = Some p.
  Proof.
    intros (d & e & -> & D & _ & Hk). cbn [first_item]. apply dget_In in D. apply dget_In in Hk.
    match goal with |- exists p, hd_error ?l = Some p => assert (N : In (m, k) l) end.
    { apply in_concat. exists (map (pair m) (dkeys e)). split; [apply in_map_iff; exists (m, Node e); auto|]. apply in_map. apply (in_map fst) in Hk. exact Hk. }
    destruct (concat _) as [|p l]; [destruct N|]. exists p. reflexivity.
  Qed.

  Definition keeps {A} (f : SM world A) : Prop := forall w r m k, spoiled_at w r m k -> spoiled_at (fst (f w)) r m k.
  Lemma keeps_bind {A B} (f : SM world A) (g : A -> SM world B) : keeps f -> (forall a, keeps (g a)) -> keeps (sbind f g).
  Proof. intros Kf Kg w r m k S. specialize (Kf w r m k S). unfold sbind. destruct (f w) as [w1 [a|e]]; [apply Kg; exact Kf|exact Kf]. Qed.
  Lemma keeps_ret {A} (a : A) : keeps (sret a). Proof. intros w r m k S. exact S. Qed.
  Lemma keeps_lift {A} (a : res A) : keeps (lift a). Proof. intros w r m k S. exact S. Qed.
  Lemma keeps_fail {A} e : keeps (@sfail world A e). Proof. intros w r m k S. exact S. Qed.
  Lemma keeps_logs r : keeps (logs_at r). Proof. intros w r' m k S. exact S. Qed.
  Lemma keeps_on {A} (f : SM lstate A) : keeps (on_st f).
  Proof. intros w r m k S. unfold on_st. destruct (f (w_st w)) as [s o]. exact S. Qed.
  Lemma keeps_new x : keeps (new_log x).
  Proof. intros w r m k (b & y & E & B). exists b, y. split; [|exact B]. cbn [new_log fst w_logs]. rewrite nth_error_app1; [exact E|]. apply nth_error_Some. congruence. Qed.
  Lemma keeps_read r m t : keeps (read r m t).
  Proof.
    intros w r' m' k' S. destruct (nth_error (w_logs w) r) as [[b x]|] eqn:E.
    - rewrite (read_run r m t w b x E). cbn [fst]. destruct S as (b' & y & E' & B). destruct (Nat.eq_dec r' r) as [->|N].
      + rewrite E in E'. injection E' as <- <-. exists b, (fst (getitem2 b x m t)). split; [exact (nth_error_upd_same _ _ _ _ E)|]. apply bad_getitem2. exact B.
      + exists b', y. split; [|exact B]. cbn [w_logs]. rewrite (nth_error_upd_other _ _ _ _ _ E N). exact E'.
    - unfold read, logs_at, sbind. rewrite E. exact S.
  Qed.
  Lemma keeps_read_t r m t : keeps (read_t r m t).
  Proof. apply keeps_bind; [apply keeps_read|intros; apply keeps_lift]. Qed.
  Lemma keeps_kfac_loop evn r ms : forall d out, keeps (kfac_loop_r evn r ms d out).
  Proof.
    induction ms as [|m ms IH]; intros d out; cbn [kfac_loop_r]; [apply keeps_ret|]. apply keeps_bind.
    - unfold kfac_module_r. apply keeps_bind; [apply keeps_read_t|]. intros g. apply keeps_bind; [apply keeps_on|]. intros. apply keeps_bind; [apply keeps_on|]. intros. apply keeps_bind; [apply keeps_on|]. intros. apply keeps_on.
    - intros pl. apply keeps_bind; [apply keeps_lift|]. intros. apply IH.
  Qed.
  Lemma keeps_raw_loop r ms : forall out, keeps (raw_loop_r r ms out).
  Proof.
    induction ms as [|m ms IH]; intros out; cbn [raw_loop_r]; [apply keeps_ret|]. apply keeps_bind.
    - unfold raw_module_r. apply keeps_bind; [apply keeps_read_t|]. intros g. apply keeps_bind; [apply keeps_on|]. intros. do 3 (apply keeps_bind; [apply keeps_lift|]; intros). apply keeps_ret.
    - intros pl. apply keeps_bind; [apply keeps_lift|]. intros. apply IH.
  Qed.
  Lemma keeps_precondition l d h : keeps (precondition_r eigh inverse l d h).
  Proof.
    unfold precondition_r. destruct (mem h _); [|apply keeps_fail]. apply keeps_bind; [apply keeps_on|]. intros cs. destruct (snd l) as [r|u]; [|apply keeps_fail].
    apply keeps_bind; [apply keeps_logs|]. intros x. do 2 (apply keeps_bind; [apply keeps_lift|]; intros). destruct (forallb _ _); [|apply keeps_ret].
    apply keeps_bind. { destruct (String.eqb h "raw"); [apply keeps_ret|]. destruct (String.eqb h "auto"); [|apply keeps_ret]. destruct a; [apply keeps_fail|]. apply keeps_bind; [apply keeps_on|intros; apply keeps_ret]. }
    intros raw. apply keeps_bind; [|intros p; apply keeps_bind; [apply keeps_new|intros; apply keeps_ret]].
    destruct raw.
    - unfold precondition_raw_r. apply keeps_bind; [apply keeps_on|]. intros. apply keeps_bind; [apply keeps_logs|]. intros. apply keeps_bind; [apply keeps_lift|]. intros. apply keeps_raw_loop.
    - unfold precondition_kfac_r. apply keeps_bind; [apply keeps_on|]. intros. apply keeps_bind; [apply keeps_on|]. intros. apply keeps_bind; [apply keeps_logs|]. intros. apply keeps_bind; [apply keeps_lift|]. intros. apply keeps_kfac_loop.
  Qed.
  Lemma keeps_maybe (prec : bool) l d h : keeps (if prec then precondition_r eigh inverse l d h else sret l).
  Proof. destruct prec; [apply keeps_precondition|apply keeps_ret]. Qed.
  Lemma keeps_flat r path : keeps (flatten_log_r r path).
  Proof.
    unfold flatten_log_r. apply keeps_bind; [|intros; apply keeps_lift]. induction path as [|[m t] path IH]; cbn [flat_parts]; [apply keeps_ret|].
    apply keeps_bind; [apply keeps_read_t|]. intros. do 2 (apply keeps_bind; [apply keeps_lift|]; intros). apply keeps_bind; [exact IH|intros; apply keeps_ret].
  Qed.
  (** moving the tensors of a log in place *)
  Definition move_at (t : nat) (dv : dev) : SM world unit :=
    let! x := logs_at t in let (z, o) := move_log dv (snd x) in write_log t (fst x, z) ;; lift o.
  Lemma keeps_move_at t dv : keeps (move_at t dv).
  Proof.
    intros w r m k S. unfold move_at. destruct (nth_error (w_logs w) t) as [[c x]|] eqn:E.
    - rewrite (sbind_run _ _ _ _ _ (logs_run t w _ E)). cbn [fst snd]. destruct (move_log dv x) as [z o] eqn:M.
      assert (Q : spoiled_at (World (w_st w) (upd (w_logs w) t (c, z))) r m k).
      { destruct S as (b & y & E' & B). destruct (Nat.eq_dec r t) as [->|N].
        - rewrite E in E'. injection E' as <- <-. exists c, z. split; [exact (nth_error_upd_same _ _ _ _ E)|]. change z with (fst (z, o)). rewrite <- M. apply bad_move. exact B.
        - exists b, y. split; [|exact B]. cbn [w_logs]. rewrite (nth_error_upd_other _ _ _ _ _ E N). exact E'. }
      unfold write_log, lift, sbind. exact Q.
    - unfold logs_at, sbind. rewrite E. exact S.
  Qed.
  Lemma keeps_sync a t : keeps (synchronize_device_r a t).
  Proof.
    unfold synchronize_device_r. apply keeps_bind; [apply keeps_logs|]. intros x. destruct (first_item (snd x)) as [[m k]|]; [|apply keeps_ret].
    apply keeps_bind; [apply keeps_read_t|]. intros d. apply (keeps_move_at t (fst d)).
  Qed.
  Lemma keeps_dot groups a t ms : forall d, keeps (dot_loop_r groups a t ms d).
  Proof.
    induction ms as [|m ms IH]; intros d; cbn [dot_loop_r]; [apply keeps_ret|]. do 2 (apply keeps_bind; [apply keeps_read|]; intros).
    do 4 (apply keeps_bind; [apply keeps_lift|]; intros). apply IH.
  Qed.
  Lemma keeps_self_loop groups a t ms : forall d, keeps (self_loop_r groups a t ms d).
  Proof.
    induction ms as [|m ms IH]; intros d; cbn [self_loop_r]; [apply keeps_ret|]. do 2 (apply keeps_bind; [apply keeps_read|]; intros).
    do 4 (apply keeps_bind; [apply keeps_lift|]; intros). apply IH.
  Qed.
  Lemma keeps_self l prec h groups d : keeps (compute_self_influence_r eigh inverse l prec h groups d).
  Proof.
    unfold compute_self_influence_r. destruct (snd l) as [r|u]; [|apply keeps_fail]. apply keeps_bind; [apply keeps_maybe|]. intros tl0. apply keeps_bind; [apply keeps_lift|]. intros.
    apply keeps_bind; [apply keeps_logs|]. intros. apply keeps_bind; [apply keeps_lift|]. intros. apply keeps_bind; [apply keeps_self_loop|]. intros. do 2 (apply keeps_bind; [apply keeps_lift|]; intros). apply keeps_ret.
  Qed.
  Lemma keeps_influence sl tl mode prec h groups d : keeps (compute_influence_r eigh inverse fsqrt sl tl mode prec h groups d).
  Proof.
    unfold compute_influence_r. destruct (mem mode _); [|apply keeps_fail]. apply keeps_bind; [apply keeps_maybe|]. intros l. apply keeps_bind.
    - destruct (snd tl) as [t|u].
      + apply keeps_bind; [apply keeps_logs|]. intros. apply keeps_bind; [apply keeps_lift|]. intros. apply keeps_bind; [apply keeps_sync|]. intros. apply keeps_bind; [apply keeps_logs|]. intros.
        apply keeps_bind; [apply keeps_lift|]. intros. apply keeps_dot.
      + apply keeps_bind; [apply keeps_on|]. intros. apply keeps_bind; [apply keeps_lift|]. intros. apply keeps_bind; [apply keeps_flat|]. intros. apply keeps_bind; [apply keeps_lift|]. intros. apply keeps_lift.
    - intros tot. apply keeps_bind.
      + destruct (String.eqb mode "cosine"); [|destruct (String.eqb mode "l2"); [|apply keeps_ret]]; (apply keeps_bind; [apply keeps_self|intros; apply keeps_lift]).
      + intros. do 2 (apply keeps_bind; [apply keeps_lift|]; intros). apply keeps_ret.
  Qed.
  Lemma keeps_calls cs : forall w r m k, spoiled_at w r m k -> spoiled_at (run_calls eigh inverse fsqrt cs w) r m k.
  Proof.
    unfold run_calls. induction cs as [|c cs IH]; intros w r m k S; [exact S|]. cbn [fold_left]. apply IH. destruct c; cbn [run_call]; [apply keeps_precondition|apply keeps_influence|apply keeps_self]; exact S.
  Qed.

  Definition raises {A} (x : world * res A) : Prop := exists w e, x = (w, Err e).
  Lemma raises_bind {A B} (f : SM world A) (g : A -> SM world B) w : (forall w' a, f w = (w', Ok a) -> raises (g a w')) -> raises (sbind f g w).
  Proof. unfold sbind. destruct (f w) as [w1 [a|e]]; intros X; [apply X; reflexivity|]. exists w1, e. reflexivity. Qed.
  Lemma raises_first {A B} (f : SM world A) (g : A -> SM world B) w : raises (f w) -> raises (sbind f g w).
  Proof. intros (w' & e & E). exists w', e. exact (sbind_err _ _ _ _ _ E). Qed.
  Lemma keeps_run {A} (f : SM world A) w w' o r m k : keeps f -> f w = (w', o) -> spoiled_at w r m k -> spoiled_at w' r m k.
  Proof. intros Kf E S. pose proof (Kf w r m k S) as Q. rewrite E in Q. exact Q. Qed.
  (** the gradient of the spoiled module is no tensor *)
  Lemma bad_grad b x m k : bad x m k -> forall v, snd (getitem2 b x m "grad") <> Ok (Leaf v).
  Proof.
    intros (d & e & -> & D & G & _) v. unfold getitem2, getitem. rewrite D. destruct (dget "grad" e) as [z|] eqn:E; cbn [snd].
    - intros [= ->]. exact (G v eq_refl).
    - destruct b; discriminate.
  Qed.
  Lemma read_bad w r m k w' x : spoiled_at w r m k -> read r m "grad" w = (w', Ok x) -> forall v, x <> Leaf v.
  Proof. intros (b & y & E & B) R v ->. rewrite (read_run r m "grad" w b y E) in R. apply (f_equal snd) in R. cbn [snd] in R. exact (bad_grad b y m k B v R). Qed.
  Lemma read_t_bad w r m k : spoiled_at w r m k -> raises (read_t r m "grad" w).
  Proof. intros S. apply raises_bind. intros w' x R. pose proof (read_bad w r m k w' x S R) as N. destruct x as [v|d]; [exfalso; exact (N v eq_refl)|]. exists w', AttributeError. reflexivity. Qed.
  Lemma bad_keys x m k : bad x m k -> forall ms, nd_keys x = Ok ms -> In m ms.
  Proof. intros (d & e & -> & D & _) ms [= <-]. apply dget_In_keys. eauto. Qed.
  Lemma kfac_loop_bad evn r m k ms : In m ms -> forall w d out, spoiled_at w r m k -> raises (kfac_loop_r evn r ms d out w).
  Proof.
    induction ms as [|m' ms IH]; [intros []|]. intros I w d out S. cbn [kfac_loop_r]. destruct (String.eqb_spec m' m) as [->|N].
    - apply raises_first. unfold kfac_module_r. apply raises_first. exact (read_t_bad w r m k S).
    - destruct I as [->|I]; [congruence|]. apply raises_bind. intros w1 pl E1. apply raises_bind. intros w2 o E2. apply (IH I). injection E2 as <- _.
      refine (keeps_run _ w w1 _ r m k _ E1 S). unfold kfac_module_r. apply keeps_bind; [apply keeps_read_t|]. intros g. do 3 (apply keeps_bind; [apply keeps_on|]; intros). apply keeps_on.
  Qed.
  Lemma raw_loop_bad r m k ms : In m ms -> forall w out, spoiled_at w r m k -> raises (raw_loop_r r ms out w).
  Proof.
    induction ms as [|m' ms IH]; [intros []|]. intros I w out S. cbn [raw_loop_r]. destruct (String.eqb_spec m' m) as [->|N].
    - apply raises_first. unfold raw_module_r. apply raises_first. exact (read_t_bad w r m k S).
    - destruct I as [->|I]; [congruence|]. apply raises_bind. intros w1 pl E1. apply raises_bind. intros w2 o E2. apply (IH I). injection E2 as <- _.
      refine (keeps_run _ w w1 _ r m k _ E1 S). unfold raw_module_r. apply keeps_bind; [apply keeps_read_t|]. intros g. apply keeps_bind; [apply keeps_on|]. intros. do 3 (apply keeps_bind; [apply keeps_lift|]; intros). apply keeps_ret.
  Qed.
  (** preconditioning raises, or returns the log itself *)
  Lemma precondition_bad ids r m k d h w w' g : spoiled_at w r m k -> precondition_r eigh inverse (ids, At r) d h w = (w', Ok g) -> g = (ids, At r).
  Proof.
    intros S E. unfold precondition_r in E. destruct (mem h _); [|discriminate]. cbn [fst snd] in E.
    apply sbind_ok in E. destruct E as (w1 & cs & E1 & E). pose proof (keeps_run _ _ _ _ r m k (keeps_on _) E1 S) as S1.
    apply sbind_ok in E. destruct E as (w2 & [b x] & E2 & E). pose proof (keeps_run _ _ _ _ r m k (keeps_logs r) E2 S1) as S2.
    apply sbind_ok in E. destruct E as (w3 & ms & E3 & E). injection E3 as <- E3. cbn [snd] in E3.
    assert (I : In m ms).
    { destruct S1 as (b1 & x1 & X1 & B1). unfold logs_at in E2. injection E2 as <- E2. rewrite X1 in E2. injection E2 as <- <-. exact (bad_keys x1 m k B1 ms E3). }
    apply sbind_ok in E. destruct E as (w3 & cms & E4 & E). injection E4 as <- _. destruct (forallb _ ms); [|injection E as _ <-; reflexivity].
    exfalso. apply sbind_ok in E. destruct E as (w3 & raw & E5 & E).
    assert (S3 : spoiled_at w3 r m k).
    { refine (keeps_run _ _ _ _ r m k _ E5 S2). destruct (String.eqb h "raw"); [apply keeps_ret|]. destruct (String.eqb h "auto"); [|apply keeps_ret]. destruct ms; [apply keeps_fail|]. apply keeps_bind; [apply keeps_on|intros; apply keeps_ret]. }
    apply sbind_ok in E. destruct E as (w4 & p & E6 & _).
    assert (R : raises ((if raw then precondition_raw_r inverse r d else precondition_kfac_r eigh r d) w3)); [|destruct R as (w5 & e & R); congruence].
    destruct raw.
    - unfold precondition_raw_r. apply raises_bind. intros w5 ci C. pose proof (keeps_run _ _ _ _ r m k (keeps_on _) C S3) as S5.
      apply raises_bind. intros w6 [b6 x6] C6. apply raises_bind. intros w7 ms' C7. injection C7 as <- C7. pose proof (keeps_run _ _ _ _ r m k (keeps_logs r) C6 S5) as S6.
      apply (raw_loop_bad r m k); [|exact S6]. destruct S5 as (b5 & x5 & X5 & B5). unfold logs_at in C6. injection C6 as <- C6. rewrite X5 in C6. injection C6 as <- <-. exact (bad_keys _ m k B5 _ C7).
    - unfold precondition_kfac_r. apply raises_bind. intros w5 ci C. pose proof (keeps_run _ _ _ _ r m k (keeps_on _) C S3) as S5.
      apply raises_bind. intros w8 st C8. pose proof (keeps_run _ _ _ _ r m k (keeps_on _) C8 S5) as S8.
      apply raises_bind. intros w6 [b6 x6] C6. apply raises_bind. intros w7 ms' C7. injection C7 as <- C7. pose proof (keeps_run _ _ _ _ r m k (keeps_logs r) C6 S8) as S6.
      apply (kfac_loop_bad _ r m k); [|exact S6]. destruct S8 as (b5 & x5 & X5 & B5). unfold logs_at in C6. injection C6 as <- C6. rewrite X5 in C6. injection C6 as <- <-. exact (bad_keys _ m k B5 _ C7).
  Qed.
  Lemma maybe_bad (prec : bool) ids r m k d h w w' g : spoiled_at w r m k -> (if prec then precondition_r eigh inverse (ids, At r) d h else sret (ids, At r)) w = (w', Ok g) -> g = (ids, At r).
  Proof. destruct prec; [apply precondition_bad|]. intros _ [= _ <-]. reflexivity. Qed.
  Lemma sync_bad a t m k w : spoiled_at w t m k -> raises (synchronize_device_r a t w).
  Proof.
    intros S. unfold synchronize_device_r. apply raises_bind. intros w1 [c x] E. unfold logs_at in E. injection E as <- E. pose proof S as (b & y & E1 & B). rewrite E1 in E. injection E as <- <-. cbn [snd].
    destruct (first_bad y m k B) as ([m0 k0] & ->). apply raises_bind. intros w2 d E2. pose proof (keeps_run _ _ _ _ t m k (keeps_read_t _ _ _) E2 S) as (b2 & y2 & E3 & B2).
    rewrite (sbind_run _ _ _ _ _ (logs_run t w2 _ E3)). cbn [fst snd]. destruct (move_bad (fst d) y2 m k B2) as (z & e & ->). eexists _, e. reflexivity.
  Qed.
  Lemma dot_bad groups a t m k ms : In m ms -> forall w d, spoiled_at w a m k -> raises (dot_loop_r groups a t ms d w).
  Proof.
    induction ms as [|m' ms IH]; [intros []|]. intros I w d S. cbn [dot_loop_r]. apply raises_bind. intros w1 x E1. apply raises_bind. intros w2 y E2.
    destruct (String.eqb_spec m' m) as [->|N].
    - pose proof (read_bad w a m k w1 x S E1) as Nx. destruct x as [v|]; [exfalso; exact (Nx v eq_refl)|]. eexists _, AttributeError. reflexivity.
    - destruct I as [->|I]; [congruence|]. pose proof (keeps_run _ _ _ _ a m k (keeps_read _ _ _) E1 S) as S1. pose proof (keeps_run _ _ _ _ a m k (keeps_read _ _ _) E2 S1) as S2.
      do 4 (apply raises_bind; intros ? ? [= <- _]). apply (IH I). exact S2.
  Qed.
  Lemma self_loop_bad groups a t m k ms : In m ms -> forall w d, spoiled_at w a m k -> raises (self_loop_r groups a t ms d w).
  Proof.
    induction ms as [|m' ms IH]; [intros []|]. intros I w d S. cbn [self_loop_r]. apply raises_bind. intros w1 x E1. apply raises_bind. intros w2 y E2.
    destruct (String.eqb_spec m' m) as [->|N].
    - pose proof (read_bad w a m k w1 x S E1) as Nx. destruct x as [v|]; [exfalso; exact (Nx v eq_refl)|]. eexists _, TypeError. reflexivity.
    - destruct I as [->|I]; [congruence|]. pose proof (keeps_run _ _ _ _ a m k (keeps_read _ _ _) E1 S) as S1. pose proof (keeps_run _ _ _ _ a m k (keeps_read _ _ _) E2 S1) as S2.
      do 4 (apply raises_bind; intros ? ? [= <- _]). apply (IH I). exact S2.
  Qed.
  Theorem self_raises ids r prec h groups d w : spoiled w r -> raises (compute_self_influence_r eigh inverse (ids, At r) prec h groups d w).
  Proof.
    intros S0. apply spoiled_iff in S0. destruct S0 as (m & k & S). unfold compute_self_influence_r. cbn [fst snd]. apply raises_bind. intros w1 g E1.
    pose proof (keeps_run _ _ _ _ r m k (keeps_maybe _ _ _ _) E1 S) as S1. rewrite (maybe_bad prec ids r m k d h w w1 g S E1). apply raises_bind. intros w2 t [= <- <-].
    apply raises_bind. intros w2 x E2. unfold logs_at in E2. injection E2 as <- E2. apply raises_bind. intros w3 ms E3. injection E3 as <- E3. apply raises_first. apply (self_loop_bad groups r r m k); [|exact S1].
    destruct S1 as (b & y & Ey & B). rewrite Ey in E2. injection E2 as <-. exact (bad_keys y m k B ms E3).
  Qed.
  Theorem influence_raises sids tids a t mode prec h groups d w : spoiled w a \/ spoiled w t -> raises (compute_influence_r eigh inverse fsqrt (sids, At a) (tids, At t) mode prec h groups d w).
  Proof.
    intros S0. unfold compute_influence_r. destruct (mem mode _); [|eexists _, AssertionError; reflexivity]. cbn [fst snd]. destruct S0 as [S0|S0]; apply spoiled_iff in S0; destruct S0 as (m & k & S).
    - apply raises_bind. intros w1 g E1. pose proof (keeps_run _ _ _ _ a m k (keeps_maybe _ _ _ _) E1 S) as S1. rewrite (maybe_bad prec sids a m k d h w w1 g S E1). cbn [snd]. apply raises_first.
      apply raises_bind. intros w2 x E2. pose proof (keeps_run _ _ _ _ a m k (keeps_logs t) E2 S1) as S2. apply raises_bind. intros w3 r0 [= <- <-]. apply raises_bind. intros w3 u E3. pose proof (keeps_run _ _ _ _ a m k (keeps_sync _ _) E3 S2) as S3.
      apply raises_bind. intros w4 y E4. unfold logs_at in E4. injection E4 as <- E4. apply raises_bind. intros w5 ms E5. injection E5 as <- E5. apply (dot_bad groups a t m k); [|exact S3].
      destruct S3 as (b & z & Ez & B). rewrite Ez in E4. injection E4 as <-. exact (bad_keys z m k B ms E5).
    - apply raises_bind. intros w1 g E1. pose proof (keeps_run _ _ _ _ t m k (keeps_maybe _ _ _ _) E1 S) as S1. apply raises_first.
      apply raises_bind. intros w2 x E2. pose proof (keeps_run _ _ _ _ t m k (keeps_logs t) E2 S1) as S2. apply raises_bind. intros w3 r0 E3. injection E3 as <- E3. apply raises_first. exact (sync_bad r0 t m k w2 S2).
  Qed.
  Theorem spoiled_calls cs w r : spoiled w r -> spoiled (run_calls eigh inverse fsqrt cs w) r.
  Proof. intros S. apply spoiled_iff in S. destruct S as (m & k & S). apply spoiled_iff. exists m, k. apply keeps_calls. exact S. Qed.
End ReadProofs5.
