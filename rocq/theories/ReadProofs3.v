(** Lemmas: preconditioning, synchronisation and scores in the model with objects. *)
From Verif Require Import Py PyStr Field Tensor ModelGrad Monad ModelState ModelInfluence ModelReads SpecInfluence SpecReads.
From Verif Require Import StateProofs1 InfProofs1 InfProofs2 InfProofs16 ReadProofs1 ReadProofs2.
Local Open Scope nat_scope.

Section ReadProofs3.
  Context {F : Type} `{OField F}.
  Notation tensor := (tensor F).
  Notation sval := (@sval F).
  Notation lstate := (@lstate F).
  Notation dten := (@dten F).
  Notation world := (@world F).
  Notation logs := (list (bool * nd sval)).
  Notation tlog := (@tlog F).
  Variable eigh : tensor -> res (tensor * tensor).
  Variable inverse : tensor -> res tensor.
  Variable fsqrt : F -> F.
  Variable K : Prop.

  (** [L'] has the logs of [L], and possibly more *)
  Definition grows (L L' : logs) : Prop := forall r v, nth_error L r = Some v -> nth_error L' r = Some v.
  Lemma grows_refl L : grows L L.
  Proof. intros r v E. exact E. Qed.
  Lemma grows_app L l : grows L (L ++ l).
  Proof. intros r v E. rewrite nth_error_app1; [exact E|]. apply nth_error_Some. congruence. Qed.
  Lemma grows_trans L1 L2 L3 : grows L1 L2 -> grows L2 L3 -> grows L1 L3.
  Proof. intros A B r v E. apply B, A, E. Qed.

  Lemma logs_run r (w : world) x : nth_error (w_logs w) r = Some x -> logs_at r w = (w, Ok x).
  Proof. intros E. unfold logs_at. rewrite E. reflexivity. Qed.
  (** some module of the log has no covariance *)
  Definition uncovered (s : lstate) (x : nd sval) : Prop :=
    exists cs ms cms, dget "covariance_state" (attrs s) = Some cs /\ nd_keys x = Ok ms /\ nd_keys cs = Ok cms /\ forallb (fun m => mem m cms) ms = false.
  (** the preconditioned log: the log itself, or a new dictionary *)
  Definition prec_out (L : logs) (ids : list string) (r : nat) (x : nd sval) (s0 s : lstate) (g : @glog F) (w : world) (rl : @rlog F) : Prop :=
    (w = World s L /\ g = (ids, Nest x) /\ rl = (ids, At r) /\ uncovered s0 x) \/
    (exists P : tlog, w = World s (L ++ [(true, log_nd P)]) /\ g = (ids, Nest (log_nd P)) /\ rl = (ids, At (length L))).
  Lemma item_present (L : logs) a m d y s : dget a (attrs s) = Some (Node d) -> dget m d = Some y -> on_st (item a m) (World s L) = (World s L, Ok y).
  Proof. intros E G. unfold on_st, item, sbind. cbn [w_st w_logs]. rewrite (attr_run a s _ E). cbn [getitem]. rewrite G. rewrite (attr_same a _ s E). reflexivity. Qed.
  Lemma tr_precondition (L : logs) ids r b x d h s : nth_error L r = Some (b, x) -> (b = false -> K) ->
    tracks K (prec_out L ids r x s) (precondition eigh inverse (ids, Nest x) d h s) (precondition_r eigh inverse (ids, At r) d h (World s L)).
  Proof.
    intros E HK. unfold precondition, precondition_r. cbn [fst snd]. destruct (mem h _); [|apply tr_fail].
    eapply tr_bind; [apply (tr_on K L (attr "covariance_state") s)|]. intros s1 cs w ? X [-> ->].
    assert (D : dget "covariance_state" (attrs s1) = Some cs) by (unfold attr in X; injection X as <- X; destruct (dget _ _); [injection X as ->; reflexivity|discriminate]).
    rewrite (sbind_run _ _ _ _ _ (logs_run r (World s1 L) _ E)). cbn [snd].
    eapply tr_bind; [apply tr_lift|]. intros s2 ms w ? Y [-> ->]. apply lift_ok in Y. destruct Y as [-> Y].
    eapply tr_bind; [apply tr_lift|]. intros s2 cms w ? Z [-> ->]. apply lift_ok in Z. destruct Z as [-> Z].
    destruct (forallb _ ms) eqn:A.
    2: { exists (World s1 L), (ids, At r). split; [reflexivity|]. left. repeat (split; [reflexivity|]). exists cs, ms, cms. unfold attr in X. injection X as -> _. auto. }
    eapply (tr_bind K (same L)).
    { destruct (String.eqb h "raw"); [apply tr_ret|]. destruct (String.eqb h "auto"); [|apply tr_ret]. destruct ms as [|m ms]; [apply tr_fail|].
      cbn [forallb] in A. apply andb_prop in A. destruct A as [A _]. apply mem_In in A. destruct cs as [|cd]; [discriminate|]. injection Z as <-.
      apply dget_In_keys in A. destruct A as (y & A). cbn [nd_item]. rewrite A. rewrite (sbind_run _ _ _ _ _ (item_present L _ m cd y s1 D A)).
      apply tr_ret. }
    intros s2 raw w ? _ [-> ->].
    eapply (tr_bind K (fun s p w q => same L s p w q /\ proper p)).
    { destruct raw; [apply (tr_precondition_raw inverse K L r b x d s2 E HK)|apply (tr_precondition_kfac eigh K L r b x d s2 E HK)]. }
    intros s3 p w ? _ [[-> ->] [P ->]]. eexists _, _. split; [reflexivity|]. right. exists P. auto.
  Qed.

  Lemma mapM_cons {A B} (f : A -> res B) a l : mapM f (a :: l) = let* b := f a in let* r := mapM f l in Ok (b :: r).
  Proof. reflexivity. Qed.
  Lemma tr_flat (L : logs) r b x path s : nth_error L r = Some (b, x) -> (b = false -> K) ->
    tracks K (same L) (lift (flatten_log x path) s) (flatten_log_r r path (World s L)).
  Proof.
    intros E HK. unfold flatten_log, flatten_log_r.
    assert (Q : tracks K (same L) (lift (mapM (fun p => let* d := log_item x (fst p) (snd p) in let* n := size0 (snd d) in let* r := reshape_infer (snd d) [n] [] in Ok (fst d, r)) path) s)
      (flat_parts r path (World s L))).
    { induction path as [|[m t] path IH]; [apply tr_ret|]. cbn [mapM flat_parts fst snd].
      pose proof (tr_read_t K L r b x m t s E HK) as R. destruct (log_item x m t) as [d|e]; cbn [bind].
      2: { destruct R as (w & e' & R & He). rewrite (sbind_err _ _ _ _ _ R). exists w, e'. auto. }
      destruct R as (w & ? & R & -> & ->). rewrite (sbind_run _ _ _ _ _ R).
      destruct (size0 (snd d)) as [n|e]; cbn [bind]; [|exists (World s L), e; auto].
      unfold lift at 2. unfold sbind at 1. destruct (reshape_infer (snd d) [n] []) as [q|e]; cbn [bind]; [|exists (World s L), e; auto].
      unfold lift at 2. unfold sbind at 1. destruct (mapM _ path) as [ps|e]; cbn [bind].
      - destruct IH as (w & ? & IH & -> & ->). rewrite (sbind_run _ _ _ _ _ IH). apply tr_ret.
      - destruct IH as (w & e' & IH & He). rewrite (sbind_err _ _ _ _ _ IH). exists w, e'. auto. }
    destruct (mapM _ path) as [ps|e]; cbn [bind].
    - destruct Q as (w & ? & Q & -> & ->). rewrite (sbind_run _ _ _ _ _ Q). apply tr_lift.
    - destruct Q as (w & e' & Q & He). rewrite (sbind_err _ _ _ _ _ Q). exists w, e'. auto.
  Qed.

  Lemma move_log_ok dv (B : tlog) : move_log dv (log_nd B) = (log_nd (moved dv B), Ok tt).
  Proof.
    unfold move_log, log_nd, moved. rewrite map_map. cbn [fst snd].
    assert (Y : forall e : dict string dten, move_entries dv (map (fun q => (fst q, Leaf (VT (snd q)))) e) = (map (fun q => (fst q, Leaf (VT (snd q)))) (map (fun q => (fst q, (dv, snd (snd q)))) e), Ok tt)).
    { induction e as [|[k d] e IH]; [reflexivity|]. cbn [map move_entries fst snd as_dten]. rewrite IH. reflexivity. }
    induction B as [|[m e] B IH]; [reflexivity|]. cbn [map move_modules fst snd]. rewrite Y. destruct (move_modules dv _) as [d o] eqn:Z. injection IH as -> ->. reflexivity.
  Qed.
  Lemma moved_none dv (B : tlog) : log_keys B = [] -> moved dv B = B.
  Proof.
    induction B as [|[m e] B IH]; [reflexivity|]. unfold log_keys. cbn [map concat fst snd]. intros E. apply app_eq_nil in E. destruct E as [E1 E2].
    cbn [moved map fst snd]. apply map_eq_nil in E1. subst e. cbn [map]. f_equal. apply IH. exact E2.
  Qed.
  (** the device that [synchronize_device] moves the target [B] to *)
  Definition dev_from (dv : dev) (A B : tlog) : Prop := match log_keys B with (m, t) :: _ => option_map fst (look A m t) = Some dv | [] => True end.
  Lemma tr_sync (L : logs) a b c (A B : tlog) t s : nth_error L a = Some (b, log_nd A) -> (b = false -> K) -> nth_error L t = Some (c, log_nd B) ->
    tracks K (fun s z w _ => exists dv, dev_from dv A B /\ z = log_nd (moved dv B) /\ w = World s (upd L t (c, log_nd (moved dv B))))
      (lift (synchronize_device (log_nd A) (log_nd B)) s) (synchronize_device_r a t (World s L)).
  Proof.
    intros EA HK EB. unfold synchronize_device, synchronize_device_r. rewrite (sbind_run _ _ _ _ _ (logs_run t (World s L) _ EB)). cbn [snd]. rewrite first_item_keys.
    unfold dev_from. destruct (log_keys B) as [|[m k] l] eqn:Q; cbn [hd_error].
    - exists (World s L), tt. split; [reflexivity|]. exists Cpu. rewrite (moved_none Cpu B Q). rewrite (upd_same _ _ _ EB). auto.
    - pose proof (tr_read_t K L a b (log_nd A) m k s EA HK) as R. rewrite log_item_look in *. destruct (look A m k) as [d|]; cbn [bind].
      2: { destruct R as (w & e' & R & He). rewrite (sbind_err _ _ _ _ _ R). exists w, e'. auto. }
      destruct R as (w & ? & R & -> & ->). rewrite (sbind_run _ _ _ _ _ R). rewrite (sbind_run _ _ _ _ _ (logs_run t (World s L) _ EB)). cbn [fst snd].
      rewrite move_log_ok, move_to_moved. eexists _, tt. split; [reflexivity|]. exists (fst d). auto.
  Qed.

  (** what the read of a proper log can do *)
  Lemma read_cases r b (X : tlog) m t (w : world) : nth_error (w_logs w) r = Some (b, log_nd X) -> (b = false -> K) ->
    (exists d, look X m t = Some d /\ read r m t w = (w, Ok (Leaf (VT d)))) \/
    (look X m t = None /\ exists w', (forall r', r' <> r -> nth_error (w_logs w') r' = nth_error (w_logs w) r') /\
       ((read r m t w = (w', Ok (Node [])) /\ b = true /\ exists x', nth_error (w_logs w') r = Some (true, x') /\ item_of x' m t = Ok (Node [])) \/
        (K /\ read r m t w = (w', Err KeyError)))).
  Proof.
    intros E HK. pose proof (item_of_look X m t) as I. destruct (look X m t) as [d|] eqn:Q.
    - left. exists d. split; [reflexivity|]. exact (read_hit r m t w b _ _ E I).
    - right. split; [reflexivity|]. rewrite (read_run r m t w b _ E). exists (World (w_st w) (upd (w_logs w) r (b, fst (getitem2 b (log_nd X) m t)))). split; [intros r' N; cbn [w_logs]; exact (nth_error_upd_other _ _ _ _ _ E N)|].
      destruct b.
      + left. rewrite getitem2_val, I. split; [reflexivity|]. split; [reflexivity|]. eexists. split; [cbn [w_logs]; exact (nth_error_upd_same _ _ _ _ E)|].
        unfold getitem2, log_nd, getitem. rewrite (dget_map (fun e : dict string dten => Node (map (fun q => (fst q, Leaf (VT (snd q)))) e))). unfold look in Q.
        destruct (dget m X) as [e|] eqn:G; cbn [option_map].
        * rewrite (dget_map (fun d : dten => Leaf (VT d))), Q. cbn [option_map fst]. unfold item_of. cbn [nd_item]. rewrite dget_dset_eq. cbn [bind nd_item]. rewrite dget_dset_eq. reflexivity.
        * cbn [dget fst]. unfold item_of. cbn [nd_item]. rewrite dget_dset_eq. cbn [bind nd_item]. rewrite dget_dset_eq. reflexivity.
      + right. split; [auto|]. destruct (getitem2_plain (log_nd X) m t) as [Z|Z]; [rewrite I; discriminate| |rewrite Z; reflexivity].
        exfalso. rewrite I in Z. revert Z. unfold getitem2, log_nd, getitem. rewrite (dget_map (fun e : dict string dten => Node (map (fun q => (fst q, Leaf (VT (snd q)))) e))). unfold look in Q.
        destruct (dget m X) as [e|] eqn:G; cbn [option_map]; [|discriminate]. rewrite (dget_map (fun d : dten => Leaf (VT d))), Q. discriminate.
  Qed.
  (** two reads of the same entry, of two logs or of one *)
  Lemma two_reads {A} a b c t (X Y : tlog) m k (w : world) (h : nd sval -> nd sval -> SM world A) :
    nth_error (w_logs w) a = Some (b, log_nd X) -> (b = false -> K) -> nth_error (w_logs w) t = Some (c, log_nd Y) -> (c = false -> K) ->
    (exists d e, look X m k = Some d /\ look Y m k = Some e /\ (let! x := read a m k in let! y := read t m k in h x y) w = h (Leaf (VT d)) (Leaf (VT e)) w) \/
    ((look X m k = None \/ look Y m k = None) /\
     ((K /\ exists w', (let! x := read a m k in let! y := read t m k in h x y) w = (w', Err KeyError)) \/
      (exists w' x y, (x = Node [] \/ y = Node []) /\ (x = Node [] \/ exists d, x = Leaf (VT d) /\ look X m k = Some d) /\ (let! x := read a m k in let! y := read t m k in h x y) w = h x y w'))).
  Proof.
    intros EA Ha EB Hb. destruct (read_cases a b X m k w EA Ha) as [(d & Q & R)|(Q & w1 & O & [(R & -> & x' & N & I)|(k0 & R)])].
    - rewrite (sbind_run _ _ _ _ _ R). destruct (read_cases t c Y m k w EB Hb) as [(e & Q2 & R2)|(Q2 & w1 & O & [(R2 & _)|(k0 & R2)])].
      + left. exists d, e. rewrite (sbind_run _ _ _ _ _ R2). auto.
      + right. split; [auto|]. right. exists w1, (Leaf (VT d)), (Node []). rewrite (sbind_run _ _ _ _ _ R2). split; [auto|]. split; [eauto|reflexivity].
      + right. split; [auto|]. left. split; [exact k0|]. exists w1. apply sbind_err. exact R2.
    - right. split; [auto|]. rewrite (sbind_run _ _ _ _ _ R). destruct (Nat.eq_dec t a) as [->|N1].
      + right. exists (fst (read a m k w1)), (Node []), (Node []). split; [auto|]. split; [auto|]. assert (Z : read a m k w1 = (fst (read a m k w1), Ok (Node []))).
        { rewrite (read_run a m k w1 true x' N). rewrite getitem2_val, I. reflexivity. }
        exact (sbind_run _ _ _ _ _ Z).
      + rewrite <- (O t N1) in EB. destruct (read_cases t c Y m k w1 EB Hb) as [(e & Q2 & R2)|(Q2 & w2 & O2 & [(R2 & _)|(k0 & R2)])].
        * right. exists w1, (Node []), (Leaf (VT e)). rewrite (sbind_run _ _ _ _ _ R2). auto.
        * right. exists w2, (Node []), (Node []). rewrite (sbind_run _ _ _ _ _ R2). auto.
        * left. split; [exact k0|]. exists w2. apply sbind_err. exact R2.
    - right. split; [auto|]. left. split; [exact k0|]. exists w1. apply sbind_err. exact R.
  Qed.
  Lemma tr_dot_loop (L : logs) groups a b (X : tlog) t c (Y : tlog) : nth_error L a = Some (b, log_nd X) -> (b = false -> K) -> nth_error L t = Some (c, log_nd Y) -> (c = false -> K) ->
    forall ms d s, tracks K (same L)
      (lift (foldM (fun d m => let* a := log_item (log_nd X) m "grad" in let* b := log_item (log_nd Y) m "grad" in let* x := cross_dot_product a b in add_module groups m x d) ms d) s)
      (dot_loop_r groups a t ms d (World s L)).
  Proof.
    intros EA Ha EB Hb. induction ms as [|m ms IH]; intros d s; cbn [foldM dot_loop_r]; [apply tr_ret|]. rewrite !log_item_look.
    match goal with |- tracks _ _ _ (sbind (read a m "grad") (fun x => sbind (read t m "grad") (@?h x)) _) =>
      destruct (two_reads a b c t X Y m "grad" (World s L) h EA Ha EB Hb) as [(u & v & Q1 & Q2 & ->)|(Q & [(k0 & w' & ->)|(w' & x & y & Q3 & Q4 & ->)])] end.
    - rewrite Q1, Q2. cbn [bind as_dten]. unfold lift at 2 3. unfold sbind at 1 2. destruct (cross_dot_product u v) as [z|e]; cbn [bind]; [|exists (World s L), e; auto].
      unfold lift at 2. unfold sbind at 1. destruct (add_module groups m z d) as [d'|e]; cbn [bind]; [|exists (World s L), e; auto].
      unfold lift at 2. unfold sbind at 1. apply IH.
    - assert (Z : (let* a := match look X m "grad" with Some d => Ok d | None => Err AttributeError end in let* b := match look Y m "grad" with Some d => Ok d | None => Err AttributeError end in let* x := cross_dot_product a b in add_module groups m x d) = Err AttributeError).
      { destruct (look X m "grad"); cbn [bind]; [|reflexivity]. destruct Q as [Q|Q]; [discriminate|]. rewrite Q. reflexivity. }
      rewrite Z. cbn [bind lift tracks]. exists w', KeyError. auto.
    - assert (Z : (let* a := match look X m "grad" with Some d => Ok d | None => Err AttributeError end in let* b := match look Y m "grad" with Some d => Ok d | None => Err AttributeError end in let* x := cross_dot_product a b in add_module groups m x d) = Err AttributeError).
      { destruct (look X m "grad"); cbn [bind]; [|reflexivity]. destruct Q as [Q|Q]; [discriminate|]. rewrite Q. reflexivity. }
      rewrite Z. cbn [bind lift tracks]. exists w', AttributeError. split; [|auto]. destruct Q4 as [->|(u & -> & _)]; [reflexivity|]. destruct Q3 as [Q3| ->]; [discriminate|]. reflexivity.
  Qed.
  Lemma tr_self_loop (L : logs) groups a b (X : tlog) t c (Y : tlog) : nth_error L a = Some (b, log_nd X) -> (b = false -> K) -> nth_error L t = Some (c, log_nd Y) -> (c = false -> K) ->
    forall ms d s, tracks K (same L)
      (lift (foldM (fun d m => let* x := self_module (log_nd X) (log_nd Y) m in add_module groups m x d) ms d) s)
      (self_loop_r groups a t ms d (World s L)).
  Proof.
    intros EA Ha EB Hb. induction ms as [|m ms IH]; intros d s; cbn [foldM self_loop_r]; [apply tr_ret|].
    assert (U : self_module (log_nd X) (log_nd Y) m = let* a := match look X m "grad" with Some d => Ok d | None => Err TypeError end in let* b := match look Y m "grad" with Some d => Ok d | None => Err TypeError end in multiply a b).
    { unfold self_module. rewrite !factor_look. reflexivity. }
    rewrite U. match goal with |- tracks _ _ _ (sbind (read a m "grad") (fun x => sbind (read t m "grad") (@?h x)) _) =>
      destruct (two_reads a b c t X Y m "grad" (World s L) h EA Ha EB Hb) as [(u & v & Q1 & Q2 & ->)|(Q & [(k0 & w' & ->)|(w' & x & y & Q3 & Q4 & ->)])] end.
    - rewrite Q1, Q2. cbn [bind as_factor]. unfold lift at 2 3. unfold sbind at 1 2. destruct (multiply u v) as [z|e]; cbn [bind]; [|exists (World s L), e; auto].
      unfold lift at 2. unfold sbind at 1. destruct (add_module groups m z d) as [d'|e]; cbn [bind]; [|exists (World s L), e; auto].
      unfold lift at 2. unfold sbind at 1. apply IH.
    - assert (Z : (let* a := match look X m "grad" with Some d => Ok d | None => Err TypeError end in let* b := match look Y m "grad" with Some d => Ok d | None => Err TypeError end in multiply a b) = Err TypeError).
      { destruct (look X m "grad"); cbn [bind]; [|reflexivity]. destruct Q as [Q|Q]; [discriminate|]. rewrite Q. reflexivity. }
      rewrite Z. cbn [bind lift tracks]. exists w', KeyError. auto.
    - assert (Z : (let* a := match look X m "grad" with Some d => Ok d | None => Err TypeError end in let* b := match look Y m "grad" with Some d => Ok d | None => Err TypeError end in multiply a b) = Err TypeError).
      { destruct (look X m "grad"); cbn [bind]; [|reflexivity]. destruct Q as [Q|Q]; [discriminate|]. rewrite Q. reflexivity. }
      rewrite Z. cbn [bind lift tracks]. exists w', TypeError. split; [|auto]. destruct Q4 as [->|(u & -> & _)]; [reflexivity|]. destruct Q3 as [Q3| ->]; [discriminate|]. reflexivity.
  Qed.
End ReadProofs3.
