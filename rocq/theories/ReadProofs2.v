(** Lemmas: the model with objects follows the first model on proper logs. *)
From Verif Require Import Py PyStr Field Tensor ModelGrad Monad ModelState ModelInfluence ModelReads SpecInfluence SpecReads.
From Verif Require Import StateProofs1 InfProofs1 InfProofs2 InfProofs16 ReadProofs1.
Local Open Scope nat_scope.

Section ReadProofs2.
  Context {F : Type} `{OField F}.
  Notation tensor := (tensor F).
  Notation sval := (@sval F).
  Notation lstate := (@lstate F).
  Notation dten := (@dten F).
  Notation world := (@world F).
  Notation logs := (list (bool * nd sval)).
  Notation tlog := (@tlog F).
  Variable eigh : tensor -> res (tensor * tensor).
  Variable inverse : tensor -> res tensor.
  Variable fsqrt : F -> F.
  Variable K : Prop.

  Lemma tr_with {A B} (R : lstate -> A -> world -> B -> Prop) (P : lstate -> A -> Prop) f g : tracks K R f g -> (forall s a, f = (s, Ok a) -> P s a) ->
    tracks K (fun s a w b => R s a w b /\ P s a) f g.
  Proof. unfold tracks. destruct f as [s [a|e]]; [|auto]. intros (w & b & E & HR) X. exists w, b. auto. Qed.

  Definition rest evn (g fwd bwd : dten) m (damping : option F) (ev y : nd sval) : SM lstate (dten * F) :=
      let! full := lift (match y with
                       | Leaf (VT t) => Ok (snd t)
                       | Node _ =>
                           if nd_has y "forward" && nd_has y "backward" then
                             let* f := (let* z := nd_item y "forward" in as_dten z) in
                             let* b := (let* z := nd_item y "backward" in as_dten z) in
                             outer b f
                           else Err AssertionError
                       | _ => Err TypeError
                       end) in
      let l := match damping with None => fmul tenth (tmean full) | Some x => x end in
      let full' := tmap (fun e => fadd e l) full in
      (match y with
       | Leaf (VT t) => if dev_eqb (fst t) (fst g) then let! ev' := lift (nd_set1 ev m (VT (fst t, full'))) in set_attr evn ev' else sret tt
       | _ => sret tt
       end) ;;
      let! rot := lift (sandwich (transpose (snd bwd)) (snd g) (snd fwd)) in
      let! prec := lift (div_each rot full') in
      let! out := lift (sandwich (snd bwd) prec (transpose (snd fwd))) in
      sret ((fst g, out), l).
  Lemma attr_run a (s : lstate) x : dget a (attrs s) = Some x -> attr a s = (s, Ok x).
  Proof. intros E. unfold attr. rewrite E. reflexivity. Qed.
  Lemma tr_kfac_rest (L : logs) evn g fwd bwd m d s : tracks K (same L)
    ((let! ev := attr evn in let! y := lift (nd_item ev m) in rest evn g fwd bwd m d ev y) s)
    ((let! y := on_st (item evn m) in on_st (kfac_rest evn g fwd bwd y m d)) (World s L)).
  Proof.
    destruct (dget evn (attrs s)) as [ev|] eqn:E.
    - rewrite (sbind_run _ _ _ _ _ (attr_run evn s ev E)). destruct ev as [v|dd].
      { eexists _, TypeError. split; [|auto]. unfold on_st, item, sbind. cbn [w_st w_logs]. rewrite (attr_run evn s _ E). cbn [getitem]. reflexivity. }
      destruct (dget m dd) as [y|] eqn:G.
      + assert (X : on_st (item evn m) (World s L) = (World s L, Ok y)).
        { unfold on_st, item, sbind. cbn [w_st w_logs]. rewrite (attr_run evn s _ E). cbn [getitem]. rewrite G. rewrite (attr_same evn _ s E). reflexivity. }
        rewrite (sbind_run _ _ _ _ _ X). cbn [nd_item]. rewrite G. unfold on_st at 1. cbn [w_st w_logs].
        assert (Y : kfac_rest evn g fwd bwd y m d s = rest evn g fwd bwd m d (Node dd) y s) by (unfold kfac_rest; rewrite (sbind_run _ _ _ _ _ (attr_run evn s _ E)); reflexivity).
        rewrite Y. unfold lift at 1, sbind at 1. unfold tracks. destruct (rest evn g fwd bwd m d (Node dd) y s) as [s1 [a|e]]; eexists; eexists; (split; [reflexivity|]); [split; reflexivity|auto].
      + cbn [nd_item]. rewrite G. unfold lift at 1. unfold sbind at 1. cbn [rest]. unfold rest, sbind at 1. cbn [lift nd_has dmem dget andb tracks].
        exists (World (with_attrs s (dset evn (Node (dset m (Node []) dd)) (attrs s))) L), AssertionError. split; [|auto].
        unfold on_st, item, sbind. cbn [w_st w_logs]. rewrite (attr_run evn s _ E). cbn [getitem]. rewrite G. unfold set_attr, lift. cbn [w_st w_logs].
        unfold kfac_rest, sbind. rewrite (attr_run evn _ (Node (dset m (Node []) dd))) by apply dget_dset_eq. reflexivity.
    - unfold on_st, item, sbind, attr. cbn [w_st w_logs]. rewrite E. cbn [tracks]. eexists _, AttributeError. split; [reflexivity|auto].
  Qed.
  Lemma tr_kfac_module (L : logs) evn ec r b x m d s : nth_error L r = Some (b, x) -> (b = false -> K) -> dget "covariance_eigvec_state" (attrs s) = Some ec ->
    tracks K (same L) (kfac_module evn ec x m d s) (kfac_module_r evn r m d (World s L)).
  Proof.
    intros E HK D. unfold kfac_module, kfac_module_r. eapply tr_bind; [apply (tr_read_t K L r b x m "grad" s E HK)|].
    intros s1 g w ? [= <- _] [-> ->]. eapply tr_bind; [apply (tr_item2_t K L _ ec m "forward" s D)|].
    intros s1 fwd w ? [= <- _] [-> ->]. eapply tr_bind; [apply (tr_item2_t K L _ ec m "backward" s D)|].
    intros s1 bwd w ? [= <- _] [-> ->]. exact (tr_kfac_rest L evn g fwd bwd m d s).
  Qed.
  (** the module's computation changes no attribute but the eigenvalues *)
  Lemma kfac_module_keeps evn ec x m d (s s' : lstate) v a : a <> evn -> kfac_module evn ec x m d s = (s', Ok v) -> dget a (attrs s') = dget a (attrs s).
  Proof.
    intros N E. unfold kfac_module in E. repeat (apply sbind_ok in E; destruct E as (? & ? & ?E & E)).
    repeat match goal with X : lift _ _ = (_, Ok _) |- _ => apply lift_ok in X; destruct X as [-> X] end.
    unfold attr, sret in *. repeat match goal with X : (_, _) = (_, Ok _) |- _ => injection X; clear X; intros end. subst.
    match goal with X : match ?y with Leaf _ => _ | Node _ => _ end _ = (_, Ok _) |- _ => rename X into Z end.
    match type of Z with match ?y with Leaf _ => _ | Node _ => _ end _ = _ => destruct y as [[t|?|?|?]|?] end; try (injection Z as <-; reflexivity).
    destruct (dev_eqb _ _); [|injection Z as <-; reflexivity]. apply sbind_ok in Z. destruct Z as (? & ? & Z1 & Z). apply lift_ok in Z1. destruct Z1 as [-> _].
    unfold set_attr in Z. injection Z as <- _. cbn [attrs with_attrs]. apply dget_dset_neq. exact N.
  Qed.
  Definition proper (x : nd sval) : Prop := exists P : tlog, x = log_nd P.
  Lemma tr_kfac_loop (L : logs) evn ec r b x : nth_error L r = Some (b, x) -> (b = false -> K) -> evn <> "covariance_eigvec_state"%string ->
    forall ms d out s, proper out -> dget "covariance_eigvec_state" (attrs s) = Some ec ->
    tracks K (fun s p w q => same L s p w q /\ proper p) (kfac_loop evn ec x ms d out s) (kfac_loop_r evn r ms d out (World s L)).
  Proof.
    intros E HK N. induction ms as [|m ms IH]; intros d out s P D; cbn [kfac_loop kfac_loop_r].
    - exists (World s L), out. repeat split. exact P.
    - eapply tr_bind; [apply (tr_kfac_module L evn ec r b x m d s E HK D)|]. intros s1 pl w ? X [-> ->].
      eapply tr_bind; [apply tr_lift|]. intros s2 out' w ? Y [-> ->]. apply lift_ok in Y. destruct Y as [-> Y].
      apply IH; [|rewrite (kfac_module_keeps evn ec x m d s s1 pl _ (not_eq_sym N) X); exact D].
      destruct P as [P ->]. rewrite lset_nd in Y. injection Y as <-. eexists. reflexivity.
  Qed.
  Lemma tr_precondition_kfac (L : logs) r b x d s : nth_error L r = Some (b, x) -> (b = false -> K) ->
    tracks K (fun s p w q => same L s p w q /\ proper p) (precondition_kfac eigh x d s) (precondition_kfac_r eigh r d (World s L)).
  Proof.
    intros E HK. unfold precondition_kfac, precondition_kfac_r. eapply tr_bind; [apply (tr_on K L (get_covariance_svd_state eigh) s)|].
    intros s1 vw w ? X [-> ->]. assert (D : dget "covariance_eigvec_state" (attrs s1) = Some (snd vw)).
    { unfold get_covariance_svd_state in X. repeat (apply sbind_ok in X; destruct X as (? & ? & ?E & X)). injection X as <- <-.
      cbn [snd]. unfold attr in *. repeat match goal with Y : (_, _) = (_, Ok _) |- _ => injection Y; clear Y; intros end. subst.
      match goal with Y : match dget "covariance_eigvec_state" _ with _ => _ end = _ |- _ => destruct (dget "covariance_eigvec_state" _); [injection Y as ->; reflexivity|discriminate] end. }
    eapply tr_bind; [apply (tr_on K L sget s1)|]. intros s2 st w ? Y [-> ->]. injection Y as <- <-.
    unfold logs_at. unfold sbind at 2. cbn [w_logs]. rewrite E. cbn [snd].
    eapply tr_bind; [apply tr_lift|]. intros s2 ms w ? Y [-> ->]. apply lift_ok in Y. destruct Y as [-> Y].
    apply (tr_kfac_loop L _ (snd vw) r b x E HK); [destruct (hasattr _ _); discriminate|exists []; reflexivity|exact D].
  Qed.
  Lemma tr_raw_loop (L : logs) ci r b x : nth_error L r = Some (b, x) -> (b = false -> K) ->
    forall ms out s, proper out -> dget "covariance_inverse_state" (attrs s) = Some ci ->
    tracks K (fun s p w q => same L s p w q /\ proper p) (lift (foldM (fun out m => let* p := raw_module ci x m in nd_set2 out m "grad" (VT p)) ms out) s) (raw_loop_r r ms out (World s L)).
  Proof.
    intros E HK. induction ms as [|m ms IH]; intros out s P D; cbn [foldM raw_loop_r].
    - exists (World s L), out. repeat split. exact P.
    - assert (Q : tracks K (same L) (lift (raw_module ci x m) s) (raw_module_r r m (World s L))).
      { assert (U : lift (raw_module ci x m) s = (let! g := lift (log_item x m "grad") in let! iv := lift (log_item ci m "grad") in
          let! g2 := lift (make_2d (snd g) None "grad") in let! p := lift (matmul g2 (snd iv)) in let! p := lift (reshape p (shape (snd g))) in sret (fst g, p)) s).
        { unfold lift, sbind, raw_module. destruct (log_item x m "grad") as [g|]; cbn [bind]; [|reflexivity]. destruct (log_item ci m "grad") as [iv|]; cbn [bind]; [|reflexivity].
          destruct (make_2d _ _ _) as [g2|]; cbn [bind]; [|reflexivity]. destruct (matmul g2 (snd iv)) as [p|]; cbn [bind]; [|reflexivity]. destruct (reshape p _); reflexivity. }
        rewrite U. unfold raw_module_r. eapply tr_bind; [apply (tr_read_t K L r b x m "grad" s E HK)|].
        intros s1 g w ? [= <- _] [-> ->]. eapply tr_bind; [apply (tr_item2_t K L _ ci m "grad" s D)|].
        intros s1 iv w ? [= <- _] [-> ->]. eapply tr_bind; [apply tr_lift|]. intros s1 g2 w ? [= <- _] [-> ->]. eapply tr_bind; [apply tr_lift|]. intros s1 p w ? [= <- _] [-> ->].
        eapply tr_bind; [apply tr_lift|]. intros s1 p' w ? [= <- _] [-> ->]. apply tr_ret. }
      destruct (raw_module ci x m) as [p|e]; cbn [bind].
      + cbn [lift tracks] in Q. destruct Q as (w & q & Q & -> & ->). rewrite (sbind_run _ _ _ _ _ Q).
        destruct (nd_set2 out m "grad" (VT p)) as [o|e] eqn:Y; cbn [bind].
        * change (lift (Ok o) (World s L)) with (World s L, @Ok (nd sval) o). apply IH; [|exact D]. destruct P as [P ->]. rewrite lset_nd in Y. injection Y as <-. eexists. reflexivity.
        * exists (World s L), e. auto.
      + destruct Q as (w & e' & Q & He). rewrite (sbind_err _ _ _ _ _ Q). exists w, e'. auto.
  Qed.
  Lemma tr_precondition_raw (L : logs) r b x d s : nth_error L r = Some (b, x) -> (b = false -> K) ->
    tracks K (fun s p w q => same L s p w q /\ proper p) (precondition_raw inverse x d s) (precondition_raw_r inverse r d (World s L)).
  Proof.
    intros E HK. unfold precondition_raw, precondition_raw_r. eapply tr_bind; [apply (tr_on K L (get_covariance_inverse_state inverse d) s)|].
    intros s1 ci w ? X [-> ->]. assert (D : dget "covariance_inverse_state" (attrs s1) = Some ci).
    { unfold get_covariance_inverse_state in X. repeat (apply sbind_ok in X; destruct X as (? & ? & ?E & X)). unfold attr in X.
      injection X as <- X. destruct (dget _ _); [injection X as <-; reflexivity|discriminate]. }
    unfold logs_at. unfold sbind at 2. cbn [w_logs]. rewrite E. cbn [snd].
    eapply tr_bind; [apply tr_lift|]. intros s2 ms w ? Y [-> ->]. apply lift_ok in Y. destruct Y as [-> Y].
    apply (tr_raw_loop L ci r b x E HK); [exists []; reflexivity|exact D].
  Qed.
End ReadProofs2.
