(** The order of the stored gradients: which dictionary the LogSaver reads it from. *)
From Coq Require Import ZArith Lia.
From Verif Require Import Py Field Tensor ModelGrad Monad ModelState ModelMmap ModelSaver ModelLogger SpecStore SpecLogger LogProofs1.
Local Open Scope string_scope.
Local Open Scope list_scope.
Local Open Scope nat_scope.

(** ---- the saver ---- *)
Definition metas_from (d d' : fs) : Prop := forall n es, dget n d' = Some (FMeta es) -> dget n d = Some (FMeta es).
Lemma metas_refl d : metas_from d d.
Proof. intros n es E. exact E. Qed.
Lemma metas_data d n bs : metas_from d (dset n (FData bs) d).
Proof. intros k es E. rewrite dget_dset in E. destruct (eqb k n); [discriminate E|exact E]. Qed.
Lemma buffer_write_path log ids : forall i s s' r, buffer_write_from log ids i s = (s', r) -> s_path s' = s_path s.
Proof.
  induction ids as [|d ids IH]; intros i s s' r E; cbn [buffer_write_from] in E; [injection E as <- _; reflexivity|].
  destruct (add_log log _ i) as [[b n] [ex|]]; [injection E as <- _; reflexivity|]. apply IH in E. exact E.
Qed.
Lemma write_none d f buf d' r : buf <> [] -> write d f buf [] = (d', r) -> metas_from d d' /\ r <> Ok tt.
Proof.
  intros N E. unfold write in E. destruct (Nat.eqb (total_size buf) 0); [injection E as <- <-; split; [apply metas_data|discriminate]|].
  destruct buf as [|[i x] buf]; [congruence|]. cbn [write_samples write_keys w_dt w_mm] in E. injection E as <- <-. split; [apply metas_data|discriminate].
Qed.
Lemma flush_serial_path d s d' s' r : flush_serialized d s = (d', s', r) -> s_path s' = s_path s /\ (s_path s = [] -> metas_from d d' /\ (s_buffer s <> [] -> r <> Ok tt)).
Proof.
  unfold flush_serialized. destruct (s_buffer s) as [|p b] eqn:B; [intros [= <- <- <-]; split; [reflexivity|]; intros _; split; [apply metas_refl|congruence]|]. rewrite <- B.
  destruct (write d _ (s_buffer s) (s_path s)) as [d1 [u|e]] eqn:W; intros [= <- <- <-]; (split; [reflexivity|]); intros P; rewrite P in W; apply write_none in W; try (rewrite B; discriminate); destruct W as (M & K); (split; [exact M|]); intros _; [destruct u; exact K|discriminate].
Qed.
Lemma save_log_path d s ids log d' s' r : save_log d s ids log = (d', s', r) -> s_path s' = s_path s /\ (s_path s = [] -> metas_from d d').
Proof.
  unfold save_log. destruct (buffer_write s ids log) as [s1 [u|e]] eqn:W; apply buffer_write_path in W; [|intros [= <- <- _]; split; [exact W|intros _; apply metas_refl]].
  unfold flush. destruct ((0 <? s_threshold s1)%Z && (s_threshold s1 <? Z.of_nat (s_size s1))%Z); [|intros [= <- <- _]; split; [exact W|intros _; apply metas_refl]].
  destruct (1 <? s_workers s1)%Z.
  - unfold flush_safe. intros [= <- <- _]. split; [exact W|]. intros _. unfold flush_unsafe. destruct (mapM unpack_key _); [apply metas_data|apply metas_refl].
  - intros E. apply flush_serial_path in E. destruct E as (P & K). rewrite <- W. split; [exact P|]. intros Z. apply K. exact Z.
Qed.

Section P.
  Context {F : Type} `{OField F}.
  Notation tensor := (tensor F).
  Notation lx := (@lx F).
  Context (kind : mid -> mkind) (wsize : mid -> nat) (eigh : tensor -> res (tensor * tensor)) (enc : @dten F -> array).
  Notation run_op := (run_op kind wsize eigh enc).
  Notation run_ops := (run_ops kind wsize eigh enc).

  (** ---- watch ---- *)
  Lemma watch_run ms (x x' : lx) : watch wsize ms x = (x', Ok tt) ->
    x_names x' = fold_left (fun d p => dset (snd p) (fst p) d) ms (x_names x) /\ x_shared x' = x_shared x /\ x_dir x' = x_dir x /\
    s_path (x_saver x') = (if x_shared x then grad_paths (map snd (x_names x')) else s_path (x_saver x)) /\
    exists d, dget "model_module" (attrs (x_state x')) = Some (Node d) /\
      dget "path" d = Some (Leaf (VPath (map (fun n => (n, "grad")) (map snd (x_names x'))))) /\ dget "path_dim" d = Some (Leaf (VDims (map wsize (map fst (x_names x'))))).
  Proof.
    unfold watch. rewrite (sbind_run _ _ _ _ _ (add_modules_run ms x)). set (y := with_mods x _ _). rewrite (sbind_run _ _ y y y) by reflexivity. cbv zeta.
    set (paths := map (fun p : mid * string => (snd p, "grad")) (x_names y)). set (dims := map (fun p : mid * string => wsize (fst p)) (x_names y)). destruct dims as [|d ds] eqn:Ed; [intros E; apply (f_equal snd) in E; change (@Err unit TypeError = Ok tt) in E; discriminate E|]. rewrite <- Ed. unfold sbind at 1.
    destruct ((set_state "model_module" "path" (VPath paths) ;; set_state "model_module" "path_dim" (VDims dims)) (x_state y)) as [s' [[]|e]] eqn:Es; [|intros E; apply (f_equal snd) in E; change (@Err unit e = Ok tt) in E; discriminate E].
    intros E. apply (f_equal fst) in E. change (fst (x', Ok tt)) with x' in E. change (x_shared (with_state y s')) with (x_shared x) in E.
    assert (K : x_names x' = x_names y /\ x_shared x' = x_shared x /\ x_dir x' = x_dir x /\ x_state x' = s' /\ s_path (x_saver x') = if x_shared x then map (fun p => [fst p; snd p]) paths else s_path (x_saver x)).
    { subst x'. cbn [fst]. destruct (x_shared x) eqn:Sh; repeat split; exact Sh. }
    destruct K as (K1 & K2 & K3 & K4 & K5). split; [exact K1|]. split; [exact K2|]. split; [exact K3|]. rewrite K1, K4, K5. split.
    - destruct (x_shared x); [|reflexivity]. unfold paths, grad_paths. rewrite !map_map. reflexivity.
    - apply sbind_ok in Es. destruct Es as (s1 & [] & E1 & E2).
      assert (G : forall k v (s s2 : @lstate F), set_state "model_module" k v s = (s2, Ok tt) -> exists d0 d1, dget "model_module" (attrs s) = Some (Node d0) /\ dget "model_module" (attrs s2) = Some (Node d1) /\ d1 = dset k (Leaf v) d0).
      { intros k v s s2 Q. unfold set_state, sbind at 1, sget in Q. destruct (mem "model_module" (st_states s)); [|discriminate Q]. apply sbind_ok in Q. destruct Q as (s3 & z & Q1 & Q). unfold attr in Q1. destruct (dget "model_module" (attrs s)) as [z'|] eqn:Ez; [|discriminate Q1]. injection Q1 as <- <-.
        apply sbind_ok in Q. destruct Q as (s4 & z2 & Q2 & Q). unfold lift in Q2. destruct (nd_set1 z' k v) as [z3|] eqn:E3; [|discriminate Q2]. injection Q2 as <- <-. injection Q as <-. unfold nd_set1 in E3. destruct z' as [|d0]; [discriminate E3|]. injection E3 as <-.
        exists d0. eexists. split; [reflexivity|]. cbn [with_attrs attrs]. rewrite dget_dset_eq. split; reflexivity. }
      destruct (G _ _ _ _ E1) as (d0 & d1 & _ & A1 & ->). destruct (G _ _ _ _ E2) as (d2 & d3 & A2 & A3 & ->). rewrite A1 in A2. injection A2 as <-. eexists. split; [exact A3|]. split.
      + rewrite dget_dset_neq by discriminate. rewrite dget_dset_eq. unfold paths. rewrite map_map. reflexivity.
      + rewrite dget_dset_eq, map_map. reflexivity.
  Qed.

  (** ---- what the operations do to the saver's order and to the metadata files ---- *)
  Definition eff (x x' : lx) : Prop := x_shared x' = x_shared x /\ s_path (x_saver x') = s_path (x_saver x) /\ (s_path (x_saver x) = [] -> metas_from (x_dir x) (x_dir x')).
  Lemma eff_same (x x' : lx) : x_shared x' = x_shared x -> x_saver x' = x_saver x -> x_dir x' = x_dir x -> eff x x'.
  Proof. intros E1 E2 E3. split; [exact E1|]. rewrite E2, E3. split; [reflexivity|intros _; apply metas_refl]. Qed.
  Lemma update_eff sv (x x' : lx) r : update eigh enc sv x = (x', r) -> eff x x'.
  Proof.
    rewrite update_eq. unfold sbind at 1. destruct (grad_stats eigh _ x) as [y o] eqn:E1. apply grad_stats_state in E1. destruct o as [u|e]; [|intros [= <- _]; rewrite E1; apply eff_same; reflexivity].
    destruct sv; [|intros [= <- _]; rewrite E1; apply eff_same; reflexivity]. unfold lx_save_log. destruct (x_ids y); [|intros [= <- _]; rewrite E1; apply eff_same; reflexivity].
    destruct (save_log _ _ _ _) as [[d' s'] o'] eqn:S. intros [= <- _]. apply save_log_path in S. destruct S as (P & K). rewrite E1 in P, K |- *. cbn [with_state with_store x_saver x_dir] in *. split; [reflexivity|]. split; [exact P|exact K].
  Qed.
  Lemma op_eff o (x : lx) : inv x -> (forall ms, o = XWatch ms -> x_shared x = false) -> o <> XLoad -> eff x (fst (run_op o x)).
  Proof.
    intros HI HW HL. destruct (run_op o x) as [x' r] eqn:E. cbn [fst]. destruct o; cbn [ModelLogger.run_op] in E; try congruence.
    - specialize (HW ms eq_refl). unfold watch in E. rewrite (sbind_run _ _ _ _ _ (add_modules_run ms x)) in E. set (y := with_mods x _ _) in *. rewrite (sbind_run _ _ y y y eq_refl) in E. cbv zeta in E.
      destruct (map (fun p : mid * string => wsize (fst p)) (x_names y)) as [|d ds].
      + assert (E' : y = x') by (exact (f_equal fst E)). subst x'. apply eff_same; reflexivity.
      + unfold sbind at 1 in E. destruct ((set_state _ _ _ ;; set_state _ _ _) (x_state y)) as [s' [u|e]]; [|injection E as <- _; apply eff_same; reflexivity].
        apply (f_equal fst) in E. change (fst (x', r)) with x' in E. change (x_shared (with_state y s')) with (x_shared x) in E. rewrite HW in E. cbn [fst] in E. subst x'. apply eff_same; reflexivity.
    - apply watch_activation_grows in E as (s & l & h & hs & ->). apply eff_same; reflexivity.
    - apply (f_equal fst) in E. cbn [fst] in E. subst x'. split; [reflexivity|]. split; [reflexivity|]. intros _. apply metas_refl.
    - rewrite lx_enter_run in E by exact HI. injection E as <- _. apply eff_same; reflexivity.
    - unfold lx_exit in E. erewrite sbind_run in E by reflexivity. apply update_eff in E. exact E.
    - rewrite lx_start_run in E by exact HI. apply (f_equal fst) in E. cbn [fst] in E. subst x'. split; [reflexivity|]. split; [reflexivity|]. intros _. apply metas_refl.
    - unfold lx_end in E. erewrite sbind_run in E by reflexivity. apply update_eff in E. exact E.
    - unfold lx_log, logger_log in E. rewrite (sbind_run _ _ _ _ _ (eq_refl (binfo_clear x))) in E. erewrite sbind_run in E by reflexivity. apply update_eff in E. exact E.
    - unfold lx_setup in E. destruct (opt_setup kw) as [[o1 kw1] r1]. injection E as <- _. apply eff_same; reflexivity.
    - injection E as <- _. apply eff_same; reflexivity.
    - injection E as <- _. apply eff_same; reflexivity.
    - unfold lx_clear in E. unfold sbind at 1 in E. destruct (state_clear (x_state x)) as [s [[]|e']]; [|injection E as <- _; apply eff_same; reflexivity].
      unfold logger_clear in E. rewrite (sbind_run _ _ _ _ _ (clear_hooks_run (with_state x s) HI)) in E. cbv [sbind] in E. apply (f_equal fst) in E. change (fst (x', r)) with x' in E. subst x'. split; [reflexivity|]. split; [reflexivity|]. intros _. apply metas_refl.
    - unfold lx_finalize in E. unfold sbind at 1 in E. destruct (finalize (x_disk x) (x_state x)) as [s' [dk|e]]; [|injection E as <- _; apply eff_same; reflexivity].
      cbn [with_store with_state x_dir] in E. destruct (saver_finalize (x_dir x) _) as [[d' sv] o1] eqn:S. injection E as <- _. apply flush_serial_path in S. destruct S as (P & K). split; [reflexivity|]. split; [exact P|]. intros Z. apply K. exact Z.
    - apply run_ev_grows in E as (c & s & l & h & hs & ->). apply eff_same; reflexivity.
  Qed.
  Lemma load_run (x x' : lx) r : lx_load x = (x', r) -> x_saver x' = x_saver x /\ x_dir x' = x_dir x /\ (x_shared x = false -> x_shared x' = false).
  Proof. unfold lx_load, lx_load_from. destruct (load_state (x_disk x) (x_state x)) as [s' r1]. intros [= <- _]. split; [reflexivity|]. split; [reflexivity|]. cbn. intros ->. reflexivity. Qed.
  Definition is_load (o : @op F) : bool := match o with XLoad => true | _ => false end.
  Lemma shared_kept os : forall x : lx, inv x -> Forall (fun o => o <> XLoad) os -> x_shared (run_ops os x) = x_shared x.
  Proof.
    induction os as [|o os IH]; intros x HI HF; [reflexivity|]. inversion HF as [|? ? H1 H2]; subst. unfold ModelLogger.run_ops. cbn [fold_left]. change (fold_left _ os ?y) with (run_ops os y). rewrite IH; [|apply run_op_inv; exact HI|exact H2].
    destruct o; try (apply op_eff; [exact HI|discriminate|exact H1]). cbn [ModelLogger.run_op]. destruct (watch wsize ms x) as [x' r] eqn:E. cbn [fst]. apply watch_watched in E. destruct E as (s & sv & ->). reflexivity.
  Qed.
  Lemma stale_ops os : forall x : lx, inv x -> x_shared x = false ->
    x_shared (run_ops os x) = false /\ s_path (x_saver (run_ops os x)) = s_path (x_saver x) /\ (s_path (x_saver x) = [] -> metas_from (x_dir x) (x_dir (run_ops os x))).
  Proof.
    induction os as [|o os IH]; intros x HI Sh; [split; [exact Sh|]; split; [reflexivity|]; intros _; apply metas_refl|].
    assert (K : x_shared (fst (run_op o x)) = false /\ s_path (x_saver (fst (run_op o x))) = s_path (x_saver x) /\ (s_path (x_saver x) = [] -> metas_from (x_dir x) (x_dir (fst (run_op o x))))).
    { destruct (is_load o) eqn:L.
      - destruct o; try discriminate L. cbn [ModelLogger.run_op]. destruct (lx_load x) as [x' r] eqn:E. apply load_run in E. destruct E as (E1 & E2 & E3). cbn [fst]. rewrite E1, E2. split; [apply E3, Sh|]. split; [reflexivity|]. intros _. apply metas_refl.
      - destruct (op_eff o x HI) as (A & B & C); [intros; exact Sh|intros ->; discriminate L|]. split; [congruence|]. split; [exact B|exact C]. }
    destruct K as (K1 & K2 & K3). destruct (IH (fst (run_op o x)) (run_op_inv _ _ _ _ _ _ HI) K1) as (A & B & C). change (run_ops (o :: os) x) with (run_ops os (fst (run_op o x))). split; [exact A|]. split; [congruence|].
    intros Z n es E. apply K3; [exact Z|]. apply C; [congruence|exact E].
  Qed.
  Lemma load_unshares (x x' : lx) sy sv no : d_others (x_disk x) = Some (sy, sv, no) -> In "model_module" sv -> lx_load x = (x', Ok tt) -> x_shared x' = false.
  Proof.
    intros O I0 E. unfold lx_load, lx_load_from in E. destruct (load_state (x_disk x) (x_state x)) as [s' r] eqn:L. injection E as <- ->. cbn [with_shared x_shared]. unfold replaced. rewrite O. unfold load_state in L. rewrite O in L.
    apply sbind_ok in L. destruct L as (s1 & [] & _ & L). assert (M : mem "model_module" (take_while (fun a => dmem a (d_states (x_disk x))) sv) = true).
    { clear O. revert s1 L. induction sv as [|a sv IH]; intros s1 L; [destruct I0|]. cbn [seach] in L. apply sbind_ok in L. destruct L as (s2 & [] & L1 & L2). cbn [take_while]. unfold dmem. destruct (dget a (d_states (x_disk x))) as [v|]; [|discriminate L1].
      destruct (string_dec a "model_module") as [->|Ne]; [reflexivity|]. destruct I0 as [->|I0]; [congruence|]. unfold mem. cbn [existsb]. apply Bool.orb_true_iff. right. exact (IH I0 s2 L2). }
    rewrite M. apply Bool.andb_false_r.
  Qed.
End P.
