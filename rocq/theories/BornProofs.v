(** A newly created Hugging Face trainer around a new LogIX object is one for which the results about whole runs hold. *)
From Coq Require Import ZArith.
From Verif Require Import Py PyStr Field Tensor ModelGrad Monad ModelState ModelMmap ModelSaver ModelLoader ModelLogger ModelModules ModelLora ModelScheduler ModelInfluence ModelUtils ModelTrainer SpecLora SpecWatch SpecScheduler SpecState SpecStore SpecLogger SpecNew SpecWhole
  StateProofs6 LogProofs1 LogProofs9 SchedProofs SchedProofs2 WatchProofs3 LoraProofs2 LoraProofs5 LoraProofs7 LoraProofs8 LoraProofs9 LoraProofs11 LoraProofs16 LoraProofs17 LoraProofs18 LoraProofs19 NewProofs.
Local Open Scope string_scope.
Local Open Scope list_scope.
Local Open Scope nat_scope.

Section P.
  Context {F : Type} `{OField F}.
  Notation lm := (@lm F).
  Notation lx := (@lx F).
  Notation lstate := (@lstate F).
  Notation tr := (@tr F).
  Context (rnd : mid -> list nat -> F) (svd : tensor F -> res (tensor F)) (kind : mid -> mkind) (eigh : tensor F -> res (tensor F * tensor F)) (enc : @dten F -> array).
  Notation reachable w := (reachable kind w eigh enc).

  (** the LogSaver *)
  Definition saver_of (w t : Z) (names : dict mid string) : saver := saver_init 0 w t (grad_paths (map snd names)).
  Lemma paths_names (ns : dict mid string) : map (fun p => [fst p; snd p]) (map (fun p : mid * string => (snd p, "grad")) ns) = grad_paths (map snd ns).
  Proof. unfold grad_paths. rewrite !map_map. reflexivity. Qed.
  (** what a successful watch leaves *)
  Lemma watch_parts wsize ms (x x' : lx) : watch wsize ms x = (x', Ok tt) ->
    x_names x' <> [] /\ x_dir x' = x_dir x /\ x_shared x' = x_shared x /\
    (x_shared x = true -> forall w t ps, x_saver x = saver_init 0 w t ps -> x_saver x' = saver_of w t (x_names x')).
  Proof.
    intros E. unfold watch in E. rewrite (sbind_run _ _ _ _ _ (add_modules_run ms x)) in E. set (y := with_mods x _ _) in *. rewrite (sbind_run _ _ y y y) in E by reflexivity. cbv zeta in E.
    destruct (map (fun p : mid * string => wsize (fst p)) (x_names y)) as [|d ds] eqn:Ed; [discriminate E|]. apply sbind_ok in E as (z & [] & E1 & E2).
    match type of E1 with (let (_, _) := ?m (x_state y) in _) = _ => destruct (m (x_state y)) as [s' o] end. injection E1 as <- ->.
    assert (N : x_names y <> []) by (intros X; rewrite X in Ed; discriminate Ed).
    cbn [x_shared with_state] in E2. change (x_shared y) with (x_shared x) in E2. destruct (x_shared x) eqn:Es; injection E2 as <-.
    - split; [exact N|]. split; [reflexivity|]. split; [exact Es|]. intros _ w t ps Ev. cbn [x_saver with_store x_names with_state]. change (x_saver y) with (x_saver x). rewrite Ev, paths_names. reflexivity.
    - split; [exact N|]. split; [reflexivity|]. split; [exact Es|]. discriminate.
  Qed.
  Lemma dset_keys_sub (l : list (string * mid)) : forall d : dict mid string, forall m, In m (dkeys (fold_left (fun d p => dset (snd p) (fst p) d) l d)) -> In m (dkeys d) \/ In m (map snd l).
  Proof.
    induction l as [|[n k] l IH]; intros d m I; [left; exact I|]. cbn [fold_left map fst snd] in *. apply IH in I as [I|I]; [|right; right; exact I].
    destruct (Nat.eq_dec m k) as [->|N]; [right; left; reflexivity|]. left. apply dget_In_keys in I as (v & I). rewrite dget_dset_neq in I by exact N. apply dget_In_keys. eauto.
  Qed.
  (** only the sizes of the modules that are watched matter *)
  Lemma watch_ext w1 w2 ms (x : lx) : x_names x = [] -> (forall m, In m (map snd ms) -> w1 m = w2 m) -> watch w1 ms x = watch w2 ms x.
  Proof.
    intros N E. unfold watch. rewrite !(sbind_run _ _ _ _ _ (add_modules_run ms x)). set (y := with_mods x _ _). rewrite !(sbind_run _ _ y y y) by reflexivity. cbv zeta.
    replace (map (fun p : mid * string => w1 (fst p)) (x_names y)) with (map (fun p : mid * string => w2 (fst p)) (x_names y)); [reflexivity|].
    apply map_ext_in. intros [m n] I. symmetry. apply E. cbn [fst]. assert (K : In m (dkeys (x_names y))) by (apply in_map_iff; exists (m, n); auto).
    cbn [y x_names with_mods] in K. rewrite N in K. apply dset_keys_sub in K as [[]|K]. exact K.
  Qed.
  Lemma lm_watch_x root tf nf (s s' : lm) o : lm_watch root tf nf s = (s', o) ->
    watch (wsize_of s') (map (fun i => (i_name i, t_id (i_mod i))) (watch_list (chosen tf (lm_tf s)) (chosen nf (lm_nf s)) root)) (lm_x s) = (lm_x s', o).
  Proof.
    intros E. assert (Ew : lm_w s' = lm_w s) by (apply lm_watch_run in E; tauto). unfold lm_watch, on_x in E. rewrite !or_chosen in E. cbn [lm_tf lm_nf lm_set_frozen lm_set_filters lm_set_model lm_x lm_frozen] in E.
    match type of E with (let (_, _) := watch ?w ?ms ?x in _) = _ => destruct (watch w ms x) as [x' r] eqn:E1 end. injection E as <- <-. exact E1.
  Qed.
  Lemma add_lora_x (s s' : lm) root : lm_root s = Some root -> t_kids root <> [] -> tree_ok root (lm_next s) -> lm_add_lora rnd svd true true None None None None s = (s', Ok tt) ->
    exists xc ms, lx_clear (lm_x s) = (xc, Ok tt) /\ watch (wsize_of s') ms xc = (lm_x s', Ok tt).
  Proof.
    intros Er Kr OK E. unfold lm_add_lora in E. apply sbind_ok in E as (s0 & [] & E0 & E). injection E0 as <-. change (lm_cfg s) with (match @None lora_cfg with Some c => c | None => lm_cfg s end) in E. rewrite start_eq in E.
    apply sbind_ok in E as (s0 & s1 & E0 & E). injection E0 as <- <-. rewrite !or_chosen in E. apply sbind_ok in E as (s2 & [] & E2 & E).
    destruct (handler_ok_inv rnd svd (in_use (lm_handler s) None (lm_cfg s)) _ _ (start None s) s2 eq_refl E2) as (cs & Ecs).
    destruct (handler_done rnd svd (in_use (lm_handler s) None (lm_cfg s)) cs _ _ root (start None s) s2 eq_refl Ecs Er Kr OK E2) as ((K1 & _) & _).
    apply sbind_ok in E as (s3 & [] & E3 & E). injection E3 as <-. apply sbind_ok in E as (s4 & [] & E4 & E). apply save_lora_keeps in E4 as (f & ->).
    apply sbind_ok in E as (s5 & [] & E5 & E). cbn [orb] in E5. unfold on_x in E5. change (lm_x (lm_set_file s2 f)) with (lm_x s2) in E5. destruct (lx_clear (lm_x s2)) as [xc r] eqn:Ec. injection E5 as <- ->.
    apply sbind_ok in E as (s6 & s6' & E6 & E). injection E6 as <- <-. cbn [lm_root lm_set_x lm_set_file] in E. destruct (lm_root s2) as [root'|] eqn:Er2; [|discriminate E].
    apply lm_watch_x in E. exists xc. eexists. split; [|exact E]. rewrite K1 in Ec. exact Ec.
  Qed.
  Lemma clear_pristine (s : lstate) : pristine s -> exists s', state_clear s = (s', Ok tt) /\ pristine s'.
  Proof.
    intros (R & K & E). assert (R' : st_states s = st_states (@state_init F) /\ st_noclear s = st_noclear (@state_init F)) by (unfold registries in R; split; congruence).
    destruct R' as [Rs Rn]. destruct (clear_ok s) as (s' & Ec & R1 & K1 & V1 & V2).
    { rewrite Rs, K. intros a I. revert a I. apply Forall_forall. repeat (constructor; [cbn; auto 20|]). constructor. }
    exists s'. split; [exact Ec|]. split; [congruence|]. split; [congruence|]. intros st. destruct (E st) as [E1 E2].
    assert (G : forall a, dget a (attrs s) = Some (Node []) -> dget a (attrs s') = Some (Node [])).
    { intros a Ea. destruct (in_dec string_dec a (st_states s)) as [I|I]; [|rewrite V2 by auto; exact Ea]. destruct (in_dec string_dec a (st_noclear s)) as [J|J]; [rewrite V2 by auto; exact Ea|apply V1; assumption]. }
    auto.
  Qed.
  Lemma reach_watch wsize ms (x x' : lx) o : reachable wsize x -> watch wsize ms x = (x', o) -> reachable wsize x'.
  Proof. intros R E. exact (reachable_op kind wsize eigh enc (XWatch ms) x x' o R E). Qed.
  Lemma pristine_watch wsize ms (x x' : lx) o : pristine (x_state x) -> watch wsize ms x = (x', o) -> pristine (x_state x').
  Proof.
    intros P E. pose proof (pristine_ops kind wsize eigh enc [XWatch ms] x (Forall_cons _ (Logic.I : preparation (XWatch ms)) (Forall_nil _)) P) as Q.
    unfold run_ops in Q. cbn [fold_left run_op] in Q. rewrite E in Q. exact Q.
  Qed.
  Lemma new_trainer_born a hessian (s : lm) root (p : tr) w t off : good "none" hessian "grad" -> ha_init a = false -> lm_x s = lx_init w t off -> (w <= 1)%Z ->
    tree_ok root (lm_next s) -> (ha_lora a = true -> t_kids root <> []) -> new_trainer rnd svd a hessian "grad" s root = (p, Ok tt) ->
    let ms := map snd (x_names (lm_x (tr_lm p))) in ms <> [] /\ new_run kind (wsize_of (tr_lm p)) eigh enc hessian ms a p /\ no_results p.
  Proof.
    intros G Ni X0 Hw OK Kr E. destruct (sched_good _ _ _ G) as (c & Ec & _). rewrite (new_trainer_run rnd svd a hessian "grad" s root c Ec) in E. cbv zeta.
    destruct (lm_watch root (Some (ha_tf a)) (Some (ha_nf a)) s) as [s1 o1] eqn:E1.
    pose proof E1 as Ex1. apply lm_watch_x in Ex1. rewrite X0 in Ex1.
    set (ms1 := map (fun i => (i_name i, t_id (i_mod i))) (watch_list _ _ root)) in Ex1.
    assert (FIN : forall sF : lm, reachable (wsize_of sF) (lm_x sF) -> pristine (x_state (lm_x sF)) -> x_dir (lm_x sF) = [] -> x_names (lm_x sF) <> [] -> x_saver (lm_x sF) = saver_of w t (x_names (lm_x sF)) ->
      forall q, tr_lm q = sF -> tr_sched q = c -> no_results q ->
      map snd (x_names (lm_x (tr_lm q))) <> [] /\ new_run kind (wsize_of (tr_lm q)) eigh enc hessian (map snd (x_names (lm_x (tr_lm q)))) a q /\ no_results q).
    { intros sF HR HP HD HN HS q Eq Esc Hq. rewrite Eq. split; [intros X; apply map_eq_nil in X; contradiction|]. split; [|exact Hq]. unfold new_run. rewrite Eq, Esc. split; [exact Ec|]. split; [exact Ni|].
      cbv zeta. split; [exact HR|]. split; [exact HP|]. split; [rewrite HD; split; [constructor|intros n []]|]. exists 0, w, t. split; [exact HS|exact Hw]. }
    destruct o1 as [[]|e]; [|destruct (ha_lora a); discriminate E].
    assert (R0 : forall ws, reachable ws (@lx_init F w t off)) by (intros ws; exists w, t, off, []; reflexivity).
    destruct (watch_parts _ _ _ _ Ex1) as (N1 & D1 & S1 & V1). specialize (V1 eq_refl w t [] eq_refl).
    pose proof (pristine_watch _ _ _ _ _ (pristine_init w t off) Ex1) as P1.
    destruct (ha_lora a) eqn:L.
    - specialize (Kr eq_refl). destruct (lm_add_lora _ _ _ _ _ _ _ _ s1) as [s2 o2] eqn:E2. injection E as <- ->.
      pose proof E1 as Er1. apply lm_watch_run in Er1 as (Er1 & Ew1 & En1 & _).
      assert (OK1 : tree_ok root (lm_next s1)) by (rewrite En1; exact OK).
      destruct (add_lora_x _ _ _ Er1 Kr OK1 E2) as (xc & ms2 & Exc & Ex2).
      destruct (add_lora_tree rnd svd _ _ _ _ _ _ _ _ Er1 Kr OK1 E2) as (_ & _ & _ & _ & WS).
      assert (Ex1' : watch (wsize_of s2) ms1 (lx_init w t off) = (lm_x s1, Ok tt)).
      { rewrite <- Ex1. apply watch_ext; [reflexivity|]. intros m Im. unfold ms1 in Im. rewrite map_map in Im. apply in_map_iff in Im as (i & <- & Hi). cbn [snd]. unfold wsize_of.
        apply filter_In in Hi as [Hi _]. destruct (named_modules_spec _ _ OK) as (_ & _ & Sp). destruct (Sp i Hi) as (ks & Pk & _). rewrite WS by exact (path_below _ _ _ Pk). reflexivity. }
      pose proof (reach_watch _ _ _ _ _ (R0 _) Ex1') as R1.
      pose proof (reachable_inv kind (wsize_of s2) eigh enc _ R1) as Inv1.
      destruct (lx_clear_run _ _ Inv1 Exc) as (st & Est & ->). destruct (clear_pristine _ P1) as (st' & Est' & P2). rewrite Est in Est'. injection Est' as <-.
      pose proof (reachable_op kind (wsize_of s2) eigh enc XClear _ _ _ R1 Exc) as Rc.
      destruct (watch_parts _ _ _ _ Ex2) as (N2 & D2 & S2 & V2).
      eapply (FIN s2).
      + exact (reach_watch _ _ _ _ _ Rc Ex2).
      + refine (pristine_watch _ _ _ _ _ _ Ex2). exact P2.
      + rewrite D2. cbn [x_dir with_views with_store]. exact D1.
      + exact N2.
      + apply (V2 S1 w t (grad_paths (map snd (x_names (lm_x s1))))). cbn [x_saver with_views with_store]. rewrite V1. reflexivity.
      + reflexivity.
      + reflexivity.
      + repeat split.
    - injection E as <-. eapply (FIN s1); try reflexivity; try assumption. + exact (reach_watch _ _ _ _ _ (R0 _) Ex1). + repeat split.
  Qed.
End P.
