(** LogIX.add_lora: tree, function, tracked modules. *)
From Verif Require Import Py PyStr Field Tensor ModelGrad Monad ModelState ModelMmap ModelSaver ModelLogger ModelModules ModelLora SpecLora LogProofs1 LoraProofs1 LoraProofs2 LoraProofs3 LoraProofs4 LoraProofs5 LoraProofs6.
Local Open Scope nat_scope.

Lemma or_chosen {A} (a b : option (list A)) : or_filter a b = chosen a b.
Proof. unfold or_filter, chosen. destruct a as [[|x a]|]; reflexivity. Qed.

Lemma fold_names_nodup (l : list item) : forall d : dict mid string, NoDup (map iid l) -> (forall i, In i l -> ~ In (iid i) (dkeys d)) ->
  fold_left (fun d p => dset (snd p) (fst p) d) (map (fun i => (i_name i, t_id (i_mod i))) l) d = d ++ map (fun i => (t_id (i_mod i), i_name i)) l.
Proof.
  induction l as [|i l IH]; intros d ND N; cbn [map fold_left]; [rewrite app_nil_r; reflexivity|]. inversion ND as [|? ? Ni NDr]; subst. cbn [fst snd].
  assert (E : dset (t_id (i_mod i)) (i_name i) d = d ++ [(t_id (i_mod i), i_name i)]).
  { specialize (N i (or_introl eq_refl)). fold (iid i). clear - N. induction d as [|[k v] d IH]; [reflexivity|]. cbn [dset]. cbn in N.
    destruct (eqb (iid i) k) eqn:E; [exfalso; apply N; left; apply Nat.eqb_eq in E; auto|]. rewrite IH by tauto. reflexivity. }
  rewrite E, IH; [rewrite <- app_assoc; reflexivity|exact NDr|]. intros j Hj Hin. unfold dkeys in *. rewrite map_app, in_app_iff in Hin. cbn in Hin.
  destruct Hin as [Hin|[Hin|[]]]; [apply (N j); [right; exact Hj|exact Hin]|]. apply Ni. apply in_map_iff. exists j. split; [symmetry; exact Hin|exact Hj].
Qed.
Lemma nodup_filter {A B} (g : A -> B) (p : A -> bool) l : NoDup (map g l) -> NoDup (map g (filter p l)).
Proof.
  induction l as [|x l IH]; cbn; [auto|]. intros ND. inversion ND as [|? ? N NDr]; subst. destruct (p x); [|auto]. cbn. constructor; [|auto].
  intros X. apply N. apply in_map_iff in X as (y & <- & Hy). apply in_map_iff. exists y. split; [reflexivity|]. apply filter_In in Hy. tauto.
Qed.
Lemma is_lora_spec root : is_lora root = true <-> exists j, In j (named_modules root) /\ substring "logix_lora_B" (i_name j).
Proof.
  unfold is_lora. rewrite existsb_exists. split; intros (j & Hj & X); exists j; (split; [exact Hj|]); apply contains_spec, X.
Qed.

Section P.
  Context {F : Type} `{OField F}.
  Notation tensor := (tensor F).
  Notation lm := (@lm F).
  Notation weights := (dict mid (tensor * option tensor)).
  Context (rnd : mid -> list nat -> F) (svd : tensor -> res tensor).

  (** watch *)
  Definition watch_list (tf : option (list fclass)) (nf : option (list string)) (root : mtree) : list item :=
    filter (fun i => module_check i tf nf (is_lora root)) (named_modules root).
  Lemma lm_watch_run root tf nf (s s' : lm) o : lm_watch root tf nf s = (s', o) ->
    lm_root s' = Some root /\ lm_w s' = lm_w s /\ lm_next s' = lm_next s /\ lm_tf s' = chosen tf (lm_tf s) /\ lm_nf s' = chosen nf (lm_nf s) /\
    lm_cfg s' = lm_cfg s /\ lm_handler s' = lm_handler s /\ lm_file s' = lm_file s /\
    lm_frozen s' = fold_left (watch_item (chosen tf (lm_tf s)) (chosen nf (lm_nf s)) (is_lora root)) (named_modules root) (lm_frozen s) /\
    x_mods (lm_x s') = x_mods (lm_x s) ++ map iid (watch_list (chosen tf (lm_tf s)) (chosen nf (lm_nf s)) root) /\
    x_names (lm_x s') = fold_left (fun d p => dset (snd p) (fst p) d)
      (map (fun i => (i_name i, t_id (i_mod i))) (watch_list (chosen tf (lm_tf s)) (chosen nf (lm_nf s)) root)) (x_names (lm_x s)).
  Proof.
    unfold lm_watch, on_x. rewrite !or_chosen. cbn [lm_tf lm_nf lm_set_frozen lm_set_filters lm_set_model lm_x lm_frozen].
    match goal with |- context [watch ?w ?ms ?x] => destruct (watch w ms x) as [x' r] eqn:E end. apply watch_watched in E as (st & sv & ->).
    intros [= <- <-]. cbn. repeat (split; [reflexivity|]). split; [|reflexivity]. rewrite map_map. reflexivity.
  Qed.
  Lemma watch_item_in tf nf lora l : forall fr p, In p (fold_left (watch_item tf nf lora) l fr) <->
    In p fr \/ exists i, In i l /\ module_check i tf nf lora = false /\ t_kids (i_mod i) = [] /\ In p (t_params (i_mod i)).
  Proof.
    induction l as [|i l IH]; intros fr p; cbn [fold_left].
    - split; [auto|]. intros [X|(? & [] & _)]. exact X.
    - rewrite IH. unfold watch_item at 1. destruct (module_check i tf nf lora) eqn:E.
      + split; [intros [X|(j & Hj & X)]; [auto|right; exists j; split; [right; exact Hj|exact X]]|].
        intros [X|(j & [<-|Hj] & X)]; [auto| |right; exists j; auto]. destruct X as [X _]. congruence.
      + destruct (is_nil (t_kids (i_mod i))) eqn:Ek.
        * apply is_nil_true in Ek. rewrite in_app_iff. split.
          -- intros [[X|X]|(j & Hj & X)]; [auto|right; exists i; repeat split; auto; left; reflexivity|right; exists j; split; [right; exact Hj|exact X]].
          -- intros [X|(j & [<-|Hj] & X1 & X2 & X3)]; [auto|auto|right; exists j; auto].
        * split; [intros [X|(j & Hj & X)]; [auto|right; exists j; split; [right; exact Hj|exact X]]|].
          intros [X|(j & [<-|Hj] & X1 & X2 & X3)]; [auto| |right; exists j; auto]. rewrite X2 in Ek. discriminate.
  Qed.

  (** the phases of add_lora *)
  Definition start (cfg : option lora_cfg) (s : lm) : lm :=
    lm_set_lora s (match cfg with Some c => c | None => lm_cfg s end) (Some (in_use (lm_handler s) cfg (lm_cfg s))).
  Lemma start_eq cfg (s : lm) :
    lm_set_lora s (match cfg with Some c => c | None => lm_cfg s end)
      (match lm_handler s with Some h => Some h | None => Some (match cfg with Some c => c | None => lm_cfg s end) end) = start cfg s.
  Proof. unfold start, in_use. destruct (lm_handler s); [reflexivity|]. destruct cfg; reflexivity. Qed.
  Lemma save_lora_keeps (s s' : lm) o : save_lora s = (s', o) -> exists f, s' = lm_set_file s f.
  Proof.
    unfold save_lora. destruct (lm_root s); [|intros [= <- _]; exists (lm_file s); destruct s; reflexivity].
    destruct (mem _ _); [intros [= <- _]; exists (lm_file s); destruct s; reflexivity|].
    destruct (is_nil _); intros [= <- _]; [exists (lm_file s); destruct s; reflexivity|eexists; reflexivity].
  Qed.
  Lemma clear_keeps (s s' : lm) : on_x lx_clear s = (s', Ok tt) -> exists x, s' = lm_set_x s x /\ x_mods x = [] /\ x_names x = [].
  Proof.
    unfold on_x. destruct (lx_clear (lm_x s)) as [x r] eqn:E. intros [= <- ->]. exists x. split; [reflexivity|].
    unfold lx_clear in E. apply sbind_ok in E as (y & [] & _ & E). unfold logger_clear, clear_hooks in E. cbv [sbind] in E. injection E as <-. split; reflexivity.
  Qed.
  Lemma add_lora_phases watch clear tf nf cfg (s s' : lm) : lm_add_lora rnd svd watch clear tf nf None cfg s = (s', Ok tt) ->
    exists s2, handler_add_lora rnd svd (chosen tf (lm_tf s)) (chosen nf (lm_nf s)) (start cfg s) = (s2, Ok tt) /\
      lm_root s' = lm_root s2 /\ lm_w s' = lm_w s2 /\ lm_next s' = lm_next s2 /\ lm_tf s' = lm_tf s2 /\ lm_nf s' = lm_nf s2 /\
      lm_cfg s' = lm_cfg s2 /\ lm_handler s' = lm_handler s2 /\
      (clear || watch = true -> exists s3, save_lora s2 = (s3, Ok tt) /\ snd (lx_clear (lm_x s2)) = Ok tt) /\
      (watch = false -> lm_frozen s' = lm_frozen s2 /\ if clear then x_mods (lm_x s') = [] /\ x_names (lm_x s') = [] else lm_x s' = lm_x s2) /\
      (watch = true -> exists root, lm_root s2 = Some root /\
         lm_frozen s' = fold_left (watch_item (lm_tf s2) (lm_nf s2) (is_lora root)) (named_modules root) (lm_frozen s2) /\
         x_mods (lm_x s') = map iid (watch_list (lm_tf s2) (lm_nf s2) root) /\
         x_names (lm_x s') = fold_left (fun d p => dset (snd p) (fst p) d) (map (fun i => (i_name i, t_id (i_mod i))) (watch_list (lm_tf s2) (lm_nf s2) root)) []).
  Proof.
    unfold lm_add_lora. intros E. apply sbind_ok in E as (s0 & [] & E0 & E). injection E0 as <-. rewrite start_eq in E.
    apply sbind_ok in E as (s0 & s1 & E0 & E). injection E0 as <- <-. change (lm_tf (start cfg s)) with (lm_tf s) in E. change (lm_nf (start cfg s)) with (lm_nf s) in E.
    rewrite !or_chosen in E. apply sbind_ok in E as (s2 & [] & E2 & E). exists s2. split; [exact E2|].
    apply sbind_ok in E as (s3 & [] & E3 & E). injection E3 as <-.
    apply sbind_ok in E as (s4 & [] & E4 & E). pose proof E4 as E4'. apply save_lora_keeps in E4 as (f & E4). subst s4.
    apply sbind_ok in E as (s5 & [] & E5 & E).
    assert (A5 : exists x, s5 = lm_set_x (lm_set_file s2 f) x /\ (clear || watch = true -> x_mods x = [] /\ x_names x = [] /\ snd (lx_clear (lm_x s2)) = Ok tt) /\ (clear || watch = false -> x = lm_x s2)).
    { destruct (clear || watch).
      - pose proof E5 as E5'. unfold on_x in E5'. change (lm_x (lm_set_file s2 f)) with (lm_x s2) in E5'. destruct (lx_clear (lm_x s2)) as [xx rr]. injection E5' as _ ->.
        apply clear_keeps in E5 as (x & -> & X1 & X2). exists x. split; [reflexivity|]. split; [auto|discriminate].
      - injection E5 as <-. exists (lm_x s2). split; [destruct s2; reflexivity|]. split; [discriminate|auto]. }
    destruct A5 as (x & -> & Xc & Xn).
    destruct watch.
    - apply sbind_ok in E as (s6 & s6' & E6 & E). injection E6 as <- <-. change (lm_root (lm_set_x (lm_set_file s2 f) x)) with (lm_root s2) in E.
      destruct (lm_root s2) as [root|] eqn:Er; [|discriminate E]. apply lm_watch_run in E as (R1 & R2 & R3 & R4 & R5 & R6 & R7 & R8 & R9 & R10 & R11).
      rewrite Bool.orb_true_r in Xc. destruct (Xc eq_refl) as (X1 & X2 & X3).
      cbn [lm_x lm_set_x lm_frozen lm_set_file lm_tf lm_nf lm_w lm_next lm_cfg lm_handler chosen] in *. rewrite X1 in R10. rewrite X2 in R11.
      repeat (split; [assumption|]). split; [intros _; exists (lm_set_file s2 f); split; [exact E4'|exact X3]|]. split; [discriminate|]. intros _. exists root. repeat (split; [assumption || reflexivity|]). exact R11.
    - injection E as <-. repeat (split; [reflexivity|]). split; [intros Y; exists (lm_set_file s2 f); split; [exact E4'|apply (Xc Y)]|]. split; [|discriminate]. intros _. split; [reflexivity|].
      rewrite Bool.orb_false_r in *. destruct clear; [destruct (Xc eq_refl) as (X1 & X2 & _); split; assumption|apply Xn; reflexivity].
  Qed.
  Lemma handler_ok_inv h tf nf (s s' : lm) : lm_handler s = Some h -> handler_add_lora rnd svd tf nf s = (s', Ok tt) ->
    exists cs, dget "covariance_state" (attrs (x_state (lm_x s))) = Some cs.
  Proof.
    intros Eh. unfold handler_add_lora. rewrite Eh. destruct (dget "covariance_state" _) as [cs|]; [eauto|discriminate].
  Qed.
  Lemma in_force_parts h (cs : nd (@sval F)) : lc_rank (in_force h cs) = lc_rank h /\ lc_share (in_force h cs) = lc_share h /\ lc_groups (in_force h cs) = lc_groups h.
  Proof. unfold in_force. destruct (_ && _); repeat split. Qed.

  (** everything about a successful call *)
  Lemma add_lora_done watch clear tf nf cfg (s s' : lm) root : lm_root s = Some root -> t_kids root <> [] -> tree_ok root (lm_next s) ->
    lm_add_lora rnd svd watch clear tf nf None cfg s = (s', Ok tt) ->
    exists cs fs sh' T s2, let h := in_force (in_use (lm_handler s) cfg (lm_cfg s)) cs in
      dget "covariance_state" (attrs (x_state (lm_x s))) = Some cs /\
      lora_done rnd svd h (chosen tf (lm_tf s)) (chosen nf (lm_nf s)) root (start cfg s) s2 fs sh' T /\
      lm_root s' = lm_root s2 /\ lm_w s' = lm_w s2 /\ lm_next s' = lm_next s2 /\ lm_tf s' = lm_tf s /\ lm_nf s' = lm_nf s /\ lm_handler s' = Some h /\
      (watch = false -> lm_frozen s' = lm_frozen s) /\
      (watch = true -> let root' := replace_kids (slots fs) root in
         lm_frozen s' = fold_left (watch_item (lm_tf s) (lm_nf s) (is_lora root')) (named_modules root') (lm_frozen s) /\
         x_mods (lm_x s') = map iid (watch_list (lm_tf s) (lm_nf s) root') /\
         x_names (lm_x s') = map (fun i => (t_id (i_mod i), i_name i)) (watch_list (lm_tf s) (lm_nf s) root')).
  Proof.
    intros Er Kr OK E. apply add_lora_phases in E as (s2 & E2 & R1 & R2 & R3 & R4 & R5 & R6 & R7 & _ & Wf & Wt).
    destruct (handler_ok_inv (in_use (lm_handler s) cfg (lm_cfg s)) _ _ (start cfg s) s2 eq_refl E2) as (cs & Ecs).
    destruct (handler_done rnd svd (in_use (lm_handler s) cfg (lm_cfg s)) cs (chosen tf (lm_tf s)) (chosen nf (lm_nf s)) root (start cfg s) s2 eq_refl Ecs Er Kr OK E2) as ((K1 & K2 & K3 & K4 & K5 & K6 & K7) & fs & sh' & T & LD).
    cbn [start lm_set_lora lm_x lm_frozen lm_tf lm_nf lm_cfg lm_handler lm_file] in *.
    exists cs, fs, sh', T, s2. cbv zeta. split; [exact Ecs|]. split; [exact LD|]. repeat (split; [congruence|]). split; [intros X; destruct (Wf X) as [Y _]; congruence|].
    intros X. destruct (Wt X) as (root' & Er' & Y1 & Y2 & Y3). rewrite (ld_root _ _ _ _ _ _ _ _ _ _ _ LD) in Er'. injection Er' as <-.
    rewrite K2, K3, K4 in *. split; [exact Y1|]. split; [exact Y2|]. rewrite Y3. rewrite fold_names_nodup; [reflexivity| |intros i _ []].
    unfold watch_list. apply nodup_filter. destruct (named_modules_spec _ _ (new_tree_ok rnd svd _ _ _ _ (start cfg s) s2 fs sh' T OK Kr LD)) as (ND & _). exact ND.
  Qed.

  (** C54 *)
  Context (usr : mid -> list (string * (tensor -> res tensor)) -> tensor -> res tensor).
  Lemma replace_no_kids f t : t_kids t <> [] -> t_kids (replace_kids f t) <> [].
  Proof. destruct t as [id k cls ps [|kd kids]]; cbn; [congruence|discriminate]. Qed.
  Lemma add_lora_same watch clear tf nf cfg (s s' : lm) root : calls_only usr ->
    lm_root s = Some root -> t_kids root <> [] -> tree_ok root (lm_next s) -> layer_weights (lm_w s) root ->
    let tf' := chosen tf (lm_tf s) in let nf' := chosen nf (lm_nf s) in
    (forall i, selected tf' nf' root i -> undilated (i_mod i)) ->
    shareable (in_use (lm_handler s) cfg (lm_cfg s)) tf' nf' root ->
    lm_add_lora rnd svd watch clear tf nf None cfg s = (s', Ok tt) ->
    exists root', lm_root s' = Some root' /\ t_kids root' <> [] /\ tree_ok root' (lm_next s') /\ layer_weights (lm_w s') root' /\
      forall x, call usr (lm_w s') root' x = call usr (lm_w s) root x.
  Proof.
    intros U Er Kr OK LW tf' nf' UD SH E. destruct (add_lora_done _ _ _ _ _ _ _ _ Er Kr OK E) as (cs & fs & sh' & T & s2 & _ & LD & R1 & R2 & R3 & _).
    fold tf' in LD. fold nf' in LD. exists (replace_kids (slots fs) root). rewrite R1, R2, R3, (ld_root _ _ _ _ _ _ _ _ _ _ _ LD).
    split; [reflexivity|]. split; [apply replace_no_kids, Kr|].
    split; [exact (new_tree_ok rnd svd _ _ _ _ (start cfg s) _ _ _ _ OK Kr LD)|]. split; [exact (new_weights rnd svd _ _ _ _ (start cfg s) _ _ _ _ OK Kr LD LW)|].
    change (lm_w s) with (lm_w (start cfg s)). eapply (added_same rnd svd usr _ tf' nf' root (start cfg s) s2 fs sh' T U OK Kr LD LW); [| |constructor].
    - intros i Hi Hp. apply UD. split; assumption.
    - destruct (in_force_parts (in_use (lm_handler s) cfg (lm_cfg s)) cs) as (P1 & P2 & P3). rewrite P1, P2, P3. intros Es i j Hi Hpi Hj Hpj.
      split; [apply (SH Es j j); split; assumption|]. apply (SH Es i j); split; assumption.
  Qed.
End P.
