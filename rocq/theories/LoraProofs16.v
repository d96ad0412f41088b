(** Saving and restoring LoRA weights (C66). *)
From Coq Require Import Ascii.
From Verif Require Import Py PyStr Field Tensor ModelGrad Monad ModelState ModelMmap ModelSaver ModelLogger ModelModules ModelLora SpecLora LoraProofs1 LoraProofs2 LoraProofs5 LoraProofs9.
Local Open Scope nat_scope.

(** ---- dotted names determine the path ---- *)
Lemma no_dot_spec s : no_dot s <-> ~ substring "." s.
Proof.
  induction s as [|c s IH]; cbn [no_dot].
  - split; [|trivial]. intros _ (a & b & E). symmetry in E. apply string_app_empty in E as [_ E]. discriminate E.
  - split.
    + intros [N1 N2] (a & b & E). destruct a as [|c' a]; cbn in E; injection E as E1 E2; [congruence|]. apply (proj1 IH N2). exists a, b. exact E2.
    + intros N. split; [intros ->; apply N; exists ""%string, s; reflexivity|]. apply IH. intros (a & b & ->). apply N. exists (String c a), b. reflexivity.
Qed.
Lemma first_dot a b x y : no_dot a -> no_dot b -> (a ++ "." ++ x = b ++ "." ++ y)%string -> a = b /\ x = y.
Proof.
  revert b. induction a as [|c a IH]; intros [|c' b] Na Nb E; cbn in E.
  - injection E as E. auto.
  - injection E as E _. destruct Nb as [Nb _]. congruence.
  - injection E as E _. destruct Na as [Na _]. congruence.
  - injection E as E1 E2. destruct (IH b (proj2 Na) (proj2 Nb) E2) as [-> ->]. subst. auto.
Qed.
Lemma no_dot_app a x : no_dot (a ++ "." ++ x)%string -> False.
Proof. rewrite no_dot_spec. intros N. apply N. exists a, x. reflexivity. Qed.
Lemma dots_inj : forall ks ks', (forall k, In k ks -> no_dot k) -> (forall k, In k ks' -> no_dot k) -> ks <> [] -> ks' <> [] -> dots ks = dots ks' -> ks = ks'.
Proof.
  unfold dots. induction ks as [|k ks IH]; intros [|k' ks'] N N' E1 E2 E; try congruence.
  destruct ks as [|k2 ks], ks' as [|k2' ks'].
  - cbn in E. congruence.
  - change (String.concat "." [k]) with k in E. change (String.concat "." (k' :: k2' :: ks')) with (k' ++ "." ++ String.concat "." (k2' :: ks'))%string in E. exfalso. apply (no_dot_app k' (String.concat "." (k2' :: ks'))). rewrite <- E. apply N. left. reflexivity.
  - change (String.concat "." [k']) with k' in E. change (String.concat "." (k :: k2 :: ks)) with (k ++ "." ++ String.concat "." (k2 :: ks))%string in E. exfalso. apply (no_dot_app k (String.concat "." (k2 :: ks))). rewrite E. apply N'. left. reflexivity.
  - change (String.concat "." (k :: k2 :: ks)) with (k ++ "." ++ String.concat "." (k2 :: ks))%string in E. change (String.concat "." (k' :: k2' :: ks')) with (k' ++ "." ++ String.concat "." (k2' :: ks'))%string in E.
    apply first_dot in E as [-> E]; [|apply N; left; reflexivity|apply N'; left; reflexivity]. f_equal. apply IH; try discriminate; try exact E; intros x Hx; [apply N|apply N']; right; exact Hx.
Qed.
Lemma path_undotted root ks u : undotted root -> path root ks u -> forall k, In k ks -> no_dot k.
Proof. intros U P k Hk. destruct (path_keys_in _ _ _ P k Hk) as (v & c & B & Hc). apply no_dot_spec. eapply U; eassumption. Qed.
Lemma path_fun root n ks u v : tree_ok root n -> path root ks u -> path root ks v -> u = v.
Proof.
  intros OK P. revert v. induction P as [t|t k c l u Hk P IH]; intros v Q; inversion Q as [|t' k' c' l' v' Hk' Q']; subst; [reflexivity|].
  assert (c' = c).
  { pose proof (proj1 (ok_keys _ _ OK t (below_refl t))) as ND. clear - ND Hk Hk'. revert ND Hk Hk'. induction (t_kids t) as [|[k0 c0] r IHr]; intros ND Hk Hu2; [destruct Hk|].
    cbn [map fst] in ND. apply NoDup_cons_iff in ND as [N1 N2]. destruct Hk as [Hk|Hk], Hu2 as [Hu|Hu].
    - congruence.
    - injection Hk as -> ->. exfalso. apply N1. apply (in_map fst) in Hu. exact Hu.
    - injection Hu as -> ->. exfalso. apply N1. apply (in_map fst) in Hk. exact Hk.
    - exact (IHr N2 Hk Hu). }
  subst c'. apply IH; [|exact Q']. eapply tree_ok_below; [exact OK|eapply below_child; exact Hk].
Qed.

Section P.
  Context {F : Type} `{OField F}.
  Notation tensor := (tensor F).
  Notation lm := (@lm F).
  Notation weights := (dict mid (tensor * option tensor)).

  Definition leaf_name (bias : bool) : string := if bias then "bias" else "weight".
  Lemma state_keys_in (w : weights) t : forall pre key p, In (key, p) (state_keys w pre t) <->
    exists ks u v b, path t ks u /\ dget (t_id u) w = Some (v, b) /\ key = fold_left dotted (ks ++ [leaf_name (snd p)]) pre /\ fst p = t_id u /\ (snd p = true -> b <> None).
  Proof.
    induction t as [id k cls ps kids IH] using mtree_ind'. intros pre key p. cbn [state_keys]. rewrite in_app_iff. rewrite Forall_forall in IH. split.
    - intros [X|X].
      + destruct (dget id w) as [[v b]|] eqn:E; [|destruct X]. exists [], (MT id k cls ps kids), v, b. split; [constructor|]. split; [exact E|]. cbn [app fold_left t_id]. destruct X as [X|X].
        * injection X as <- <-. split; [reflexivity|]. split; [reflexivity|discriminate].
        * destruct b as [bt|]; [|destruct X]. destruct X as [X|[]]. injection X as <- <-. split; [reflexivity|]. split; [reflexivity|discriminate].
      + apply in_concat in X as (l & Hl & X). apply in_map_iff in Hl as ([key0 c] & <- & Hc). cbn [fst snd] in X. apply (IH _ Hc) in X as (ks & u & v & b & P & E & Ek & Ep & Hb).
        exists (key0 :: ks), u, v, b. split; [econstructor; [exact Hc|exact P]|]. auto.
    - intros (ks & u & v & b & P & E & Ek & Ep & Hb). inversion P as [|t' k' c l u' Hk P']; subst.
      + left. cbn [t_id] in E, Ep. rewrite E. destruct p as [p1 [|]]; cbn [fst snd] in *; subst p1; cbn [app fold_left leaf_name In].
        * destruct b as [bt|]; [|exfalso; apply Hb; reflexivity]. right. left. reflexivity.
        * left. reflexivity.
      + right. apply in_concat. exists (state_keys w (dotted pre k') c). split; [apply in_map_iff; exists (k', c); auto|]. cbn [t_kids] in Hk. apply (IH _ Hk). exists l, u, v, b. auto.
  Qed.
  Lemma leaf_name_ok b : leaf_name b <> ""%string /\ no_dot (leaf_name b) /\ ~ substring "logix_lora" (leaf_name b).
  Proof.
    split; [destruct b; discriminate|]. split; [destruct b; cbn; repeat split; discriminate|]. intros X. apply contains_spec in X. destruct b; discriminate X.
  Qed.
  Lemma key_dots root n (w : weights) key p : tree_ok root n -> In (key, p) (state_keys w "" root) <->
    exists ks u v b, path root ks u /\ dget (t_id u) w = Some (v, b) /\ key = dots (ks ++ [leaf_name (snd p)]) /\ fst p = t_id u /\ (snd p = true -> b <> None).
  Proof.
    intros OK. rewrite state_keys_in. split; intros (ks & u & v & b & P & E & Ek & X); exists ks, u, v, b; (split; [exact P|]; split; [exact E|]; split; [|exact X]).
    - rewrite fold_dotted in Ek; [exact Ek|]. rewrite in_app_iff. intros [Y|[Y|[]]]; [apply (path_keys _ _ _ _ OK P Y)|apply (proj1 (leaf_name_ok (snd p))), Y].
    - rewrite fold_dotted; [exact Ek|]. rewrite in_app_iff. intros [Y|[Y|[]]]; [apply (path_keys _ _ _ _ OK P Y)|apply (proj1 (leaf_name_ok (snd p))), Y].
  Qed.
  Lemma key_lora ks b : contains "logix_lora" (dots (ks ++ [leaf_name b])) = true <-> lora_named ks.
  Proof.
    rewrite contains_spec. split.
    - intros X. apply substring_dots in X as (k & Hk & Sk); [|cbn; repeat split; discriminate|discriminate]. apply in_app_iff in Hk as [Hk|[<-|[]]]; [exists k; auto|]. exfalso. exact (proj2 (proj2 (leaf_name_ok b)) Sk).
    - intros (k & Hk & x & y & ->). apply in_split in Hk as (l1 & l2 & ->). unfold dots. clear. rewrite <- app_assoc. cbn [app].
      assert (Z : forall l l', exists y', String.concat "." ((x ++ "logix_lora" ++ y)%string :: l ++ [l'])  = (x ++ "logix_lora" ++ y')%string).
      { intros l l'. cbn [String.concat]. destruct (l ++ [l']) as [|a r]; eexists; [reflexivity|]. rewrite !app_assoc_s. reflexivity. }
      destruct (Z l2 (leaf_name b)) as (y' & Ey). induction l1 as [|a l1 IH]; [cbn [app]; rewrite Ey; exists x, y'; reflexivity|].
      destruct IH as (x1 & y1 & E1). cbn [app].
      assert (C : String.concat "." (a :: l1 ++ (x ++ "logix_lora" ++ y)%string :: l2 ++ [leaf_name b]) = (a ++ "." ++ String.concat "." (l1 ++ (x ++ "logix_lora" ++ y)%string :: l2 ++ [leaf_name b]))%string).
      { cbn [String.concat]. destruct l1; reflexivity. }
      rewrite C, E1. exists (a ++ "." ++ x1)%string, y1. rewrite !app_assoc_s. reflexivity.
  Qed.

  (** ---- parameters ---- *)
  Definition has_param (w : weights) (p : mid * bool) : Prop := exists v b, dget (fst p) w = Some (v, b) /\ (snd p = true -> b <> None).
  Lemma set_param_has (w : weights) p v q : has_param (set_param w p v) q <-> has_param w q \/ (q = p /\ has_param w (fst p, false)).
  Proof.
    unfold has_param, set_param. destruct p as [i c], q as [j d]. cbn [fst snd]. destruct (dget i w) as [[v0 b]|] eqn:E.
    - destruct (Nat.eq_dec i j) as [->|N].
      + rewrite dget_dset_eq. split.
        * intros (v1 & b1 & X & Y). destruct c.
          -- injection X as <- <-. destruct d; [right; split; [reflexivity|]; eexists _, _; split; [first [exact E|reflexivity]|discriminate]|left; eexists _, _; split; [first [exact E|reflexivity]|discriminate]].
          -- injection X as <- <-. left. eexists _, _. split; [first [exact E|reflexivity]|exact Y].
        * intros [(v1 & b1 & X & Y)|([= ->] & _)].
          -- rewrite E in X. injection X as <- <-. destruct c; eexists _, _; (split; [reflexivity|]); [discriminate|exact Y].
          -- destruct c; eexists _, _; (split; [reflexivity|]); discriminate.
      + rewrite dget_dset_neq by congruence. split; [auto|]. intros [X|([= -> ->] & _)]; [exact X|congruence].
    - split; [auto|]. intros [X|(_ & (v1 & b1 & X & _))]; [exact X|discriminate X].
  Qed.
  Lemma param_set_eq (w : weights) p v : has_param w p -> param_of (set_param w p v) p = v.
  Proof.
    destruct p as [i c]. intros (v0 & b & E & Hb). unfold param_of, set_param. cbn [fst snd] in *. rewrite E. cbn [fst snd]. rewrite dget_dset_eq. destruct c; [reflexivity|]. destruct b; reflexivity.
  Qed.
  Lemma param_set_neq (w : weights) p v q : has_param w q -> q <> p -> param_of (set_param w p v) q = param_of w q.
  Proof.
    destruct p as [i c], q as [j d]. intros (v0 & b & E & Hb) N. unfold param_of, set_param. cbn [fst snd] in *. destruct (dget i w) as [[v1 b1]|] eqn:E1; [|reflexivity].
    destruct (Nat.eq_dec i j) as [->|Nij]; [|rewrite dget_dset_neq by congruence; reflexivity]. rewrite dget_dset_eq, E. rewrite E1 in E. injection E as -> ->.
    destruct c, d; try congruence; destruct b; try reflexivity. exfalso. apply Hb; reflexivity.
  Qed.
  Lemma pair_dec (p q : mid * bool) : {p = q} + {p <> q}.
  Proof. decide equality; [apply Bool.bool_dec|apply Nat.eq_dec]. Qed.
  (** the loop of load_state_dict *)
  Definition upd (file : dict string tensor) (w : weights) (k : string * (mid * bool)) : weights :=
    match dget (fst k) file with
    | Some v => if same_shape (shape v) (shape (param_of w (snd k))) then set_param w (snd k) v else w
    | None => w
    end.
  Lemma load_loop (file : dict string tensor) (tgt : mid * bool -> tensor) l : forall w,
    (forall k p, In (k, p) l -> has_param w p) ->
    (forall k p v, In (k, p) l -> dget k file = Some v -> shape v = shape (param_of w p) /\ v = tgt p) ->
    let w' := fold_left (upd file) l w in
    (forall q, has_param w' q <-> has_param w q) /\
    (forall q, has_param w q -> param_of w q = tgt q \/ (exists k v, In (k, q) l /\ dget k file = Some v) -> param_of w' q = tgt q) /\
    (forall q, has_param w q -> (forall k v, In (k, q) l -> dget k file <> Some v) -> param_of w' q = param_of w q).
  Proof.
    induction l as [|[k p] l IH]; intros w Hw Hv; cbn [fold_left].
    - split; [tauto|]. split; [|auto]. intros q Hq [E|(k & v & [] & _)]. exact E.
    - unfold upd at 2. unfold upd at 3. unfold upd at 4. cbn [fst snd]. destruct (dget k file) as [v|] eqn:E.
      + destruct (Hv k p v (or_introl eq_refl) E) as [Sv Tv]. rewrite Sv, same_shape_refl.
        pose proof (Hw k p (or_introl eq_refl)) as Hp.
        assert (HS : forall q, has_param (set_param w p v) q <-> has_param w q).
        { intros q. rewrite set_param_has. split; [|auto]. intros [X|(-> & _)]; [exact X|exact Hp]. }
        assert (PS : forall q, has_param w q -> shape (param_of (set_param w p v) q) = shape (param_of w q)).
        { intros q Hq. destruct (pair_dec q p) as [->|N]; [rewrite param_set_eq by exact Hp; exact Sv|rewrite param_set_neq by assumption; reflexivity]. }
        destruct (IH (set_param w p v)) as (I1 & I2 & I3).
        * intros k' p' Hin. apply HS. eapply Hw. right. exact Hin.
        * intros k' p' v' Hin E'. destruct (Hv k' p' v' (or_intror Hin) E') as [S' T']. split; [|exact T']. rewrite PS; [exact S'|]. eapply Hw. right. exact Hin.
        * split; [intros q; rewrite I1; apply HS|]. split.
          -- intros q Hq Ht. apply I2; [apply HS, Hq|]. destruct (pair_dec q p) as [->|N]; [left; rewrite param_set_eq by exact Hp; exact Tv|].
             destruct Ht as [Ht|(k' & v' & [X|X] & E')]; [left; rewrite param_set_neq by assumption; exact Ht|congruence|right; eauto].
          -- intros q Hq Hn. rewrite I3; [|apply HS, Hq|intros k' v' Hin; apply Hn; right; exact Hin]. apply param_set_neq; [exact Hq|]. intros ->. apply (Hn k v (or_introl eq_refl)). exact E.
      + destruct (IH w) as (I1 & I2 & I3).
        * intros k' p' Hin. eapply Hw. right. exact Hin.
        * intros k' p' v' Hin E'. apply (Hv k' p' v' (or_intror Hin) E').
        * split; [exact I1|]. split.
          -- intros q Hq Ht. apply I2; [exact Hq|]. destruct Ht as [Ht|(k' & v' & [X|X] & E')]; [auto|congruence|right; eauto].
          -- intros q Hq Hn. apply I3; [exact Hq|]. intros k' v' Hin. apply Hn. right. exact Hin.
  Qed.
  Lemma same_dget (w1 w2 : weights) i j : (forall d, has_param w1 (i, d) <-> has_param w2 (j, d)) ->
    (forall d, has_param w1 (i, d) -> param_of w1 (i, d) = param_of w2 (j, d)) -> dget i w1 = dget j w2.
  Proof.
    intros HH HP. unfold has_param, param_of in *. cbn [fst snd] in *. destruct (dget i w1) as [[v b]|] eqn:E1, (dget j w2) as [[v' b']|] eqn:E2.
    - assert (X : v = v') by (specialize (HP false ltac:(eexists _, _; split; [reflexivity|discriminate])); destruct b, b'; exact HP). subst v'.
      destruct b as [b|], b' as [b'|]; try reflexivity.
      + specialize (HP true ltac:(eexists _, _; split; [reflexivity|discriminate])). cbn in HP. congruence.
      + exfalso. destruct (proj1 (HH true)) as (? & ? & X & Y); [eexists _, _; split; [reflexivity|discriminate]|]. injection X as <- <-. apply Y; reflexivity.
      + exfalso. destruct (proj2 (HH true)) as (? & ? & X & Y); [eexists _, _; split; [reflexivity|discriminate]|]. injection X as <- <-. apply Y; reflexivity.
    - exfalso. destruct (proj1 (HH false)) as (? & ? & X & _); [eexists _, _; split; [reflexivity|discriminate]|]. discriminate X.
    - exfalso. destruct (proj2 (HH false)) as (? & ? & X & _); [eexists _, _; split; [reflexivity|discriminate]|]. discriminate X.
    - reflexivity.
  Qed.
  Lemma dget_map_fun {V W} (f : string * V -> W) (l : list (string * V)) k : (forall x y, In (k, x) l -> In (k, y) l -> x = y) ->
    forall x, In (k, x) l -> dget k (map (fun kv => (fst kv, f kv)) l) = Some (f (k, x)).
  Proof.
    intros Hf x Hin. induction l as [|[k0 x0] l IH]; [destruct Hin|]. cbn [map dget fst]. destruct (eqb_spec k k0) as [->|N].
    - f_equal. f_equal. f_equal. apply Hf; [left; reflexivity|exact Hin].
    - destruct Hin as [E|Hin]; [congruence|]. apply IH; [|exact Hin]. intros a b Ha Hb. apply Hf; right; assumption.
  Qed.

  Lemma not_own_descendant root n : tree_ok root n -> mem (t_id root) (tl (all_ids root)) = false.
  Proof.
    intros OK. apply not_true_is_false. rewrite mem_In. destruct root as [id k cls ps kids]. cbn [all_ids tl t_id]. intros X. apply in_concat in X as (l & Hl & X). apply in_map_iff in Hl as ([key c] & <- & Hc). cbn [snd] in X.
    apply in_all_ids in X as (u & B & E). set (t := MT id k cls ps kids) in *. assert (u = t).
    { apply (ok_same _ _ OK); [eapply below_kid; [exact Hc|exact B]|constructor|exact E]. }
    subst u. apply tsize_below in B. pose proof (tsize_kid t key c Hc) as Lt. destruct B as [B|B]; [rewrite B in Lt|]; lia.
  Qed.
  Lemma keys_fun root n (w : weights) key p p' : tree_ok root n -> undotted root -> In (key, p) (state_keys w "" root) -> In (key, p') (state_keys w "" root) -> p = p'.
  Proof.
    intros OK U. rewrite !(key_dots root n) by exact OK. intros (ks & u & v & b & P & _ & E & Ep & _) (ks' & u' & v' & b' & P' & _ & E' & Ep' & _).
    assert (X : ks ++ [leaf_name (snd p)] = ks' ++ [leaf_name (snd p')]).
    { apply dots_inj; [| |destruct ks; discriminate|destruct ks'; discriminate|congruence].
      - intros k Hk. apply in_app_iff in Hk as [Hk|[<-|[]]]; [exact (path_undotted _ _ _ U P k Hk)|apply leaf_name_ok].
      - intros k Hk. apply in_app_iff in Hk as [Hk|[<-|[]]]; [exact (path_undotted _ _ _ U P' k Hk)|apply leaf_name_ok]. }
    apply app_inj_tail in X as [-> X]. pose proof (path_fun _ _ _ _ _ OK P P') as ->. destruct p as [a c], p' as [a' c']. cbn [fst snd] in *. f_equal; [congruence|]. destruct c, c'; try reflexivity; discriminate X.
  Qed.
  Definition lora_keys (w : weights) (root : mtree) := filter (fun k => contains "logix_lora" (fst k)) (state_keys w "" root).
  Definition saved_file (w : weights) (root : mtree) : dict string tensor := map (fun k => (fst k, param_of w (snd k))) (lora_keys w root).
  Lemma saved_get root n (w : weights) key p : tree_ok root n -> undotted root -> In (key, p) (state_keys w "" root) -> contains "logix_lora" key = true ->
    dget key (saved_file w root) = Some (param_of w p).
  Proof.
    intros OK U Hin C. unfold saved_file. rewrite (dget_map_fun (fun k => param_of w (snd k)) (lora_keys w root) key) with (x := p); [reflexivity| |].
    - intros x y Hx Hy. apply filter_In in Hx as [Hx _]. apply filter_In in Hy as [Hy _]. eapply keys_fun; eassumption.
    - apply filter_In. auto.
  Qed.
  Lemma saved_only root (w : weights) key : In key (map fst (saved_file w root)) -> exists p, In (key, p) (state_keys w "" root) /\ contains "logix_lora" key = true.
  Proof.
    unfold saved_file. rewrite map_map. cbn [fst]. intros X. apply in_map_iff in X as ([k p] & <- & X). apply filter_In in X as [X C]. exists p. auto.
  Qed.
  Lemma save_lora_file (s : lm) root n : lm_root s = Some root -> tree_ok root n ->
    (exists ks u, path root ks u /\ lora_named ks /\ dget (t_id u) (lm_w s) <> None) ->
    save_lora s = (lm_set_file s (Some (saved_file (lm_w s) root)), Ok tt).
  Proof.
    intros Er OK (ks & u & P & L & E). unfold save_lora. rewrite Er, (not_own_descendant root n OK). fold (lora_keys (lm_w s) root).
    destruct (is_nil (lora_keys (lm_w s) root)) eqn:N; [|reflexivity]. exfalso. destruct (dget (t_id u) (lm_w s)) as [[v b]|] eqn:Ed; [|apply E; reflexivity].
    assert (X : In (dots (ks ++ [leaf_name false]), (t_id u, false)) (lora_keys (lm_w s) root)).
    { apply filter_In. split; [apply (key_dots root n); [exact OK|]|apply key_lora, L]. exists ks, u, v, b. repeat (split; [assumption||reflexivity|]). discriminate. }
    destruct (lora_keys (lm_w s) root); [destruct X|discriminate N].
  Qed.

  (** every saved weight by name *)
  Lemma save_lora_saves (s : lm) root n : lm_root s = Some root -> tree_ok root n -> undotted root ->
    (exists ks u, path root ks u /\ lora_named ks /\ dget (t_id u) (lm_w s) <> None) ->
    exists file, save_lora s = (lm_set_file s (Some file), Ok tt) /\
      (forall ks u v b, path root ks u -> lora_named ks -> dget (t_id u) (lm_w s) = Some (v, b) ->
         dget (dots (ks ++ ["weight"%string])) file = Some v /\ forall x, b = Some x -> dget (dots (ks ++ ["bias"%string])) file = Some x) /\
      (forall key, In key (dkeys file) -> exists ks u v b, path root ks u /\ lora_named ks /\ dget (t_id u) (lm_w s) = Some (v, b) /\
         (key = dots (ks ++ ["weight"%string]) \/ (key = dots (ks ++ ["bias"%string]) /\ b <> None))).
  Proof.
    intros Er OK U X. exists (saved_file (lm_w s) root). split; [eapply save_lora_file; eassumption|]. split.
    - intros ks u v b P L E. split.
      + rewrite (saved_get root n (lm_w s) _ (t_id u, false) OK U).
        * unfold param_of. cbn [fst snd]. rewrite E. destruct b; reflexivity.
        * apply (key_dots root n); [exact OK|]. exists ks, u, v, b. repeat (split; [assumption||reflexivity|]). discriminate.
        * apply (key_lora ks false), L.
      + intros x ->. rewrite (saved_get root n (lm_w s) _ (t_id u, true) OK U).
        * unfold param_of. cbn [fst snd]. rewrite E. reflexivity.
        * apply (key_dots root n); [exact OK|]. exists ks, u, v, (Some x). repeat (split; [assumption||reflexivity|]). discriminate.
        * apply (key_lora ks true), L.
    - intros key Hk. apply saved_only in Hk as (p & Hin & C). apply (key_dots root n) in Hin as (ks & u & v & b & P & E & -> & Ep & Hb); [|exact OK]. apply key_lora in C.
      exists ks, u, v, b. split; [exact P|]. split; [exact C|]. split; [exact E|]. destruct (snd p); [right; split; [reflexivity|apply Hb; reflexivity]|left; reflexivity].
  Qed.

  (** restoring into a model with modules at the same places *)
  Lemma lora_restored (s s1 s2 : lm) root root2 n n2 file : lm_root s = Some root -> tree_ok root n -> undotted root ->
    (exists ks u, path root ks u /\ lora_named ks /\ dget (t_id u) (lm_w s) <> None) ->
    save_lora s = (s1, Ok tt) -> lm_file s1 = Some file ->
    lm_root s2 = Some root2 -> tree_ok root2 n2 -> alike root root2 ->
    (forall ks u v, path root ks u -> path root2 ks v -> lora_named ks -> same_form (dget (t_id u) (lm_w s)) (dget (t_id v) (lm_w s2))) ->
    exists w, load_lora file s2 = (lm_set_model s2 (Some root2) (lm_next s2) w, Ok tt) /\
      (forall ks u v, path root ks u -> path root2 ks v -> lora_named ks -> dget (t_id v) w = dget (t_id u) (lm_w s)) /\
      (forall m, (forall ks v, path root2 ks v -> t_id v = m -> ~ lora_named ks) -> dget m w = dget m (lm_w s2)).
  Proof.
    intros Er OK U Ex Sv Ef Er2 OK2 [AP AS] SF. rewrite (save_lora_file s root n Er OK Ex) in Sv. injection Sv as <-. cbn [lm_file lm_set_file] in Ef. injection Ef as <-.
    assert (U2 : undotted root2).
    { intros u k c B Hc. destruct (below_path _ _ B) as (l & P). pose proof (path_snoc _ _ _ _ _ P Hc) as P2. destruct (proj2 (AP (l ++ [k])) (ex_intro _ _ P2)) as (u1 & P1).
      destruct (path_keys_in _ _ _ P1 k) as (v & c' & Bv & Hv); [apply in_app_iff; right; left; reflexivity|]. exact (U _ _ _ Bv Hv). }
    set (W1 := lm_w s) in *. set (W2 := lm_w s2) in *. set (ks2 := state_keys W2 "" root2).
    (* keys of the second model that are in the file *)
    assert (Match : forall key p, In (key, p) ks2 -> forall v, dget key (saved_file W1 root) = Some v ->
      exists ks u u2, path root ks u /\ path root2 ks u2 /\ lora_named ks /\ fst p = t_id u2 /\ has_param W1 (t_id u, snd p) /\ v = param_of W1 (t_id u, snd p)).
    { intros key p Hin v E. apply (key_dots root2 n2) in Hin as (ks & u2 & v2 & b2 & P2 & E2 & -> & Ep & Hb); [|exact OK2].
      assert (Hk : In (dots (ks ++ [leaf_name (snd p)])) (map fst (saved_file W1 root))) by (apply dget_In_keys; eexists; exact E).
      apply saved_only in Hk as (p' & Hin' & C). rewrite (saved_get root n W1 _ p' OK U Hin' C) in E. injection E as <-.
      apply (key_dots root n) in Hin' as (ks' & u & v1 & b1 & P1 & E1 & Ek & Ep' & Hb'); [|exact OK].
      assert (X : ks ++ [leaf_name (snd p)] = ks' ++ [leaf_name (snd p')]).
      { apply dots_inj; [| |destruct ks; discriminate|destruct ks'; discriminate|exact Ek].
        - intros k Hk. apply in_app_iff in Hk as [Hk|[<-|[]]]; [eapply path_undotted; [|exact P2|exact Hk]; exact U2|apply leaf_name_ok].
        - intros k Hk. apply in_app_iff in Hk as [Hk|[<-|[]]]; [eapply path_undotted; [|exact P1|exact Hk]; exact U|apply leaf_name_ok]. }
      apply app_inj_tail in X as [<- X]. assert (Y : snd p = snd p') by (destruct (snd p), (snd p'); try reflexivity; discriminate X).
      exists ks, u, u2. split; [exact P1|]. split; [exact P2|]. split; [apply key_lora in C; exact C|]. split; [exact Ep|]. split.
      - exists v1, b1. cbn [fst snd]. rewrite Y. auto.
      - rewrite Y, <- Ep'. destruct p'; reflexivity. }
    assert (Form : forall ks u u2 d, path root ks u -> path root2 ks u2 -> lora_named ks -> (has_param W1 (t_id u, d) <-> has_param W2 (t_id u2, d)) /\ (has_param W1 (t_id u, d) -> shape (param_of W1 (t_id u, d)) = shape (param_of W2 (t_id u2, d)))).
    { intros ks u u2 d P1 P2 L. pose proof (SF _ _ _ P1 P2 L) as X. unfold same_form in X. unfold has_param, param_of. cbn [fst snd].
      destruct (dget (t_id u) W1) as [[v b]|], (dget (t_id u2) W2) as [[v' b']|]; try contradiction; [|split; [split; intros (? & ? & Y & _); discriminate Y|intros (? & ? & Y & _); discriminate Y]].
      destruct X as [X1 X2]. destruct b as [b|], b' as [b'|]; try contradiction; (split; [split; intros (? & ? & Y & Z); injection Y as <- <-; eexists _, _; (split; [reflexivity|]); try discriminate; intros Dt; specialize (Z Dt); congruence|]); intros _; destruct d; assumption. }
    (* the target value at a parameter of the second model: that of any lora-named place leading there *)
    assert (Hp2 : forall k p, In (k, p) ks2 -> has_param W2 p).
    { intros k p Hin. apply (key_dots root2 n2) in Hin as (ks & u2 & v2 & b2 & _ & E2 & _ & Ep & Hb); [|exact OK2]. exists v2, b2. rewrite Ep. auto. }
    assert (In2 : forall ks u2 d, path root2 ks u2 -> has_param W2 (t_id u2, d) -> In (dots (ks ++ [leaf_name d]), (t_id u2, d)) ks2).
    { intros ks u2 d P (v & b & E & Hb). apply (key_dots root2 n2); [exact OK2|]. exists ks, u2, v, b. auto. }
    assert (In1 : forall ks u d, path root ks u -> lora_named ks -> has_param W1 (t_id u, d) -> dget (dots (ks ++ [leaf_name d])) (saved_file W1 root) = Some (param_of W1 (t_id u, d))).
    { intros ks u d P L (v & b & E & Hb). apply (saved_get root n); [exact OK|exact U| |apply key_lora, L]. apply (key_dots root n); [exact OK|]. exists ks, u, v, b. auto. }
    (* a target function *)
    set (find := fun q : mid * bool => existsb (fun k : string * (mid * bool) => (fst (snd k) =? fst q) && Bool.eqb (snd (snd k)) (snd q) && dmem (fst k) (saved_file W1 root)) ks2).
    set (tgt := fun q : mid * bool =>
      match List.find (fun k : string * (mid * bool) => (fst (snd k) =? fst q) && Bool.eqb (snd (snd k)) (snd q) && dmem (fst k) (saved_file W1 root)) ks2 with
      | Some k => match dget (fst k) (saved_file W1 root) with Some v => v | None => param_of W2 q end
      | None => param_of W2 q
      end).
    assert (Tgt : forall key p v, In (key, p) ks2 -> dget key (saved_file W1 root) = Some v -> v = tgt p).
    { intros key p v Hin E. unfold tgt. destruct (List.find _ ks2) as [[key' p']|] eqn:Fd.
      - apply find_some in Fd as [Hin' C]. cbn [fst snd] in C. apply andb_prop in C as [C C3]. apply andb_prop in C as [C1 C2]. apply Nat.eqb_eq in C1. apply Bool.eqb_prop in C2.
        assert (p' = p) by (destruct p', p; cbn [fst snd] in *; congruence). subst p'. cbn [fst].
        destruct (dget key' (saved_file W1 root)) as [v'|] eqn:E'; [|apply dmem_In in C3; apply dget_In_keys in C3 as (? & C3); congruence].
        destruct (Match _ _ Hin v E) as (ks & u & u2 & P1 & P2 & _ & I1 & _ & ->). destruct (Match _ _ Hin' v' E') as (ks' & u' & u2' & P1' & P2' & _ & I1' & _ & ->).
        f_equal. f_equal. apply (AS ks ks' u u' u2 u2'); congruence.
      - exfalso. pose proof (find_none _ _ Fd _ Hin) as C. cbn [fst snd] in C. rewrite Nat.eqb_refl, Bool.eqb_reflx in C. cbn [andb] in C.
        assert (M : dmem key (saved_file W1 root) = true) by (apply dmem_In, dget_In_keys; eexists; exact E). congruence. }
    destruct (load_loop (saved_file W1 root) tgt ks2 W2 Hp2) as (L1 & L2 & L3).
    { intros key p v Hin E. split; [|eapply Tgt; eassumption]. destruct (Match _ _ Hin v E) as (ks & u & u2 & P1 & P2 & L & I1 & Hh & ->).
      destruct p as [a d]. cbn [fst snd] in *. subst a. apply (proj2 (Form ks u u2 d P1 P2 L)), Hh. }
    exists (fold_left (upd (saved_file W1 root)) ks2 W2). split.
    - unfold load_lora. rewrite Er2. fold W2. fold ks2.
      assert (FA : forallb (fun e => dmem (fst e) ks2) (saved_file W1 root) = true).
      { apply forallb_forall. intros [key v] Hin. cbn [fst]. apply (in_map fst) in Hin. cbn [fst] in Hin. apply saved_only in Hin as (p & Hin & C).
        apply (key_dots root n) in Hin as (ks & u & v1 & b1 & P1 & E1 & -> & Ep & Hb); [|exact OK]. apply key_lora in C.
        destruct (proj1 (AP ks) (ex_intro _ _ P1)) as (u2 & P2). apply dmem_In. unfold dkeys.
        change (dots (ks ++ [leaf_name (snd p)])) with (fst (dots (ks ++ [leaf_name (snd p)]), (t_id u2, snd p))). apply in_map. apply In2; [exact P2|]. apply (Form ks u u2 (snd p) P1 P2 C). exists v1, b1. auto. }
      rewrite FA. f_equal.
      assert (NB : existsb (fun k => match dget (fst k) (saved_file W1 root) with Some v => negb (same_shape (shape v) (shape (param_of W2 (snd k)))) | None => false end) ks2 = false).
      { apply not_true_is_false. rewrite existsb_exists. intros ([key p] & Hin & C). cbn [fst snd] in C. destruct (dget key (saved_file W1 root)) as [v|] eqn:E; [|discriminate C].
        destruct (Match _ _ Hin v E) as (ks & u & u2 & P1 & P2 & L & I1 & Hh & ->). destruct p as [a d]. cbn [fst snd] in *. subst a.
        rewrite (proj2 (Form ks u u2 d P1 P2 L) Hh), same_shape_refl in C. discriminate C. }
      rewrite NB. reflexivity.
    - split.
      + intros ks u v P1 P2 L. apply same_dget.
        * intros d. rewrite L1. symmetry. apply (Form ks u v d P1 P2 L).
        * intros d Hd. rewrite L1 in Hd. pose proof (proj2 (proj1 (Form ks u v d P1 P2 L)) Hd) as H1. rewrite L2; [|exact Hd|].
          -- symmetry. eapply Tgt; [apply In2; [exact P2|exact Hd]|apply In1; assumption].
          -- right. exists (dots (ks ++ [leaf_name d])), (param_of W1 (t_id u, d)). split; [apply In2; assumption|apply In1; assumption].
      + intros m Nm. apply same_dget.
        * intros d. apply L1.
        * intros d Hd. apply L1 in Hd. apply L3; [exact Hd|]. intros key v Hin E. destruct (Match _ _ Hin v E) as (ks & u & u2 & P1 & P2 & L & I1 & _). apply (Nm ks u2 P2); [|exact L]. symmetry. exact I1.
  Qed.

  (** names that the model does not have, and shapes that do not fit *)
  Lemma lora_unknown file (s : lm) root n key : lm_root s = Some root -> tree_ok root n -> In key (dkeys file) ->
    (forall ks u v b, path root ks u -> dget (t_id u) (lm_w s) = Some (v, b) -> key <> dots (ks ++ ["weight"%string]) /\ (b <> None -> key <> dots (ks ++ ["bias"%string]))) ->
    load_lora file s = (s, Err AssertionError).
  Proof.
    intros Er OK Hk N. unfold load_lora. rewrite Er. assert (X : forallb (fun e => dmem (fst e) (state_keys (lm_w s) "" root)) file = false).
    { apply not_true_is_false. rewrite forallb_forall. intros A. apply in_map_iff in Hk as ([k v] & <- & Hin). specialize (A _ Hin). cbn [fst] in *. apply dmem_In in A. apply in_map_iff in A as ([k' p] & E & A). cbn [fst] in E. subst k'.
      apply (key_dots root n) in A as (ks & u & v1 & b1 & P & E1 & -> & _ & Hb); [|exact OK]. destruct (N ks u v1 b1 P E1) as [N1 N2]. destruct (snd p); [apply N2; [apply Hb; reflexivity|reflexivity]|apply N1; reflexivity]. }
    rewrite X. reflexivity.
  Qed.
  Lemma lora_misfit file (s : lm) root n ks u v b x : lm_root s = Some root -> tree_ok root n ->
    (forall key, In key (dkeys file) -> exists ks u v b, path root ks u /\ dget (t_id u) (lm_w s) = Some (v, b) /\ (key = dots (ks ++ ["weight"%string]) \/ (key = dots (ks ++ ["bias"%string]) /\ b <> None))) ->
    path root ks u -> dget (t_id u) (lm_w s) = Some (v, b) -> dget (dots (ks ++ ["weight"%string])) file = Some x -> shape x <> shape v ->
    exists s', load_lora file s = (s', Err RuntimeError).
  Proof.
    intros Er OK A P E Ex Ns. unfold load_lora. rewrite Er.
    assert (X : forallb (fun e => dmem (fst e) (state_keys (lm_w s) "" root)) file = true).
    { apply forallb_forall. intros [key y] Hin. apply (in_map fst) in Hin. cbn [fst] in *. destruct (A key Hin) as (ks' & u' & v' & b' & P' & E' & Ek). apply dmem_In. unfold dkeys. destruct Ek as [->|(-> & Hb)].
      - change (dots (ks' ++ ["weight"%string])) with (fst (dots (ks' ++ [leaf_name false]), (t_id u', false))). apply in_map. apply (key_dots root n); [exact OK|]. exists ks', u', v', b'. repeat (split; [assumption||reflexivity|]). discriminate.
      - change (dots (ks' ++ ["bias"%string])) with (fst (dots (ks' ++ [leaf_name true]), (t_id u', true))). apply in_map. apply (key_dots root n); [exact OK|]. exists ks', u', v', b'. repeat (split; [assumption||reflexivity|]). auto. }
    rewrite X. set (bad := existsb _ _). assert (B : bad = true).
    { apply existsb_exists. exists (dots (ks ++ ["weight"%string]), (t_id u, false)). split.
      - apply (key_dots root n); [exact OK|]. exists ks, u, v, b. repeat (split; [assumption||reflexivity|]). discriminate.
      - cbn [fst snd]. rewrite Ex. unfold param_of. cbn [fst snd]. rewrite E. assert (Y : same_shape (shape x) (shape v) = false) by (apply not_true_is_false; intros Y; apply Ns, same_shape_true, Y). destruct b; rewrite Y; reflexivity. }
    rewrite B. eexists. reflexivity.
  Qed.
End P.
