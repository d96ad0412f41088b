(** Inner products of logs. *)
From Coq Require Import Permutation.
From Verif Require Import Py PyStr Field Tensor ModelGrad Monad ModelState ModelInfluence SpecGrad SpecState SpecInfluence GradProofs1 StateProofs1 StateProofs3.
Local Open Scope nat_scope.

Section Proofs.
  Context {F : Type} `{OField F}.
  Add Field FfI1 : f_theory.
  Notation tensor := (tensor F).
  Notation sval := (@sval F).
  Notation lstate := (@lstate F).
  Notation dten := (@dten F).
  Notation tlog := (@tlog F).

  Lemma dget_map {A B} (f : A -> B) k (d : dict string A) : dget k (map (fun p => (fst p, f (snd p))) d) = option_map f (dget k d).
  Proof. induction d as [|[k' v] d IH]; [reflexivity|]. cbn [map fst snd dget]. destruct (eqb k k'); [reflexivity|exact IH]. Qed.
  Lemma dkeys_map {A B} (f : A -> B) (d : dict string A) : dkeys (map (fun p => (fst p, f (snd p))) d) = dkeys d.
  Proof. unfold dkeys. rewrite map_map. reflexivity. Qed.

  (** operands of one shape *)
  Lemma iadd_same (a b : dten) : shape (snd a) = shape (snd b) -> iadd_ a b = add_ a b.
  Proof. intros E. unfold iadd_, add_. rewrite E, same_shape_refl. reflexivity. Qed.
  (** in-place addition of matrices: rows and columns of size one are repeated *)
  Lemma iadd_mat (a b : dten) n p n' q : shape (snd a) = [n; p] -> shape (snd b) = [n'; q] -> twf (snd a) -> twf (snd b) ->
    iadd_ a b = if dev_eqb (fst a) (fst b) && ((n' =? n) || (n' =? 1)) && ((q =? p) || (q =? 1))
                then Ok (fst a, mgen n p (fun i j => fadd (mget (snd a) i j) (mget (snd b) (at1 n' i) (at1 q j)))) else Err RuntimeError.
  Proof.
    intros Sa Sb Wa Wb. unfold iadd_. destruct (dev_eqb (fst a) (fst b)); [|reflexivity]. cbn [andb]. rewrite Sa, Sb. destruct (same_shape [n; p] [n'; q]) eqn:SS.
    - apply same_shape_true in SS. injection SS as <- <-. rewrite !Nat.eqb_refl. cbn [orb andb]. unfold tadd. destruct (tzip fadd (snd a) (snd b)) as [c|e] eqn:E; [|rewrite tzip_ok in E by congruence; discriminate E].
      cbn [bind]. f_equal. f_equal. apply tensor_ext; [exact (tzip_wf _ _ _ _ Wa Wb E)|apply tgen_wf| |].
      + rewrite tzip_ok in E by congruence. injection E as <-. cbn [shape]. exact Sa.
      + intros idx V. assert (V' : valid (shape (snd a)) idx). { rewrite tzip_ok in E by congruence. injection E as <-. exact V. }
        rewrite (tget_tzip fadd _ _ _ idx Wa Wb E V'). rewrite Sa in V'. unfold mgen. rewrite tget_tgen by exact V'. apply valid2_inv in V'. destruct V' as (i & j & -> & Li & Lj). unfold ix. cbn [nth]. unfold mget. unfold at1. f_equal. f_equal. destruct (Nat.eqb_spec n 1), (Nat.eqb_spec p 1); repeat f_equal; lia.
    - unfold add_wide. rewrite Sa, Sb. unfold bcast, pad_left. cbn [length Nat.sub repeat app bshape]. destruct (Nat.eqb_spec q p) as [->|Nq]; cbn [orb].
      + rewrite !Nat.eqb_refl. cbn [bind]. destruct (Nat.eqb_spec n' n) as [->|Nn]; [rewrite same_shape_refl in SS; discriminate SS|]. destruct (Nat.eqb_spec n n') as [->|_]; [congruence|]. rewrite ?andb_true_r. cbn [orb].
        destruct (Nat.eqb_spec n 1) as [->|N1].
        * destruct (Nat.eqb_spec n' 1) as [->|N2]; [congruence|]. cbn [bind]. destruct (same_shape [n'; p] [1; p]) eqn:S2; [apply same_shape_true in S2; congruence|reflexivity].
        * destruct (Nat.eqb_spec n' 1) as [->|N2]; [|reflexivity]. cbn [bind]. rewrite same_shape_refl. cbn [bind]. f_equal.
      + destruct (Nat.eqb_spec p q) as [->|_]; [congruence|]. cbn [bind]. rewrite andb_comm. destruct (Nat.eqb_spec p 1) as [->|N1].
        * destruct (Nat.eqb_spec q 1) as [->|N2]; [congruence|]. cbn [andb bind]. destruct (n =? n'); [|destruct (n =? 1); [|destruct (n' =? 1); [|reflexivity]]]; cbn [bind]; match goal with |- context [same_shape ?u ?v] => destruct (same_shape u v) eqn:S2; [apply same_shape_true in S2; congruence|reflexivity] end.
        * destruct (Nat.eqb_spec q 1) as [->|N2]; [|reflexivity]. cbn [andb bind]. destruct (Nat.eqb_spec n' n) as [->|Nn]; cbn [orb].
          -- rewrite Nat.eqb_refl. cbn [bind]. rewrite same_shape_refl. cbn [bind]. f_equal.
          -- destruct (Nat.eqb_spec n n') as [->|_]; [congruence|]. destruct (Nat.eqb_spec n 1) as [->|N3].
             ++ destruct (Nat.eqb_spec n' 1) as [->|N2']; [congruence|]. cbn [bind]. destruct (same_shape [n'; p] [1; p]) eqn:S2; [apply same_shape_true in S2; congruence|reflexivity].
             ++ destruct (Nat.eqb_spec n' 1) as [->|N2']; [|reflexivity]. cbn [bind]. rewrite same_shape_refl. cbn [bind]. f_equal.
  Qed.
  Lemma at1_in n i : i < n -> at1 n i = i.
  Proof. intros L. unfold at1. destruct (Nat.eqb_spec n 1); lia. Qed.
  Lemma esize_refl n : esize n n = Ok n.
  Proof. unfold esize. rewrite Nat.eqb_refl. reflexivity. Qed.
  Lemma sandwich_same (u g v : tensor) n a b c d : shape u = [a; b] -> shape g = [n; b; c] -> shape v = [c; d] ->
    sandwich u g v = Ok (tgen [n; a; d] (fun x => sum b (fun p => fmul (mget u (ix 1 x) p)
                (sum c (fun q => fmul (tget g [ix 0 x; p; q]) (mget v q (ix 2 x))))))).
  Proof.
    intros Su Sg Sv. unfold sandwich. rewrite Su, Sg, Sv, !esize_refl. cbn [bind]. f_equal. apply tgen_ext. intros idx _.
    apply sum_ext. intros p Lp. rewrite at1_in by exact Lp. f_equal. apply sum_ext. intros q Lq. rewrite at1_in by exact Lq. reflexivity.
  Qed.
  Lemma clip_valid sh i : valid sh i -> bclip sh i = i.
  Proof. induction 1 as [|x n i' sh' Lx V IH]; [reflexivity|]. cbn [bclip]. rewrite IH. destruct (Nat.eqb_spec n 1); [|reflexivity]. f_equal. lia. Qed.

  Definition leafs (e : dict string dten) : nd sval := Node (map (fun q => (fst q, Leaf (VT (snd q)))) e).
  Lemma log_nd_item (L : tlog) m : nd_item (log_nd L) m = Ok (leafs (match dget m L with Some e => e | None => [] end)).
  Proof. unfold log_nd, nd_item, leafs. rewrite (dget_map (fun e : dict string dten => Node (map (fun q => (fst q, Leaf (VT (snd q)))) e))). destruct (dget m L); reflexivity. Qed.
  Lemma leafs_item (e : dict string dten) t : nd_item (leafs e) t = Ok (match dget t e with Some x => Leaf (VT x) | None => Node [] end).
  Proof. unfold leafs, nd_item. rewrite (dget_map (fun x : dten => Leaf (VT x))). destruct (dget t e); reflexivity. Qed.
  Lemma log_item_look (L : tlog) m t : log_item (log_nd L) m t = match look L m t with Some d => Ok d | None => Err AttributeError end.
  Proof.
    unfold log_item. rewrite log_nd_item. cbn [bind]. rewrite leafs_item. cbn [bind]. unfold look. destruct (dget m L) as [e|]; [|reflexivity].
    destruct (dget t e); reflexivity.
  Qed.
  Lemma factor_look (L : tlog) m : factor (log_nd L) m = match look L m "grad" with Some d => Ok d | None => Err TypeError end.
  Proof.
    unfold factor. rewrite log_nd_item. cbn [bind]. rewrite leafs_item. cbn [bind]. unfold look. destruct (dget m L) as [e|]; [|reflexivity].
    destruct (dget "grad"%string e); reflexivity.
  Qed.
  Lemma log_nd_keys (L : tlog) : nd_keys (log_nd L) = Ok (dkeys L).
  Proof. unfold nd_keys, log_nd. rewrite (dkeys_map (fun e : dict string dten => Node (map (fun q => (fst q, Leaf (VT (snd q)))) e))). reflexivity. Qed.
  Lemma first_item_keys (L : tlog) : first_item (log_nd L) = hd_error (log_keys L).
  Proof.
    unfold first_item, log_nd, log_keys. rewrite map_map. f_equal. f_equal. apply map_ext. intros [m e]. cbn [fst snd].
    unfold dkeys. rewrite !map_map. reflexivity.
  Qed.
  (** the log moved to a device *)
  Definition moved (dv : dev) (L : tlog) : tlog := map (fun p => (fst p, map (fun q => (fst q, (dv, snd (snd q)))) (snd p))) L.
  Lemma move_to_moved dv (L : tlog) : move_to dv (log_nd L) = Ok (log_nd (moved dv L)).
  Proof.
    unfold move_to, log_nd, moved.
    match goal with |- bind (mapM ?f _) _ = _ => assert (X : forall l : tlog, mapM f (map (fun p => (fst p, Node (map (fun q => (fst q, Leaf (VT (snd q)))) (snd p)))) l)
      = Ok (map (fun p => (fst p, Node (map (fun q => (fst q, Leaf (VT (snd q)))) (map (fun q => (fst q, (dv, snd (snd q)))) (snd p))))) l)) end.
    { induction l as [|[m e] l IH]; [reflexivity|]. cbn [map fst snd mapM].
      match goal with |- context [mapM ?f (map _ e)] => assert (Y : forall e : dict string dten, mapM f (map (fun q => (fst q, Leaf (VT (snd q)))) e)
        = Ok (map (fun q => (fst q, Leaf (VT (snd q)))) (map (fun q => (fst q, (dv, snd (snd q)))) e))) end.
      { clear. induction e as [|[t d] e IH]; [reflexivity|]. cbn [map fst snd mapM as_dten bind]. rewrite IH. reflexivity. }
      rewrite Y. cbn [bind]. rewrite IH. reflexivity. }
    rewrite X. cbn [bind]. rewrite map_map. reflexivity.
  Qed.
  Lemma look_moved dv (L : tlog) m t : look (moved dv L) m t = option_map (fun d => (dv, snd d)) (look L m t).
  Proof.
    unfold look, moved. rewrite (dget_map (fun e : dict string dten => map (fun q => (fst q, (dv, snd (snd q)))) e)).
    destruct (dget m L) as [e|]; [|reflexivity]. cbn [option_map]. apply (dget_map (fun x : dten => (dv, snd x))).
  Qed.
  Lemma sync_ok dv (A B : tlog) : head_on dv A B -> log_keys B <> [] -> synchronize_device (log_nd A) (log_nd B) = Ok (log_nd (moved dv B)).
  Proof.
    intros Hd N. unfold synchronize_device. rewrite first_item_keys. unfold head_on in Hd. destruct (log_keys B) as [|[m t] r]; [congruence|].
    destruct Hd as (x & E). cbn [hd_error]. rewrite log_item_look, E. cbn [bind fst]. rewrite move_to_moved. reflexivity.
  Qed.

  Lemma slice_data n rest (d : list F) a : length d = n * prod rest -> a < n ->
    data (slice (T (n :: rest) d) a) = map (fun p => mget (T [n; prod rest] d) a p) (seq 0 (prod rest)).
  Proof.
    intros L La. unfold slice. cbn [shape tl data]. assert (B : (a + 1) * prod rest <= n * prod rest) by (apply Nat.mul_le_mono_r; lia).
    apply list_ext.
    - rewrite firstn_length, skipn_length, map_length, seq_length. lia.
    - intros q Lq. rewrite firstn_length, skipn_length in Lq. rewrite nth_firstn_skipn by lia.
      rewrite nth_map_seq by lia. unfold mget, tget. cbn [shape data ravel]. f_equal.
      change (prod [prod rest]) with (prod rest * 1). change (prod []) with 1. lia.
  Qed.
  Lemma dot_slices n k rest (d e : list F) i j : length d = n * prod rest -> length e = k * prod rest -> i < n -> j < k ->
    dot (slice (T (n :: rest) d) i) (slice (T (k :: rest) e) j) = sum (prod rest) (fun p => fmul (mget (T [n; prod rest] d) i p) (mget (T [k; prod rest] e) j p)).
  Proof.
    intros Ld Le Li Lj. unfold dot. rewrite (slice_data n rest d i Ld Li), (slice_data k rest e j Le Lj). rewrite map_length, seq_length. apply sum_ext. intros p Lp.
    rewrite !nth_map_seq by exact Lp. reflexivity.
  Qed.
  Lemma mgen_ext n m (f g : nat -> nat -> F) : (forall i j, i < n -> j < m -> f i j = g i j) -> mgen n m f = mgen n m g.
  Proof.
    intros E. unfold mgen. apply tgen_ext. intros idx V. apply valid2_inv in V. destruct V as (i & j & -> & Li & Lj). cbn [nth]. apply E; assumption.
  Qed.
  Lemma cross_ok dv n k rest (a b : tensor) : shape a = n :: rest -> shape b = k :: rest -> twf a -> twf b ->
    cross_dot_product (dv, a) (dv, b) = Ok (dv, mgen n k (fun i j => dot (slice a i) (slice b j))).
  Proof.
    intros Sa Sb Wa Wb. unfold cross_dot_product. cbn [fst snd]. rewrite Sa, Sb. cbn [tl]. rewrite same_shape_refl.
    replace (dev_eqb dv dv) with true by (destruct dv; reflexivity). f_equal. f_equal. apply mgen_ext. intros i j Li Lj.
    destruct a as [sa da], b as [sb db]. cbn [shape data] in *. subst. symmetry. apply dot_slices; try assumption; unfold twf in *; cbn [shape data] in *; rewrite ?prod_cons in *; assumption.
  Qed.
  Lemma mgen_add n m (f g : nat -> nat -> F) : tadd (mgen n m f) (mgen n m g) = Ok (mgen n m (fun i j => fadd (f i j) (g i j))).
  Proof.
    unfold tadd. rewrite tzip_ok by reflexivity. f_equal. apply (mat_ext n m); try reflexivity.
    - unfold twf. cbn [shape data]. rewrite zipw_length; unfold mgen, tgen; cbn [shape data]; rewrite ?map_length, ?seq_length; reflexivity.
    - apply tgen_wf.
    - intros i j Li Lj. rewrite mget_mgen by assumption.
      assert (Z : tzip fadd (mgen n m f) (mgen n m g) = Ok (T (shape (mgen n m f)) (zipw fadd (data (mgen n m f)) (data (mgen n m g))))) by (apply tzip_ok; reflexivity).
      unfold mget. rewrite (tget_tzip fadd (mgen n m f) (mgen n m g) _ [i; j] (tgen_wf _ _) (tgen_wf _ _) Z (valid2 n m i j Li Lj)).
      fold (mget (mgen n m f) i j) (mget (mgen n m g) i j). rewrite !mget_mgen by assumption. reflexivity.
  Qed.
  Lemma vgen_add n (f g : list nat -> F) : tadd (tgen [n] f) (tgen [n] g) = Ok (tgen [n] (fun i => fadd (f i) (g i))).
  Proof.
    unfold tadd. rewrite tzip_ok by reflexivity. f_equal. apply tensor_ext; try reflexivity.
    - unfold twf. cbn [shape data]. rewrite zipw_length; unfold tgen; cbn [shape data]; rewrite ?map_length, ?seq_length; reflexivity.
    - apply tgen_wf.
    - intros idx V. change (valid [n] idx) in V.
      assert (Z : tzip fadd (tgen [n] f) (tgen [n] g) = Ok (T (shape (tgen [n] f)) (zipw fadd (data (tgen [n] f)) (data (tgen [n] g))))) by (apply tzip_ok; reflexivity).
      rewrite (tget_tzip fadd (tgen [n] f) (tgen [n] g) _ idx (tgen_wf _ _) (tgen_wf _ _) Z V). rewrite !tget_tgen by exact V. reflexivity.
  Qed.

  (** the score dictionary: "total" and the groups, each accumulating the modules it contains *)
  Section Accumulate.
    Variable acc : list string -> dten.
    Hypothesis acc_add : forall l m, l <> [] -> iadd_ (acc l) (acc [m]) = Ok (acc (l ++ [m])).
    Definition val (l : list string) : option dten := match l with [] => None | _ => Some (acc l) end.
    Definition form (groups : option (list string)) (done : list string) : @scores F :=
      ("total"%string, val done) :: map (fun g => (g, val (in_group g done))) (match groups with Some l => l | None => [] end).
    Lemma dget_fun {A} (f : string -> A) gs g : In g gs -> dget g (map (fun g => (g, f g)) gs) = Some (f g).
    Proof.
      induction gs as [|h gs IH]; intros I; [contradiction|]. cbn [map dget]. destruct (eqb_spec g h) as [->|N]; [reflexivity|].
      apply IH. destruct I; [congruence|assumption].
    Qed.
    Lemma dset_fun {A} (f : string -> A) gs g v : NoDup gs -> In g gs -> dset g v (map (fun g => (g, f g)) gs) = map (fun h => (h, if String.eqb h g then v else f h)) gs.
    Proof.
      induction 1 as [|h gs N Nd IH]; intros I; [contradiction|]. cbn [map dset]. destruct (eqb_spec g h) as [<-|N'].
      - rewrite String.eqb_refl. f_equal. apply map_ext_in. intros x Ix. destruct (String.eqb_spec x g) as [->|]; [contradiction|reflexivity].
      - destruct I as [->|I]; [congruence|]. rewrite IH by exact I. destruct (String.eqb_spec h g) as [->|]; [congruence|reflexivity].
    Qed.
    Lemma val_add l m : (match val l with None => Ok (acc [m]) | Some a => iadd_ a (acc [m]) end) = Ok (acc (l ++ [m])).
    Proof. destruct l; [reflexivity|]. cbn [val]. apply acc_add. discriminate. Qed.
    Lemma add_groups m (f : string -> list string) gs : NoDup gs -> forall ks, NoDup ks -> (forall g, In g ks -> In g gs) ->
      forall t, ~ In "total"%string gs ->
      foldM (add_score (acc [m])) ks (("total"%string, t) :: map (fun g => (g, val (f g))) gs) =
      Ok (("total"%string, t) :: map (fun g => (g, val (if mem g ks then f g ++ [m] else f g))) gs).
    Proof.
      intros Ng ks Nk. revert f. induction Nk as [|k ks Nk1 Nk IH]; intros f Sub t Nt; [reflexivity|]. cbn [foldM]. unfold add_score at 1.
      assert (Ik : In k gs) by (apply Sub; left; reflexivity).
      assert (Nek : k <> "total"%string) by (intros ->; contradiction).
      unfold dgetM. cbn [dget]. rewrite (eqb_neq k "total"%string Nek). rewrite (dget_fun (fun g => val (f g)) gs k Ik). cbn [bind]. rewrite val_add. cbn [bind dset].
      rewrite (eqb_neq k "total"%string Nek). rewrite (dset_fun (fun g => val (f g)) gs k _ Ng Ik).
      rewrite (map_ext_in _ (fun h => (h, val (if String.eqb h k then f h ++ [m] else f h)))).
      - rewrite (IH (fun h => if String.eqb h k then f h ++ [m] else f h)); [|intros g I; apply Sub; right; exact I|exact Nt]. f_equal. f_equal. apply map_ext. intros h. f_equal. f_equal.
        cbn [mem]. change (eqb h k) with (String.eqb h k). destruct (String.eqb_spec h k) as [->|]; [|reflexivity]. destruct (mem k ks) eqn:M; [|reflexivity]. apply mem_In in M. contradiction.
      - intros h Ih. destruct (String.eqb_spec h k) as [->|]; [|reflexivity]. f_equal. destruct (f k); reflexivity.
    Qed.
    Lemma init_form groups : groups_ok groups -> init_scores groups = form groups [].
    Proof.
      destruct groups as [gs|]; intros G; [|reflexivity]. unfold init_scores, form. cbn [val groups_ok] in *. inversion G as [|? ? N1 N2]; subst.
      assert (K : forall l pre, NoDup (pre ++ l) -> ~ In "total"%string (pre ++ l) ->
        fold_left (fun d g => dset g None d) l (("total"%string, None) :: map (fun g => (g, None)) pre) = ("total"%string, None) :: map (fun g : string => (g, @None dten)) (pre ++ l)).
      { induction l as [|a l IH]; intros pre Nd Nt; [rewrite app_nil_r; reflexivity|]. cbn [fold_left dset]. rewrite (eqb_neq a "total"%string) by (intros ->; apply Nt; apply in_or_app; right; left; reflexivity).
        rewrite dset_notin.
        - replace (map (fun g : string => (g, None)) pre ++ [(a, None)]) with (map (fun g : string => (g, @None dten)) (pre ++ [a])) by (rewrite map_app; reflexivity).
          rewrite IH; rewrite <- app_assoc; [reflexivity|exact Nd|exact Nt].
        - unfold dkeys. rewrite map_map. cbn [fst]. rewrite map_id. apply NoDup_remove_2 in Nd. intros I. apply Nd. apply in_or_app. left. exact I. }
      exact (K gs [] N2 N1).
    Qed.
    Lemma add_module_form groups done m : groups_ok groups -> add_module groups m (acc [m]) (form groups done) = Ok (form groups (done ++ [m])).
    Proof.
      intros G. unfold add_module, form, add_score. unfold dgetM. cbn [dget]. rewrite eqb_refl. cbn [bind]. rewrite val_add. cbn [bind dset]. rewrite eqb_refl.
      replace (Some (acc (done ++ [m]))) with (val (done ++ [m])) by (destruct done; reflexivity). destruct groups as [gs|]; [|reflexivity].
      cbn in G. inversion G as [|? ? N1 N2]; subst. fold (add_score (acc [m])).
      change (foldM (add_score (acc [m])) (filter (fun g => contains g m) gs) (("total"%string, val (done ++ [m])) :: map (fun g => (g, val ((fun g => in_group g done) g))) gs) = Ok (("total"%string, val (done ++ [m])) :: map (fun g => (g, val (in_group g (done ++ [m])))) gs)).
      rewrite add_groups; [| exact N2 | apply NoDup_filter; exact N2 | intros g I; apply filter_In in I; apply I | exact N1].
      f_equal. f_equal. apply map_ext_in. intros g Ig. f_equal. unfold in_group. rewrite filter_app. cbn [filter]. destruct (contains g m) eqn:C.
      - replace (mem g (filter (fun g => contains g m) gs)) with true; [reflexivity|]. symmetry. apply mem_In. apply filter_In. auto.
      - replace (mem g (filter (fun g => contains g m) gs)) with false; [rewrite app_nil_r; reflexivity|]. symmetry. apply mem_false. intros I. apply filter_In in I. destruct I. congruence.
    Qed.
    Lemma add_modules_form (step : @scores F -> string -> res (@scores F)) groups ms : groups_ok groups ->
      (forall d m, In m ms -> step d m = add_module groups m (acc [m]) d) -> forall done, foldM step ms (form groups done) = Ok (form groups (done ++ ms)).
    Proof.
      intros G. induction ms as [|m ms IH]; intros St done; [rewrite app_nil_r; reflexivity|]. cbn [foldM]. rewrite (St _ m (or_introl eq_refl)), add_module_form by exact G. cbn [bind].
      rewrite IH by (intros d m' I; apply St; right; exact I). rewrite <- app_assoc. reflexivity.
    Qed.
  End Accumulate.

  (** the final dictionary *)
  Lemma finish (acc : list string -> dten) chk groups ms : ms <> [] -> groups_hit groups ms ->
    (forall l, l <> [] -> chk (Some (acc l)) = Ok (snd (acc l))) ->
    (let* vals := mapM (fun p : string * option dten => let* v := chk (snd p) in Ok (fst p, v)) (form acc groups ms) in pick groups vals) =
    Ok (final (fun l => snd (acc l)) groups ms).
  Proof.
    intros Ne Hit C. unfold form. cbn [mapM snd fst]. destruct ms as [|m0 ms0]; [congruence|]. cbn [val]. rewrite C by discriminate. cbn [bind].
    set (ms := m0 :: ms0) in *.
    assert (K : forall gs, (forall g, In g gs -> in_group g ms <> []) ->
      mapM (fun p : string * option dten => let* v := chk (snd p) in Ok (fst p, v)) (map (fun g => (g, val acc (in_group g ms))) gs) = Ok (map (fun g => (g, snd (acc (in_group g ms)))) gs)).
    { induction gs as [|g gs IH]; intros P; [reflexivity|]. cbn [map mapM snd fst]. pose proof (P g (or_introl eq_refl)) as N.
      replace (val acc (in_group g ms)) with (Some (acc (in_group g ms))) by (destruct (in_group g ms); [congruence|reflexivity]).
      rewrite C by exact N. cbn [bind]. rewrite IH by (intros h I; apply P; right; exact I). reflexivity. }
    destruct groups as [gs|]; cbn [pick final]; [rewrite (K gs Hit)|]; cbn; reflexivity.
  Qed.
End Proofs.
