(** Batches of the training log. *)
From Verif Require Import Py PyStr Field Tensor ModelGrad Monad ModelState ModelInfluence SpecGrad SpecState SpecInfluence GradProofs1 GradProofs2 StateProofs1 StateProofs3 StateProofs7 StateProofs10 InfAlg InfProofs1 InfProofs2 InfProofs3 InfProofs4 InfProofs5 InfProofs6 InfProofs8 InfProofs9.
Local Open Scope string_scope.
Local Open Scope list_scope.
Local Open Scope nat_scope.

Section Proofs.
  Context {F : Type} `{OField F}.
  Add Field FfI10 : f_theory.
  Notation tensor := (tensor F).
  Notation sval := (@sval F).
  Notation lstate := (@lstate F).
  Notation dten := (@dten F).
  Notation tlog := (@tlog F).
  Variable eigh : tensor -> res (tensor * tensor).
  Variable inverse : tensor -> res tensor.
  Variable fsqrt : F -> F.
  Notation precondition := (precondition eigh inverse).
  Notation compute_influence := (compute_influence eigh inverse fsqrt).
  Notation influence_all := (influence_all eigh inverse fsqrt).
  Notation influence_loop := (influence_loop eigh inverse fsqrt).
  Notation prec_step := (prec_step eigh inverse).

  (** rows and parts *)
  Lemma slice_rows off k j (t : tensor) : j < k -> slice (rows off k t) j = slice t (off + j).
  Proof.
    intros L. unfold slice, rows. cbn [shape tl data]. f_equal. set (w := prod (tl (shape t))). rewrite skipn_firstn_comm, skipn_skipn, firstn_firstn.
    replace (j * w + off * w) with ((off + j) * w) by lia. replace (Nat.min w (k * w - j * w)) with w; [reflexivity|]. symmetry. apply Nat.min_l. rewrite <- Nat.mul_sub_distr_r. assert (1 * w <= (k - j) * w) by (apply Nat.mul_le_mono_r; lia). lia.
  Qed.
  Lemma rows_shape off k (t : tensor) n r : shape t = n :: r -> shape (rows off k t) = k :: r.
  Proof. intros E. unfold rows. rewrite E. reflexivity. Qed.
  Lemma rows_wf off k (t : tensor) n r : shape t = n :: r -> twf t -> off + k <= n -> twf (rows off k t).
  Proof.
    intros E W L. unfold twf, rows in *. rewrite E in W |- *. cbn [shape tl data]. rewrite (prod_cons n r) in W. rewrite (prod_cons k r). rewrite firstn_length, skipn_length, W. apply Nat.min_l. rewrite <- Nat.mul_sub_distr_r. apply Nat.mul_le_mono_r. lia.
  Qed.
  Lemma part_look off k (L : tlog) m t : look (part off k L) m t = option_map (fun d => (fst d, rows off k (snd d))) (look L m t).
  Proof.
    unfold look, part. rewrite (dget_map (fun e : dict string dten => map (fun q => (fst q, (fst (snd q), rows off k (snd (snd q))))) e)). destruct (dget m L) as [e|]; [|reflexivity]. cbn [option_map].
    rewrite (dget_map (fun d : dten => (fst d, rows off k (snd d)))). reflexivity.
  Qed.
  Lemma part_grad off k (L : tlog) m : grad_of (part off k L) m = option_map (fun d => (fst d, rows off k (snd d))) (grad_of L m).
  Proof. apply part_look. Qed.
  Lemma part_keys off k (L : tlog) : dkeys (part off k L) = dkeys L.
  Proof. unfold part, dkeys. rewrite map_map. reflexivity. Qed.
  Lemma part_log_keys off k (L : tlog) : log_keys (part off k L) = log_keys L.
  Proof. unfold part, log_keys. rewrite map_map. f_equal. apply map_ext. intros p. cbn [snd fst]. rewrite map_map. reflexivity. Qed.
  Lemma part_plain dv n off k (L : tlog) : plain_log dv n L -> off + k <= n -> plain_log dv k (part off k L).
  Proof.
    intros (N & Q) Lk. split; [rewrite part_keys; exact N|]. intros m I. rewrite part_keys in I. destruct (Q m I) as (a & i & j & G & Sa & Wa). exists (rows off k a), i, j.
    split; [rewrite part_grad, G; reflexivity|]. split; [apply (rows_shape off k a n); exact Sa|]. apply (rows_wf off k a n [i; j] Sa Wa Lk).
  Qed.
  Lemma part_within off k (A B : tlog) n dv : plain_log dv n B -> within A B -> within A (part off k B).
  Proof.
    intros (N & Q) W m a G. destruct (W m a G) as (b & Gb & S). exists (fst b, rows off k (snd b)). split; [rewrite part_grad, Gb; reflexivity|]. unfold rows. cbn [shape snd tl]. exact S.
  Qed.
  Lemma part_first off k (B : tlog) : grad_first B -> grad_first (part off k B).
  Proof. unfold grad_first. rewrite part_log_keys. auto. Qed.
  Lemma part_on dv off k (B : tlog) : all_on dv B -> all_on dv (part off k B).
  Proof.
    unfold all_on, part. rewrite !Forall_forall. intros AO p I. apply in_map_iff in I. destruct I as (q & <- & I). cbn [snd]. specialize (AO q I). rewrite Forall_forall in *. intros x J. apply in_map_iff in J. destruct J as (y & <- & J). cbn [snd fst]. apply AO. exact J.
  Qed.
  Lemma gdot_part off k (A B : tlog) i j m : j < k -> gdot A (part off k B) i j m = gdot A B i (off + j) m.
  Proof. intros L. unfold gdot. rewrite part_grad. destruct (grad_of A m); [|reflexivity]. destruct (grad_of B m) as [b|]; [|reflexivity]. cbn [option_map snd]. rewrite slice_rows by exact L. reflexivity. Qed.
  Lemma score_part off k (A B : tlog) l i j : j < k -> score A (part off k B) l i j = score A B l i (off + j).
  Proof. intros L. unfold score. f_equal. apply map_ext. intros m. apply gdot_part. exact L. Qed.

  (** the loop *)
  Definition outcome (n k : nat) (W : option string -> nat -> nat -> F) (groups : option (list string)) : @ival F :=
    match groups with
    | None => Mat (mgen n k (W None))
    | Some gs => Grp (("total", mgen n k (W None)) :: map (fun g => (g, mgen n k (W (Some g)))) gs)
    end.
  Lemma tcat1_mgen n k l (f g : nat -> nat -> F) : tcat1 (mgen n k f) (mgen n l g) = Ok (mgen n (k + l) (fun i j => if j <? k then f i j else g i (j - k))).
  Proof.
    unfold tcat1. rewrite !shape_mgen, Nat.eqb_refl. f_equal. apply mgen_ext. intros i j Li Lj. destruct (Nat.ltb_spec j k); rewrite mget_mgen by lia; reflexivity.
  Qed.
  Lemma merge_outcome n k l W groups : groups_ok groups -> merge_val false (outcome n k W groups) (outcome n l (fun g i j => W g i (k + j)) groups) = Ok (outcome n (k + l) W groups).
  Proof.
    intros GO. assert (E : forall g, tcat1 (mgen n k (W g)) (mgen n l (fun i j => W g i (k + j))) = Ok (mgen n (k + l) (W g))).
    { intros g. rewrite tcat1_mgen. f_equal. apply mgen_ext. intros i j Li Lj. destruct (Nat.ltb_spec j k); [reflexivity|]. f_equal. lia. }
    destruct groups as [gs|]; unfold outcome, merge_val.
    - unfold cat_groups. cbn [mapM fst snd]. unfold dgetM at 1. cbn [dget]. rewrite eqb_refl. cbn [bind]. unfold cat_axis at 1. rewrite E. cbn [bind].
      cbn [groups_ok] in GO. assert (M : forall hs, incl hs gs -> mapM (fun p : string * tensor => let* t := dgetM (fst p) (("total", mgen n l (fun i j => W None i (k + j))) :: map (fun g => (g, mgen n l (fun i j => W (Some g) i (k + j)))) gs) in let* c := cat_axis false (snd p) t in Ok (fst p, c)) (map (fun g => (g, mgen n k (W (Some g)))) hs) = Ok (map (fun g => (g, mgen n (k + l) (W (Some g)))) hs)).
      { induction hs as [|g hs IH]; intros I; [reflexivity|]. cbn [map mapM fst snd]. unfold dgetM at 1. cbn [dget]. rewrite eqb_neq.
        - rewrite (dget_keymap (fun g => mgen n l (fun i j => W (Some g) i (k + j))) gs g) by (apply I; left; reflexivity). cbn [bind]. unfold cat_axis at 1. rewrite E. cbn [bind]. rewrite IH by (intros x J; apply I; right; exact J). reflexivity.
        - intros ->. inversion GO as [|? ? Nt _]. apply Nt. apply I. left. reflexivity. }
      rewrite M by apply incl_refl. reflexivity.
    - unfold cat_axis. rewrite E. reflexivity.
  Qed.
  Lemma firstn_plus {A} (l : list A) off k : firstn off l ++ firstn k (skipn off l) = firstn (off + k) l.
  Proof. revert l. induction off as [|off IH]; intros [|x l]; cbn; rewrite ?firstn_nil; [reflexivity..|]. f_equal. apply IH. Qed.
  Lemma loop_ok sl mode h groups d (B : tlog) sids tids W (s1 : lstate) : groups_ok groups ->
    (forall off k, k <> 0 -> off + k <= length tids -> compute_influence sl (firstn k (skipn off tids), Nest (log_nd (part off k B))) mode false h groups d s1 =
        (s1, Ok (InfRes sids (firstn k (skipn off tids)) (outcome (length sids) k (fun g i j => W g i (off + j)) groups)))) ->
    forall ks off, Forall (fun k => k <> 0) ks -> off + fold_right Nat.add 0 ks = length tids ->
    influence_loop sl (batches off ks tids B) mode h groups d (Some (InfRes sids (firstn off tids) (outcome (length sids) off W groups))) s1 =
    (s1, Ok (Some (InfRes sids tids (outcome (length sids) (length tids) W groups)))).
  Proof.
    intros GO ST. induction ks as [|k ks IH]; intros off NZ SM.
    - cbn in SM. replace off with (length tids) by lia. rewrite firstn_all. reflexivity.
    - inversion NZ as [|? ? Nk NZ']. subst. cbn [fold_right] in SM. cbn [batches ModelInfluence.influence_loop]. rewrite (sbind_run _ _ _ _ _ (ST off k Nk ltac:(lia))). unfold lift at 1. unfold sbind at 1. cbn [merge_tgt i_val i_src i_tgt]. rewrite (merge_outcome _ off k W groups GO). cbn [bind].
      rewrite firstn_plus. apply (IH (off + k) NZ'). lia.
  Qed.
  Lemma all_ok sl mode h groups d (B : tlog) sids tids W ks (s s1 : lstate) : groups_ok groups -> splits ks (length tids) ->
    (forall s0 off k, s0 = s \/ s0 = s1 -> k <> 0 -> off + k <= length tids -> compute_influence sl (firstn k (skipn off tids), Nest (log_nd (part off k B))) mode false h groups d s0 =
        (s1, Ok (InfRes sids (firstn k (skipn off tids)) (outcome (length sids) k (fun g i j => W g i (off + j)) groups)))) ->
    influence_loop sl (batches 0 ks tids B) mode h groups d None s = (s1, Ok (Some (InfRes sids tids (outcome (length sids) (length tids) W groups)))).
  Proof.
    intros GO (NE & NZ & SM) ST. destruct ks as [|k ks]; [congruence|]. inversion NZ as [|? ? Nk NZ']. subst. cbn [fold_right] in SM. cbn [batches ModelInfluence.influence_loop].
    rewrite (sbind_run _ _ _ _ _ (ST s 0 k (or_introl eq_refl) Nk ltac:(lia))). unfold lift at 1. unfold sbind at 1. cbn [merge_tgt]. cbn [Nat.add skipn].
    apply (loop_ok sl mode h groups d B sids tids W s1 GO (fun off k => ST s1 off k (or_intror eq_refl)) ks k NZ' SM).
  Qed.
  Definition gms (ms : list string) (g : option string) : list string := match g with None => ms | Some x => in_group x ms end.
  Lemma final_outcome n k (f : list string -> nat -> nat -> F) groups ms : final (fun l => mgen n k (f l)) groups ms = outcome n k (fun g => f (gms ms g)) groups.
  Proof. destruct groups; reflexivity. Qed.
  Lemma outcome_ext n k W W' groups : (forall g i j, i < n -> j < k -> W g i j = W' g i j) -> outcome n k W groups = outcome n k W' groups.
  Proof.
    intros E. unfold outcome. destruct groups as [gs|]; f_equal; [f_equal|]; [f_equal; apply mgen_ext; intros; apply E; assumption| |apply mgen_ext; intros; apply E; assumption].
    apply map_ext. intros g. f_equal. apply mgen_ext. intros; apply E; assumption.
  Qed.
  Lemma influence_all_prec A loader mode prec h groups d (s s1 : lstate) sids r : prec_step prec (sids, Nest (log_nd A)) d h s = (s1, r) ->
    influence_all (sids, Nest (log_nd A)) loader mode prec h groups d s = match r with Ok sl => influence_loop sl loader mode h groups d None s1 | Err e => (s1, Err e) end.
  Proof. intros E. unfold ModelInfluence.influence_all. unfold InfProofs2.prec_step in E. unfold sbind. rewrite E. destruct r; reflexivity. Qed.
  Lemma ids_length {A} (l : list A) off k : off + k <= length l -> length (firstn k (skipn off l)) = k.
  Proof. intros L. rewrite firstn_length, skipn_length. lia. Qed.

  Theorem batches_dot dv A B prec h groups d (s : lstate) sids tids ks : A <> [] -> plain_log dv (length sids) A -> plain_log dv (length tids) B -> within A B -> keeps_shapes (prec_step prec (sids, Nest (log_nd A)) d h) A s -> grad_first B -> (forall m, In m (dkeys B) -> In m (dkeys A)) ->
    groups_ok groups -> groups_hit groups (dkeys A) -> splits ks (length tids) ->
    influence_all (sids, Nest (log_nd A)) (batches 0 ks tids B) "dot" prec h groups d s =
    (let (s', r) := compute_influence (sids, Nest (log_nd A)) (tids, Nest (log_nd B)) "dot" prec h groups d s in (s', let* x := r in Ok (Some x))).
  Proof.
    intros NA PA PB WI KS GF SUB GO GH SP. destruct (prec_step prec (sids, Nest (log_nd A)) d h s) as [s1 [r|e]] eqn:E; rewrite (influence_all_prec A _ "dot" prec h groups d s s1 sids _ E).
    2: { rewrite (influence_prec_err eigh inverse fsqrt A (Nest (log_nd B)) "dot" prec h groups d s s1 sids tids e eq_refl E). reflexivity. }
    destruct (prec_out eigh inverse sids dv (length sids) A prec d h s s1 r PA KS E) as (P & -> & K & TW & _).
    rewrite (influence_prec eigh inverse fsqrt A (Nest (log_nd B)) "dot" prec h groups d s s1 sids tids P eq_refl E).
    assert (NP : P <> []) by (intros ->; apply NA; destruct A; [reflexivity|discriminate K]). rewrite <- K in GH.
    rewrite (influence_dot eigh inverse fsqrt dv P B sids tids groups h d s1 NP GO GH); [|intros m I; rewrite K in I; eapply within_paired; eauto|exact (head_prec dv (length sids) A P B PA TW GF SUB)]. cbn [bind].
    unfold score_matrix. rewrite final_outcome. apply (all_ok _ "dot" h groups d B sids tids (fun g => score P B (gms (dkeys P) g)) ks s1 s1 GO SP).
    intros s0 off k S0 Nk Lk. assert (s0 = s1) as -> by (destruct S0; assumption). pose proof (part_plain dv (length tids) off k B PB Lk) as PP. pose proof (ids_length tids off k Lk) as LI.
    rewrite (influence_dot eigh inverse fsqrt dv P (part off k B) sids (firstn k (skipn off tids)) groups h d s1 NP GO GH).
    - f_equal. f_equal. f_equal. rewrite LI. unfold score_matrix. rewrite final_outcome. apply outcome_ext. intros g i j _ Lj. apply score_part. exact Lj.
    - intros m I. rewrite K in I. rewrite LI. apply (within_paired dv (length sids) k A P (part off k B) m PA PP); [|apply TW; exact I]. eapply part_within; eauto.
    - apply (head_prec dv (length sids) A P (part off k B) PA TW); [apply part_first; exact GF|rewrite part_keys; exact SUB].
  Qed.

  (** l2 and cosine: preconditioning must treat every sample on its own *)
  Definition rowwise (h : string) (d : option F) (B Q : tlog) (n : nat) (s s1 : lstate) : Prop :=
    exists Qf : nat -> nat -> tlog, forall s0 ids off k, s0 = s \/ s0 = s1 -> k <> 0 -> off + k <= n ->
      precondition (ids, Nest (log_nd (part off k B))) d h s0 = (s1, Ok (ids, Nest (log_nd (Qf off k)))) /\
      (forall m, In m (dkeys B) -> twin_grads Cpu k (part off k B) (Qf off k) m) /\
      (forall m j, In m (dkeys B) -> j < k -> gdot (part off k B) (Qf off k) j j m = gdot B Q (off + j) (off + j) m).
  Theorem batches_adjusted A B mode prec h groups d (s s1 s2 : lstate) sids tids ks P Q : mode = "l2" \/ mode = "cosine" -> A <> [] ->
    plain_log Cpu (length sids) A -> plain_log Cpu (length tids) B -> all_on Cpu B -> within A B -> grad_first B -> (forall m, In m (dkeys B) -> In m (dkeys A)) ->
    groups_ok groups -> groups_hit groups (dkeys A) -> splits ks (length tids) ->
    prec_step prec (sids, Nest (log_nd A)) d h s = (s1, Ok (sids, Nest (log_nd P))) ->
    precondition (tids, Nest (log_nd B)) d h s1 = (s2, Ok (tids, Nest (log_nd Q))) -> same_sizes A P -> same_sizes B Q -> rowwise h d B Q (length tids) s1 s2 ->
    exists r, compute_influence (sids, Nest (log_nd A)) (tids, Nest (log_nd B)) mode prec h groups d s = (s2, Ok r) /\
      influence_all (sids, Nest (log_nd A)) (batches 0 ks tids B) mode prec h groups d s = (s2, Ok (Some r)).
  Proof.
    intros MD NA PA PB AO WI GF SUB GO GH SP E EQ SA SB (Qf & RW). assert (MM : mem mode ["dot"; "l2"; "cosine"] = true) by (destruct MD as [-> | ->]; reflexivity).
    rewrite (influence_all_prec A _ mode prec h groups d s s1 sids _ E). rewrite (influence_prec eigh inverse fsqrt A (Nest (log_nd B)) mode prec h groups d s s1 sids tids P MM E).
    destruct (prec_twins eigh inverse sids Cpu (length sids) A P prec d h s s1 PA E SA) as (K & TW).
    destruct (prec_twins eigh inverse tids Cpu (length tids) B Q true d h s1 s2 PB EQ SB) as (KQ & TQ).
    assert (NP : P <> []) by (intros ->; apply NA; destruct A; [reflexivity|discriminate K]).
    assert (INC : forall m, In m (dkeys A) -> In m (dkeys B)). { intros m I. destruct PA as (_ & PA'). destruct (PA' m I) as (a & i & j & G & _). destruct (WI m _ G) as (b & Gb & _). eapply look_in. exact Gb. }
    assert (GHB : groups_hit groups (dkeys B)). { unfold groups_hit in *. destruct groups as [gs|]; [|exact Logic.I]. intros g Ig E0. apply (GH g Ig). destruct (in_group g (dkeys A)) as [|x r] eqn:EG; [reflexivity|]. exfalso.
      assert (X : In x (in_group g (dkeys A))) by (rewrite EG; left; reflexivity). unfold in_group in *. apply filter_In in X. destruct X as (X1 & X2). assert (Y : In x (filter (contains g) (dkeys B))) by (apply filter_In; auto). rewrite E0 in Y. contradiction. }
    assert (NB : B <> []). { destruct A as [|[m e] A]; [congruence|]. intros ->. apply (INC m). left. reflexivity. }
    rewrite <- K in GH. eexists. split.
    - rewrite (influence_adjust eigh inverse fsqrt Cpu P B mode h groups d s1 s2 sids tids Q tids MD NP NB GO GH GHB); rewrite ?(all_moved Cpu B AO); [reflexivity|intros m I; rewrite K in I; eapply within_paired; eauto|exact (head_prec Cpu (length sids) A P B PA TW GF SUB)|exact EQ|exact TQ].
    - unfold score_matrix.
      rewrite (combine_final (adj fsqrt mode) (length sids) (length tids) (score P B) (fun l j => score B Q l j j) groups (dkeys P) (dkeys B) GO).
      change (match groups with None => Mat (mgen (length sids) (length tids) (fun i j => adj fsqrt mode (score P B (dkeys P) i j) (score B Q (dkeys B) j j)))
                            | Some gs => Grp (("total", mgen (length sids) (length tids) (fun i j => adj fsqrt mode (score P B (dkeys P) i j) (score B Q (dkeys B) j j))) :: map (fun g => (g, mgen (length sids) (length tids) (fun i j => adj fsqrt mode (score P B (in_group g (dkeys P)) i j) (score B Q (in_group g (dkeys B)) j j)))) gs) end)
        with (outcome (length sids) (length tids) (fun g i j => adj fsqrt mode (score P B (gms (dkeys P) g) i j) (score B Q (gms (dkeys B) g) j j)) groups).
      apply (all_ok _ mode h groups d B sids tids _ ks s1 s2 GO SP).
      intros s0 off k S0 Nk Lk. pose proof (part_plain Cpu (length tids) off k B PB Lk) as PP. pose proof (ids_length tids off k Lk) as LI. destruct (RW s0 (firstn k (skipn off tids)) off k S0 Nk Lk) as (R1 & R2 & R3).
      rewrite (influence_adjust eigh inverse fsqrt Cpu P (part off k B) mode h groups d s0 s2 sids (firstn k (skipn off tids)) (Qf off k) (firstn k (skipn off tids)) MD NP); rewrite ?(all_moved Cpu (part off k B) (part_on Cpu off k B AO)), ?part_keys, ?LI; auto.
      + f_equal. f_equal. f_equal. unfold score_matrix.
        rewrite (combine_final (adj fsqrt mode) (length sids) k (score P (part off k B)) (fun l j => score (part off k B) (Qf off k) l j j) groups (dkeys P) (dkeys B) GO).
        transitivity (outcome (length sids) k (fun g i j => adj fsqrt mode (score P (part off k B) (gms (dkeys P) g) i j) (score (part off k B) (Qf off k) (gms (dkeys B) g) j j)) groups); [destruct groups; reflexivity|].
        apply outcome_ext. intros g i j _ Lj. f_equal; [apply score_part; exact Lj|]. unfold score. f_equal. apply map_ext_in. intros m I. apply R3; [|exact Lj]. destruct g; [|exact I]. unfold gms, in_group in I. apply filter_In in I. apply I.
      + intros E0. apply NB. destruct B; [reflexivity|discriminate E0].
      + intros m I. rewrite K in I. apply (within_paired Cpu (length sids) k A P (part off k B) m PA PP); [|apply TW; exact I]. eapply part_within; eauto.
      + apply (head_prec Cpu (length sids) A P (part off k B) PA TW); [apply part_first; exact GF|rewrite part_keys; exact SUB].
  Qed.
End Proofs.
