(** Flattened target logs. *)
From Coq Require Import Permutation.
From Verif Require Import Py PyStr Field Tensor ModelGrad Monad ModelState ModelInfluence SpecGrad SpecState SpecInfluence GradProofs1 GradProofs2 StateProofs1 StateProofs3 StateProofs5 StateProofs7 StateProofs10 InfAlg InfProofs1 InfProofs2 InfProofs3 InfProofs4 InfProofs5 InfProofs6 InfProofs8 InfProofs9 InfProofs10.
Local Open Scope string_scope.
Local Open Scope list_scope.
Local Open Scope nat_scope.

Section Proofs.
  Context {F : Type} `{OField F}.
  Add Field FfI12 : f_theory.
  Notation tensor := (tensor F).
  Notation sval := (@sval F).
  Notation lstate := (@lstate F).
  Notation dten := (@dten F).
  Notation tlog := (@tlog F).
  Variable eigh : tensor -> res (tensor * tensor).
  Variable inverse : tensor -> res tensor.
  Variable fsqrt : F -> F.
  Notation precondition := (precondition eigh inverse).
  Notation compute_influence := (compute_influence eigh inverse fsqrt).
  Notation compute_self_influence := (compute_self_influence eigh inverse).
  Notation prec_step := (prec_step eigh inverse).

  (** preconditioning leaves the other attributes alone *)
  Lemma frames_register n a sy sv nc : n <> a -> frames n (register_state (F:=F) a sy sv nc).
  Proof. intros N s. unfold register_state. destruct (mem a (st_states s)); [reflexivity|]. cbn [fst attrs]. apply dget_dset_neq. exact N. Qed.
  Lemma frames_seach n {A} (f : A -> SM lstate unit) l : (forall a, frames n (f a)) -> frames n (seach f l).
  Proof. intros E. induction l as [|a l IH]; [intros s; reflexivity|]. cbn [seach]. apply frames_bind; [apply E|intros _; exact IH]. Qed.
  Definition touched := ["covariance_eigval_state"; "covariance_eigvec_state"; "covariance_inverse_state"; "ekfac_eigval_state"].
  Ltac frm := repeat (first [apply frames_bind; [|intros ?] | apply frames_set; assumption | apply frames_register; assumption | apply frames_seach; intros ?
      | match goal with |- frames _ (let '(_, _) := ?x in _) => destruct x end
      | match goal with |- frames _ (if ?x then _ else _) => destruct x end | match goal with |- frames _ (match ?x with _ => _ end) => destruct x end | intros ?; reflexivity]).
  Lemma frames_prec n log d h : ~ In n touched -> frames n (precondition log d h).
  Proof.
    intros N. assert (N1 : n <> "covariance_eigval_state") by (intros ->; apply N; cbn; auto). assert (N2 : n <> "covariance_eigvec_state") by (intros ->; apply N; cbn; auto).
    assert (N3 : n <> "covariance_inverse_state") by (intros ->; apply N; cbn; auto). assert (N4 : n <> "ekfac_eigval_state") by (intros ->; apply N; cbn; auto).
    assert (KM : forall evn ec src m d, n <> evn -> frames n (kfac_module (F:=F) evn ec src m d)) by (intros; unfold kfac_module; frm).
    assert (KL : forall evn ec src ms d out, n <> evn -> frames n (kfac_loop (F:=F) evn ec src ms d out)).
    { intros evn ec src ms. induction ms as [|m ms IH]; intros d0 out Ne; cbn [kfac_loop]; [intros s; reflexivity|]. apply frames_bind; [apply KM; exact Ne|intros pl]. apply frames_bind; [intros s; reflexivity|intros o]. apply IH. exact Ne. }
    assert (SV : frames n (get_covariance_svd_state eigh)) by (unfold get_covariance_svd_state, covariance_svd; frm).
    assert (SI : frames n (get_covariance_inverse_state inverse d)) by (unfold get_covariance_inverse_state, covariance_inverse; frm).
    assert (PK : forall src, frames n (ModelInfluence.precondition_kfac eigh src d)).
    { intros src. unfold precondition_kfac. apply frames_bind; [exact SV|intros vw]. apply frames_bind; [intros s; reflexivity|intros s]. apply frames_bind; [intros s0; reflexivity|intros ms]. apply KL. destruct (hasattr "ekfac_eigval_state" s); assumption. }
    assert (PR : forall src, frames n (ModelInfluence.precondition_raw inverse src d)).
    { intros src. unfold precondition_raw. apply frames_bind; [exact SI|intros ci]. frm. }
    unfold ModelInfluence.precondition. destruct (mem h _); [|intros s; reflexivity]. apply frames_bind; [intros s; unfold attr; destruct (dget _ _); reflexivity|intros cs]. destruct (snd log) as [src|t]; [|intros s; reflexivity].
    apply frames_bind; [intros s; reflexivity|intros ms]. apply frames_bind; [intros s; reflexivity|intros cms]. destruct (forallb _ _); [|intros s; reflexivity].
    apply frames_bind; [frm|intros raw]. apply frames_bind; [destruct raw; [apply PR|apply PK]|intros p; intros s; reflexivity].
  Qed.
  Lemma prec_watched prec log d h (s s1 : lstate) r path : prec_step prec log d h s = (s1, r) -> watched s path -> watched s1 path.
  Proof.
    intros E (x & Hx & Px). exists x. split; [|exact Px]. rewrite <- Hx. destruct prec; cbn [InfProofs2.prec_step] in E; [|injection E as <- _; reflexivity].
    pose proof (frames_prec "model_module" log d h ltac:(cbn; intuition discriminate) s) as FR. rewrite E in FR. exact FR.
  Qed.

  (** rows of matrices *)
  Lemma slice_2d (t : tensor) n w i : shape t = [n; w] -> twf t -> i < n -> data (slice t i) = map (mget t i) (seq 0 w).
  Proof.
    intros St Wt Li. apply (nth_ext _ _ f0 f0).
    - rewrite (slice_length_t n [w] t i St Wt Li), map_length, seq_length. cbn. lia.
    - rewrite (slice_length_t n [w] t i St Wt Li). change (prod [w]) with (w * 1). rewrite Nat.mul_1_r. intros q Lq. rewrite (nth_slice_t n [w] t i q St) by (change (prod [w]) with (w * 1); lia).
      rewrite nth_map_seq by exact Lq. unfold mget, tget. rewrite St. f_equal. cbn. lia.
  Qed.
  Lemma slice_mgen n w (f : nat -> nat -> F) i : i < n -> data (slice (mgen n w f) i) = map (f i) (seq 0 w).
  Proof. intros Li. rewrite (slice_2d (mgen n w f) n w i eq_refl (tgen_wf _ _) Li). apply map_ext_in. intros j I. apply in_seq in I. apply mget_mgen; lia. Qed.
  Lemma tcat1_rows (a b : tensor) n k l : shape a = [n; k] -> shape b = [n; l] -> twf a -> twf b ->
    exists c, tcat1 a b = Ok c /\ shape c = [n; k + l] /\ twf c /\ forall i, i < n -> data (slice c i) = data (slice a i) ++ data (slice b i).
  Proof.
    intros Sa Sb Wa Wb. unfold tcat1. rewrite Sa, Sb, Nat.eqb_refl. eexists. split; [reflexivity|]. split; [reflexivity|]. split; [apply tgen_wf|]. intros i Li. rewrite slice_mgen by exact Li. rewrite (slice_2d a n k i Sa Wa Li), (slice_2d b n l i Sb Wb Li).
    rewrite seq_app, map_app. f_equal.
    - apply map_ext_in. intros j I. apply in_seq in I. destruct (Nat.ltb_spec j k); [reflexivity|lia].
    - cbn [Nat.add]. rewrite (StateProofs2.map_seq_from _ k l). apply map_ext_in. intros j I. apply in_seq in I. destruct (Nat.ltb_spec (k + j) k); [lia|]. f_equal. lia.
  Qed.
  Lemma slice_reshape (t : tensor) n r i : shape t = n :: r -> data (slice (T [n; prod r] (data t)) i) = data (slice t i).
  Proof. intros St. unfold slice. rewrite St. cbn [shape tl data]. change (prod [prod r]) with (prod r * 1). rewrite Nat.mul_1_r. reflexivity. Qed.
  Lemma flatten_ok dv n (P : tlog) ms : n <> 0 -> ms <> [] -> (forall m, In m ms -> exists g r, grad_of P m = Some (dv, g) /\ shape g = n :: r /\ twf g) ->
    exists t, flatten_log (log_nd P) (map (fun m => (m, "grad")) ms) = Ok (dv, t) /\ flattened n P ms t.
  Proof.
    intros Nn NE G. unfold flatten_log.
    assert (M : mapM (fun p : string * string => let* d := log_item (log_nd P) (fst p) (snd p) in let* n0 := size0 (snd d) in let* r := reshape_infer (snd d) [n0] [] in Ok (fst d, r)) (map (fun m => (m, "grad")) ms) =
      Ok (map (fun m => (dv, match grad_of P m with Some g => T [n; entry_count P m] (data (snd g)) | None => T [] [] end)) ms)).
    { clear NE. induction ms as [|m ms IH]; [reflexivity|]. cbn [map mapM fst snd]. destruct (G m (or_introl eq_refl)) as (g & r & Gm & Sg & Wg). rewrite log_item_look. unfold grad_of in Gm. rewrite Gm. cbn [bind fst snd]. assert (Z : size0 g = Ok n) by (unfold size0; rewrite Sg; reflexivity). rewrite Z. cbn [bind].
      rewrite (reshape_infer_ok g [n] [] (prod r)); [|change (prod [n] * prod []) with (n * 1 * 1); lia|rewrite Sg, prod_cons; change (prod [n]) with (n * 1); change (prod []) with 1; lia]. cbn [bind app]. rewrite IH by (intros x I; apply G; right; exact I). cbn [bind].
      unfold entry_count, grad_of. rewrite Gm. cbn [snd]. rewrite Sg. reflexivity. }
    rewrite M. cbn [bind]. destruct ms as [|m ms]; [congruence|]. cbn [map].
    assert (H0 : forall x, In x (m :: ms) -> let u := match grad_of P x with Some g => T [n; entry_count P x] (data (snd g)) | None => T [] [] end in shape u = [n; entry_count P x] /\ twf u /\ forall i, i < n -> data (slice u i) = entries P i x).
    { intros x I. destruct (G x I) as (g & r & Gm & Sg & Wg). cbv zeta. unfold entries, entry_count. rewrite Gm. cbn [snd]. rewrite Sg. cbn [tl]. split; [reflexivity|]. split; [unfold twf in *; cbn [shape data]; rewrite Wg, Sg, prod_cons; change (prod [n; prod r]) with (n * (prod r * 1)); lia|]. intros i Li. apply slice_reshape. exact Sg. }
    assert (L : forall l acc a, incl l (m :: ms) -> shape a = [n; list_sum (map (entry_count P) acc)] -> twf a -> (forall i, i < n -> data (slice a i) = concat (map (entries P i) acc)) ->
      exists t, foldM (fun acc x => if dev_eqb (fst acc) (fst x) then let* c := tcat1 (snd acc) (snd x) in Ok (fst acc, c) else Err RuntimeError) (map (fun m => (dv, match grad_of P m with Some g => T [n; entry_count P m] (data (snd g)) | None => T [] [] end)) l) (dv, a) = Ok (dv, t) /\ flattened n P (acc ++ l) t).
    { induction l as [|x l IH]; intros acc a IL Sa Wa Ra.
      - cbn [map foldM]. exists a. split; [reflexivity|]. rewrite app_nil_r. split; [exact Sa|]. auto.
      - cbn [map foldM fst snd]. rewrite dev_eqb_refl. destruct (H0 x (IL x (or_introl eq_refl))) as (Su & Wu & Ru). destruct (tcat1_rows a _ n _ _ Sa Su Wa Wu) as (c & Ec & Sc & Wc & Rc). rewrite Ec. cbn [bind].
        destruct (IH (acc ++ [x]) c) as (t & Et & Ft).
        + intros y I. apply IL. right. exact I.
        + rewrite Sc, map_app, list_sum_app. cbn [map]. do 2 f_equal. cbn. lia.
        + exact Wc.
        + intros i Li. rewrite Rc, Ra, Ru by exact Li. rewrite map_app, concat_app. cbn [map concat]. rewrite app_nil_r. reflexivity.
        + exists t. split; [exact Et|]. rewrite <- app_assoc in Ft. exact Ft. }
    destruct (H0 m (or_introl eq_refl)) as (Su & Wu & Ru). apply (L ms [m]); [intros x I; right; exact I|rewrite Su; cbn; do 2 f_equal; lia|exact Wu|]. intros i Li. rewrite (Ru i Li). cbn [map concat]. rewrite app_nil_r. reflexivity.
  Qed.
  Lemma dot_concat {A} (ms : list A) (f g : A -> list F) : (forall m, In m ms -> length (f m) = length (g m)) ->
    dot (T [] (concat (map f ms))) (T [] (concat (map g ms))) = lsum (map (fun m => dot (T [] (f m)) (T [] (g m))) ms).
  Proof.
    unfold dot. cbn [data]. induction ms as [|m ms IH]; intros E; [reflexivity|]. cbn [map concat]. rewrite app_length, sum_app. unfold lsum in *. cbn [map fold_right]. rewrite <- IH by (intros x I; apply E; right; exact I). f_equal.
    - apply sum_ext. intros k Lk. rewrite !app_nth1 by (rewrite <- ?(E m (or_introl eq_refl)); exact Lk). reflexivity.
    - apply sum_ext. intros k Lk. rewrite !app_nth2 by (rewrite <- ?(E m (or_introl eq_refl)); lia). rewrite <- (E m (or_introl eq_refl)). f_equal; f_equal; lia.
  Qed.
  Lemma flat_score dv n k (P B : tlog) ms u t i j : (forall m, In m ms -> paired_grads dv n k P B m) -> flattened n P ms u -> flattened k B ms t -> i < n -> j < k -> dot (slice u i) (slice t j) = score P B ms i j.
  Proof.
    intros PR (_ & _ & Ru) (_ & _ & Rt) Li Lj. transitivity (dot (T [] (concat (map (entries P i) ms))) (T [] (concat (map (entries B j) ms)))); [unfold dot; cbn [data]; rewrite <- (Ru i Li), <- (Rt j Lj); reflexivity|].
    rewrite dot_concat.
    - unfold score. f_equal. apply map_ext_in. intros m I. destruct (PR m I) as (a & b & e & r & Ga & Gb & _). unfold gdot, entries. rewrite Ga, Gb. reflexivity.
    - intros m I. destruct (PR m I) as (a & b & e & r & Ga & Gb & Sa & Sb & Wa & Wb). unfold entries. rewrite Ga, Gb. cbn [snd]. rewrite (slice_length_t n r a i Sa Wa Li), (slice_length_t k r b j Sb Wb Lj). reflexivity.
  Qed.
  Lemma flat_cross dv n k (P B : tlog) ms path t : ms <> [] -> n <> 0 -> path = map (fun m => (m, "grad")) ms -> (forall m, In m ms -> paired_grads dv n k P B m) -> flattened k B ms t ->
    exists u, flatten_log (log_nd P) path = Ok (dv, u) /\ cross_dot_product (dv, u) (dv, t) = Ok (dv, mgen n k (score P B ms)).
  Proof.
    intros NE Nn -> PR FT. destruct (flatten_ok dv n P ms Nn NE) as (u & Eu & FU). { intros m I. destruct (PR m I) as (a & b & e & r & Ga & _ & Sa & _ & Wa & _). eauto. }
    exists u. split; [exact Eu|]. pose proof FU as (Su & Wu & _). pose proof FT as (St & Wt & _).
    assert (EQ : map (entry_count B) ms = map (entry_count P) ms). { apply map_ext_in. intros m I. destruct (PR m I) as (a & b & e & r & Ga & Gb & Sa & Sb & _). unfold entry_count. rewrite Ga, Gb. cbn [snd]. rewrite Sa, Sb. reflexivity. }
    rewrite EQ in St. rewrite (cross_ok dv n k _ u t Su St Wu Wt). f_equal. f_equal. apply mgen_ext. intros i j Li Lj. eapply flat_score; eauto.
  Qed.
  Lemma score_perm (A B : tlog) l l' i j : Permutation l l' -> score A B l i j = score A B l' i j.
  Proof. intros P. unfold score. apply lsum_perm. apply Permutation_map. exact P. Qed.

  Theorem flat_nested dv A B dv' t ms prec h d (s : lstate) sids tids : A <> [] -> sids <> [] -> plain_log dv (length sids) A -> plain_log dv (length tids) B -> within A B -> keeps_shapes (prec_step prec (sids, Nest (log_nd A)) d h) A s -> grad_first B -> (forall m, In m (dkeys B) -> In m (dkeys A)) ->
    watched s (map (fun m => (m, "grad")) ms) -> Permutation ms (dkeys A) -> flattened (length tids) B ms t ->
    compute_influence (sids, Nest (log_nd A)) (tids, Flat (dv', t)) "dot" prec h None d s = compute_influence (sids, Nest (log_nd A)) (tids, Nest (log_nd B)) "dot" prec h None d s.
  Proof.
    intros NA NS PA PB WI KS GF SUB WA PM FT. destruct (prec_step prec (sids, Nest (log_nd A)) d h s) as [s1 [r|e]] eqn:E.
    2: { rewrite !(influence_prec_err eigh inverse fsqrt A _ "dot" prec h None d s s1 sids tids e eq_refl E). reflexivity. }
    destruct (prec_out eigh inverse sids dv (length sids) A prec d h s s1 r PA KS E) as (P & -> & K & TW & _).
    rewrite !(influence_prec eigh inverse fsqrt A _ "dot" prec h None d s s1 sids tids P eq_refl E).
    assert (NP : P <> []) by (intros ->; apply NA; destruct A; [reflexivity|discriminate K]).
    assert (PR : forall m, In m (dkeys P) -> paired_grads dv (length sids) (length tids) P B m) by (intros m I; rewrite K in I; eapply within_paired; eauto).
    rewrite (influence_dot eigh inverse fsqrt dv P B sids tids None h d s1 NP Logic.I Logic.I PR (head_prec dv (length sids) A P B PA TW GF SUB)).
    destruct (prec_watched _ _ _ _ _ _ _ _ E WA) as (x & Hx & Px). rewrite <- K in PM.
    destruct (flat_cross dv (length sids) (length tids) P B ms (map (fun m => (m, "grad")) ms) t) as (u & Eu & Ec); [| |reflexivity| |exact FT|].
    - intros ->. apply Permutation_nil in PM. destruct P; [apply NP; reflexivity|discriminate PM].
    - destruct sids; [congruence|discriminate].
    - intros m I. apply PR. eapply Permutation_in; eauto.
    - unfold ModelInfluence.compute_influence. change (mem "dot" ["dot"; "l2"; "cosine"]) with true. change (String.eqb "dot" "cosine") with false. change (String.eqb "dot" "l2") with false. cbv [sbind sret lift]. cbn [fst snd]. unfold attr. rewrite Hx. rewrite Px, Eu. cbn [fst snd]. rewrite Ec.
      unfold add_score, init_scores. cbn [fold_left]. unfold dgetM. cbn [dget]. rewrite eqb_refl. cbn [bind dset]. rewrite eqb_refl. cbn [mapM fst snd]. rewrite shape_mgen, !Nat.eqb_refl. cbn [andb bind pick]. unfold dgetM. cbn [dget]. rewrite eqb_refl. cbn [bind final]. f_equal. f_equal. f_equal. f_equal. unfold score_matrix. apply mgen_ext. intros i j _ _. apply score_perm. exact PM.
  Qed.
  (** groups and normalised modes are not available for flattened logs *)
  Theorem flat_groups dv A B dv' t ms prec h d gs (s s1 : lstate) sids tids r : A <> [] -> sids <> [] -> plain_log dv (length sids) A -> plain_log dv (length tids) B -> within A B -> keeps_shapes (prec_step prec (sids, Nest (log_nd A)) d h) A s ->
    watched s (map (fun m => (m, "grad")) ms) -> Permutation ms (dkeys A) -> flattened (length tids) B ms t -> groups_ok (Some gs) -> gs <> [] ->
    prec_step prec (sids, Nest (log_nd A)) d h s = (s1, Ok r) ->
    compute_influence (sids, Nest (log_nd A)) (tids, Flat (dv', t)) "dot" prec h (Some gs) d s = (s1, Err AttributeError).
  Proof.
    intros NA NS PA PB WI KS WA PM FT GO NG E.
    destruct (prec_out eigh inverse sids dv (length sids) A prec d h s s1 r PA KS E) as (P & -> & K & TW & _).
    rewrite !(influence_prec eigh inverse fsqrt A _ "dot" prec h (Some gs) d s s1 sids tids P eq_refl E).
    assert (NP : P <> []) by (intros ->; apply NA; destruct A; [reflexivity|discriminate K]).
    assert (PR : forall m, In m (dkeys P) -> paired_grads dv (length sids) (length tids) P B m) by (intros m I; rewrite K in I; eapply within_paired; eauto).
    destruct (prec_watched _ _ _ _ _ _ _ _ E WA) as (x & Hx & Px). rewrite <- K in PM.
    destruct (flat_cross dv (length sids) (length tids) P B ms (map (fun m => (m, "grad")) ms) t) as (u & Eu & Ec); [| |reflexivity| |exact FT|].
    - intros ->. apply Permutation_nil in PM. destruct P; [apply NP; reflexivity|discriminate PM].
    - destruct sids; [congruence|discriminate].
    - intros m I. apply PR. eapply Permutation_in; eauto.
    - unfold ModelInfluence.compute_influence. change (mem "dot" ["dot"; "l2"; "cosine"]) with true. change (String.eqb "dot" "cosine") with false. change (String.eqb "dot" "l2") with false. cbv [sbind sret lift]. cbn [fst snd]. unfold attr. rewrite Hx. rewrite Px, Eu. cbn [fst snd]. rewrite Ec.
      rewrite (init_form (fun _ => (dv, T [] [])) (Some gs) GO). unfold form. cbn [map val in_group filter]. unfold add_score, dgetM. cbn [dget]. rewrite eqb_refl. cbn [bind dset]. rewrite eqb_refl. cbn [mapM fst snd]. rewrite shape_mgen, !Nat.eqb_refl. cbn [andb bind].
      destruct gs as [|g gs]; [congruence|]. reflexivity.
  Qed.
  Theorem flat_modes dv A B dv' t ms prec h d groups mode (s s1 : lstate) sids tids r : mode = "l2" \/ mode = "cosine" -> A <> [] -> sids <> [] -> plain_log dv (length sids) A -> plain_log dv (length tids) B -> within A B -> keeps_shapes (prec_step prec (sids, Nest (log_nd A)) d h) A s ->
    watched s (map (fun m => (m, "grad")) ms) -> Permutation ms (dkeys A) -> flattened (length tids) B ms t -> groups_ok groups ->
    prec_step prec (sids, Nest (log_nd A)) d h s = (s1, Ok r) ->
    compute_influence (sids, Nest (log_nd A)) (tids, Flat (dv', t)) mode prec h groups d s = (s1, Err NotImplementedError).
  Proof.
    intros MD NA NS PA PB WI KS WA PM FT GO E. assert (MM : mem mode ["dot"; "l2"; "cosine"] = true) by (destruct MD as [-> | ->]; reflexivity).
    destruct (prec_out eigh inverse sids dv (length sids) A prec d h s s1 r PA KS E) as (P & -> & K & TW & _).
    rewrite !(influence_prec eigh inverse fsqrt A _ mode prec h groups d s s1 sids tids P MM E).
    assert (NP : P <> []) by (intros ->; apply NA; destruct A; [reflexivity|discriminate K]).
    assert (PR : forall m, In m (dkeys P) -> paired_grads dv (length sids) (length tids) P B m) by (intros m I; rewrite K in I; eapply within_paired; eauto).
    destruct (prec_watched _ _ _ _ _ _ _ _ E WA) as (x & Hx & Px). rewrite <- K in PM.
    destruct (flat_cross dv (length sids) (length tids) P B ms (map (fun m => (m, "grad")) ms) t) as (u & Eu & Ec); [| |reflexivity| |exact FT|].
    - intros ->. apply Permutation_nil in PM. destruct P; [apply NP; reflexivity|discriminate PM].
    - destruct sids; [congruence|discriminate].
    - intros m I. apply PR. eapply Permutation_in; eauto.
    - unfold ModelInfluence.compute_influence. rewrite MM. cbv [sbind sret lift]. cbn [fst snd]. unfold attr. rewrite Hx. rewrite Px, Eu. cbn [fst snd]. rewrite Ec.
      rewrite (init_form (fun _ => (dv, T [] [])) groups GO). unfold form. unfold add_score at 1, dgetM at 1. cbn [dget]. rewrite eqb_refl. cbn [bind val]. destruct MD as [-> | ->]; reflexivity.
  Qed.
  Theorem self_flat ids t prec h groups d (s : lstate) : compute_self_influence (ids, Flat t) prec h groups d s = (s, Err NotImplementedError).
  Proof. reflexivity. Qed.
End Proofs.
