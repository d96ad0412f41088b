(** Rows of a batch. *)
From Coq Require Import ZArith.
From Verif Require Import Py Field Tensor ModelGrad Monad ModelState SpecGrad SpecState GradProofs1 GradProofs2.
Local Open Scope nat_scope.

Section Proofs.
  Context {F : Type} `{OField F}.
  Notation tensor := (tensor F).

  Lemma map_seq_from {A} (f : nat -> A) a m : map f (seq a m) = map (fun p => f (a + p)) (seq 0 m).
  Proof.
    revert f a. induction m as [|m IH]; intros f a; [reflexivity|]. cbn [seq map]. rewrite Nat.add_0_r. f_equal.
    rewrite IH, (IH (fun p => f (a + p)) 1). apply map_ext. intros p. f_equal. lia.
  Qed.
  Lemma seq_mul_map {A} (f : nat -> A) n m :
    map f (seq 0 (n * m)) = concat (map (fun a => map (fun p => f (a * m + p)) (seq 0 m)) (seq 0 n)).
  Proof.
    induction n as [|n IH]; [reflexivity|]. rewrite seq_S, map_app, concat_app. cbn [map concat Nat.add]. rewrite app_nil_r.
    rewrite <- IH. replace (S n * m) with (n * m + m) by lia. rewrite seq_app, map_app. f_equal. apply map_seq_from.
  Qed.
  Lemma map_ext_seq {A} (f g : nat -> A) n : (forall i, i < n -> f i = g i) -> map f (seq 0 n) = map g (seq 0 n).
  Proof. intros E. apply map_ext_in. intros i I. apply in_seq in I. apply E. lia. Qed.
  Lemma list_as_map (l : list F) : l = map (fun j => nth j l f0) (seq 0 (length l)).
  Proof.
    apply list_ext; [rewrite map_length, seq_length; reflexivity|]. intros k Lk.
    symmetry. rewrite (nth_indep (map _ _) f0 (nth 0 l f0)) by (rewrite map_length, seq_length; exact Lk).
    rewrite (map_nth (fun j => nth j l f0)), seq_nth by exact Lk. reflexivity.
  Qed.
  Lemma reshape_infer_inv (t : tensor) pre post u : reshape_infer t pre post = Ok u ->
    prod pre * prod post <> 0 /\ exists k, prod (shape t) = k * (prod pre * prod post) /\ u = T (pre ++ k :: post) (data t).
  Proof.
    unfold reshape_infer. destruct (Nat.eqb_spec (prod pre * prod post) 0); [discriminate|].
    destruct (Nat.eqb_spec (prod (shape t) mod (prod pre * prod post)) 0) as [M|]; [|discriminate]. intros [= <-]. split; [assumption|].
    exists (prod (shape t) / (prod pre * prod post)). split; [|reflexivity]. rewrite Nat.mul_comm. apply Nat.div_exact; assumption.
  Qed.
  Lemma mget_T r k (d : list F) i j : j < k -> mget (T [r; k] d) i j = nth (i * k + j) d f0.
  Proof. intros _. unfold mget, tget. cbn [shape data ravel]. f_equal. cbn. lia. Qed.

  (** rows are made for batches; unbatched vectors are not covered *)

  Definition rows_spec (module : option mkind) (lt : string) (t d2 : tensor) : Prop :=
    exists r k, shape d2 = [r; k] /\ twf d2 /\ r <> 0 /\ k <> 0 /\
      vectors r k (mget d2) = concat (map (sample_rows module lt) (samples t)).

  Lemma rows_grad lt (t d2 : tensor) : twf t -> make_2d t None lt = Ok d2 -> rows_spec None lt t d2 \/ prod (shape t) = 0.
  Proof.
    intros W. cbn [make_2d]. destruct t as [sh d]. cbn [shape]. destruct sh as [|n rest]; [discriminate|].
    intros E. apply reshape_infer_inv in E. destruct E as (P & k & E & ->).
    cbn [shape] in E. change (prod [n]) with (n * 1) in *. change (prod []) with 1 in *. rewrite !Nat.mul_1_r in *. rewrite prod_cons in E.
    assert (K : k = prod rest). { apply (Nat.mul_cancel_r _ _ n); [exact P|]. rewrite <- E. apply Nat.mul_comm. }
    subst k. destruct (Nat.eq_dec (prod rest) 0) as [Z|NZ]; [right; cbn [shape]; rewrite prod_cons, Z; apply Nat.mul_0_r|]. left.
    exists n, (prod rest). split; [reflexivity|].
    unfold twf in W. cbn [shape data] in W. rewrite prod_cons in W.
    split; [unfold twf; cbn [shape data app]; rewrite W; cbn; lia|]. split; [exact P|]. split; [exact NZ|].
    unfold vectors, samples, batch_size. cbn [shape hd app]. rewrite map_map.
    transitivity (concat (map (fun a => [data (slice (T (n :: rest) d) a)]) (seq 0 n))).
    - rewrite <- (map_map (fun a => data (slice (T (n :: rest) d) a)) (fun x => [x])).
      set (L := map (fun a => data (slice (T (n :: rest) d) a)) (seq 0 n)).
      assert (CL : forall l : list (list F), concat (map (fun x => [x]) l) = l) by (induction l; cbn; congruence).
      rewrite CL. unfold L. apply map_ext_seq. intros a La.
      rewrite (list_as_map (data (slice (T (n :: rest) d) a))).
      rewrite (slice_length n rest d a W La). apply map_ext_seq. intros j Lj.
      rewrite nth_slice by exact Lj. apply mget_T. exact Lj.
    - reflexivity.
  Qed.

  Lemma split_last_cases (sh : list nat) l k : split_last sh = Some (l, k) -> sh = l ++ [k].
  Proof.
    unfold split_last. destruct (rev sh) as [|x r] eqn:E; [discriminate|]. intros [= <- <-].
    rewrite <- (rev_involutive sh), E. reflexivity.
  Qed.
  Lemma rows_linear a b lt (t d2 : tensor) : twf t -> prod (shape t) <> 0 -> 2 <= length (shape t) ->
    (match split_last (shape t) with Some (_, k) => reshape_infer t [] [k] | None => Err IndexError end) = Ok d2 ->
    rows_spec (Some (KLinear a b)) lt t d2.
  Proof.
    intros W NZ L2. destruct (split_last (shape t)) as [[l k]|] eqn:Sp; [|discriminate]. apply split_last_cases in Sp. intros E.
    apply reshape_infer_inv in E. destruct E as (P & r & E & ->). change (prod []) with 1 in *. change (prod [k]) with (k * 1) in *.
    rewrite ?Nat.mul_1_r, ?Nat.mul_1_l in *. destruct t as [sh d]. cbn [shape data] in *. subst sh.
    destruct l as [|n mid]; [cbn in L2; lia|].
    rewrite prod_app in E. change (prod [k]) with (k * 1) in E. rewrite Nat.mul_1_r in E.
    assert (R : r = prod (n :: mid)) by (symmetry; apply (Nat.mul_cancel_r _ _ k); assumption). subst r.
    exists (prod (n :: mid)), k. split; [reflexivity|]. unfold twf in *. cbn [shape data app] in *.
    rewrite prod_cons, prod_app in W. change (prod [k]) with (k * 1) in W. rewrite Nat.mul_1_r in W.
    split; [change (prod [prod (n :: mid); k]) with (prod (n :: mid) * (k * 1)); rewrite W, prod_cons; ring|].
    split; [intros Z; apply NZ; rewrite prod_cons, prod_app; rewrite prod_cons in Z; rewrite Nat.mul_assoc, Z; reflexivity|]. split; [exact P|].
    unfold vectors at 1, samples, batch_size. cbn [shape hd]. rewrite map_map. rewrite prod_cons.
    rewrite seq_mul_map. f_equal. apply map_ext_seq. intros s Ls. unfold sample_rows.
    assert (Sh : shape (slice (T (n :: mid ++ [k]) d) s) = mid ++ [k]) by reflexivity.
    rewrite Sh, removelast_last, last_last. unfold vectors. apply map_ext_seq. intros p Lp. apply map_ext_seq. intros j Lj.
    rewrite mget_T by exact Lj. rewrite nth_slice.
    2:{ rewrite prod_app. change (prod [k]) with (k * 1). nia. }
    f_equal. rewrite prod_app. change (prod [k]) with (k * 1). ring.
  Qed.

  Lemma pixel_slice (x : tensor) B C Hh Ww a c r q : shape x = [B; C; Hh; Ww] -> c < C ->
    pixel (T [1; C; Hh; Ww] (data (slice x a))) Hh Ww 0 c r q = pixel x Hh Ww a c r q.
  Proof.
    intros S Lc. unfold pixel. destruct (Z.leb_spec 0 r); cbn [andb]; [|reflexivity].
    destruct (Z.ltb_spec r (Z.of_nat Hh)); cbn [andb]; [|reflexivity].
    destruct (Z.leb_spec 0 q); cbn [andb]; [|reflexivity].
    destruct (Z.ltb_spec q (Z.of_nat Ww)); cbn [andb]; [|reflexivity].
    unfold tget. cbn [shape data]. rewrite S.
    assert (Lr : Z.to_nat r < Hh) by lia. assert (Lq : Z.to_nat q < Ww) by lia.
    set (r' := Z.to_nat r) in *. set (q' := Z.to_nat q) in *. cbn [ravel].
    rewrite (nth_slice_t B [C; Hh; Ww]); [|exact S|].
    - f_equal.
    - rewrite !prod_cons. change (prod []) with 1. rewrite ?Nat.mul_1_r, ?Nat.mul_0_l, ?Nat.add_0_r, ?Nat.add_0_l.
      assert (r' * Ww + q' < Hh * Ww) by nia. nia.
  Qed.
  Lemma valid6' a b c d e f i j k l m n : i < a -> j < b -> k < c -> l < d -> m < e -> n < f ->
    valid [a; b; c; d; e; f] [i; j; k; l; m; n].
  Proof. repeat constructor; assumption. Qed.

  Lemma rows_conv_fwd g lt (t d2 : tensor) : twf t -> prod (shape t) <> 0 -> lt = "forward"%string -> make_forward_2d t (KConv2d g) = Ok d2 ->
    rows_spec (Some (KConv2d g)) lt t d2.
  Proof.
    intros W NZ -> E. cbn [make_forward_2d] in E. unfold extract_patches in E.
    destruct (shape t) as [|B [|C [|Hh [|Ww [|? ?]]]]] eqn:S; try discriminate.
    { destruct (out_size Hh _ _ _ _); [|discriminate]. cbn [bind] in E. destruct (out_size (c_kh g) _ _ _ _); discriminate. }
    destruct (out_size Hh (c_ph g) 1 (c_kh g) (c_sh g)) as [OH|] eqn:EH; [|discriminate]. cbn [bind] in E.
    destruct (out_size Ww (c_pw g) 1 (c_kw g) (c_sw g)) as [OW|] eqn:EW; [|discriminate]. cbn [bind shape nth] in E.
    set (U := tgen [B; OH; OW; C; c_kh g; c_kw g] _) in E.
    apply reshape_infer_inv in E. destruct E as (P & r & E & ->). cbn [shape data app] in *.
    change (prod []) with 1 in P, E. set (k := C * c_kh g * c_kw g) in *. change (prod [k]) with (k * 1) in P, E. rewrite !Nat.mul_1_r, ?Nat.mul_1_l in P, E.
    assert (R : r = B * (OH * OW)).
    { apply (Nat.mul_cancel_r _ _ k); [exact P|]. rewrite <- E, !prod_cons. change (prod []) with 1. ring. }
    subst r. assert (Pk : 0 < c_kh g /\ 0 < c_kw g).
    { split; destruct (Nat.eq_dec (c_kh g) 0) as [Z|], (Nat.eq_dec (c_kw g) 0) as [Z'|]; try lia; unfold k in P; rewrite ?Z, ?Z' in P; lia. }
    assert (OHE : OH = (Hh + 2 * c_ph g - c_kh g) / c_sh g + 1).
    { unfold out_size in EH. destruct (_ || _); [discriminate|]. injection EH as <-. f_equal. f_equal. lia. }
    assert (OWE : OW = (Ww + 2 * c_pw g - c_kw g) / c_sw g + 1).
    { unfold out_size in EW. destruct (_ || _); [discriminate|]. injection EW as <-. f_equal. f_equal. lia. }
    exists (B * (OH * OW)), k. split; [reflexivity|]. split.
    { unfold twf. cbn [data shape]. unfold U. rewrite (tgen_wf _ _). cbn [shape tgen]. rewrite !prod_cons. change (prod []) with 1. unfold k. ring. }
    split; [rewrite !prod_cons in NZ; rewrite OHE, OWE, !Nat.add_1_r; apply Nat.neq_mul_0; split; [intros Z; rewrite Z in NZ; apply NZ; apply Nat.mul_0_l|apply Nat.neq_mul_0; split; discriminate]|]. split; [exact P|].
    unfold vectors, samples, batch_size. rewrite S. cbn [hd]. rewrite map_map, seq_mul_map. f_equal. apply map_ext_seq. intros a La.
    unfold sample_rows. cbn [String.eqb Ascii.eqb Bool.eqb].
    assert (Sh : shape (slice t a) = [C; Hh; Ww]) by (unfold slice; rewrite S; reflexivity). rewrite Sh.
    rewrite <- OHE, <- OWE. rewrite seq_mul_map. f_equal. apply map_ext_seq. intros oh Loh. apply map_ext_seq. intros ow Low.
    unfold k at 2. rewrite <- Nat.mul_assoc, seq_mul_map. f_equal. apply map_ext_seq. intros c Lc.
    rewrite seq_mul_map. f_equal. apply map_ext_seq. intros kh Lkh. apply map_ext_seq. intros kw Lkw.
    rewrite (pixel_slice t B C Hh Ww) by assumption. rewrite <- (padded_pixel t B C) by exact S.
    unfold mget, U. rewrite (tget_regen _ _ _ _ [a; oh; ow; c; kh; kw]).
    - reflexivity.
    - apply valid6'; assumption.
    - cbn [ravel]. rewrite !prod_cons. change (prod []) with 1. unfold k. ring.
  Qed.
  Lemma rows_conv_bwd g lt (t d2 : tensor) : twf t -> prod (shape t) <> 0 -> lt = "backward"%string -> make_backward_2d t (KConv2d g) = Ok d2 ->
    rows_spec (Some (KConv2d g)) lt t d2.
  Proof.
    intros W NZ -> E. cbn [make_backward_2d] in E.
    destruct (shape t) as [|B [|C [|OH [|OW [|? ?]]]]] eqn:S; try discriminate.
    set (U := tgen [B; OH; OW; C] _) in E.
    apply reshape_infer_inv in E. destruct E as (P & r & E & ->). cbn [app] in *.
    change (prod []) with 1 in P, E. change (prod [C]) with (C * 1) in P, E. rewrite !Nat.mul_1_r, ?Nat.mul_1_l in P, E.
    change (shape U) with [B; OH; OW; C] in E.
    assert (R : r = B * (OH * OW)).
    { apply (Nat.mul_cancel_r _ _ C); [exact P|]. rewrite <- E, !prod_cons. change (prod []) with 1. ring. }
    subst r. exists (B * (OH * OW)), C. split; [reflexivity|]. split.
    { unfold twf. cbn [data shape]. unfold U. rewrite (tgen_wf _ _). cbn [shape tgen]. rewrite !prod_cons. change (prod []) with 1. ring. }
    split; [rewrite !prod_cons in NZ; change (prod []) with 1 in NZ; intros Z; apply NZ; transitivity (B * (OH * OW) * C); [ring|]; rewrite Z; reflexivity|]. split; [exact P|].
    unfold vectors, samples, batch_size. rewrite S. cbn [hd]. rewrite map_map, seq_mul_map. f_equal. apply map_ext_seq. intros a La.
    unfold sample_rows. cbn [String.eqb Ascii.eqb Bool.eqb].
    assert (Sh : shape (slice t a) = [C; OH; OW]) by (unfold slice; rewrite S; reflexivity). rewrite Sh.
    rewrite seq_mul_map. f_equal. apply map_ext_seq. intros oh Loh. apply map_ext_seq. intros ow Low. apply map_ext_seq. intros c Lc.
    unfold mget. unfold U. rewrite (tget_regen _ _ _ _ [a; oh; ow; c]).
    - cbn [ix nth]. destruct t as [st dt]. cbn [shape] in S. subst st. rewrite tget_slice; [reflexivity|apply valid3; assumption].
    - apply valid4; assumption.
    - cbn [ravel]. rewrite !prod_cons. change (prod []) with 1. ring.
  Qed.

  Lemma rows_make_2d module lt (t d2 : tensor) : twf t -> prod (shape t) <> 0 -> batched module t -> make_2d t module lt = Ok d2 ->
    rows_spec module lt t d2.
  Proof.
    intros W NZ Bt E. destruct module as [mk|].
    - unfold make_2d in E. destruct (String.eqb_spec lt "forward").
      + destruct mk; try discriminate; [apply rows_linear|apply rows_conv_fwd]; assumption.
      + destruct (String.eqb_spec lt "backward"); [|discriminate].
        destruct mk; try discriminate; [apply rows_linear|apply rows_conv_bwd]; assumption.
    - destruct (rows_grad lt t d2 W E) as [R|Z]; [exact R|contradiction].
  Qed.
End Proofs.
