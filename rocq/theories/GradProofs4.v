(** Proofs about unusual convolutions and shapes. *)
From Coq Require Import ZArith.
From Verif Require Import Py Field Tensor ModelGrad Monad ModelState SpecGrad SpecState SpecConv GradProofs1 GradProofs2 GradProofs3 StateProofs2.
Local Open Scope nat_scope.

Section Proofs.
  Context {F : Type} `{OField F}.
  Add Field FfG4 : f_theory.
  Notation tensor := (tensor F).

  Lemma psg_linear_scalar k1 k2 (x e : tensor) : shape x = [] \/ shape e = [] ->
    compute_per_sample_gradient x e (KLinear k1 k2) = Err RuntimeError.
  Proof.
    intros E. cbn [compute_per_sample_gradient]. unfold psg_linear, einsum_outer.
    destruct E as [-> | ->]; [destruct (split_last (shape e)) as [[? ?]|]; reflexivity|reflexivity].
  Qed.
  Lemma psg_conv_rank g (x e : tensor) :
    (shape x = [] -> compute_per_sample_gradient x e (KConv2d g) = Err IndexError) /\
    (shape x <> [] -> length (shape x) <> 3 -> length (shape x) <> 4 -> compute_per_sample_gradient x e (KConv2d g) = Err RuntimeError).
  Proof.
    cbn [compute_per_sample_gradient]. unfold psg_conv2d. split; [intros ->; reflexivity|]. intros N1 N3 N4. unfold f_unfold.
    destruct (shape x) as [|? [|? [|? [|? [|? ?]]]]]; try reflexivity; cbn in *; congruence.
  Qed.
  Lemma reshape_infer_no (t : tensor) pre post : ~ Nat.divide (prod pre * prod post) (prod (shape t)) ->
    reshape_infer t pre post = Err RuntimeError.
  Proof.
    intros N. unfold reshape_infer. destruct (Nat.eqb_spec (prod pre * prod post) 0); [reflexivity|].
    destruct (Nat.eqb_spec (prod (shape t) mod (prod pre * prod post)) 0) as [M|]; [|reflexivity].
    destruct N. apply Nat.mod_divide; assumption.
  Qed.

  Section Unbatched.
    Variables (g : conv) (Hh Ww OH OW : nat) (x e : tensor).
    Let C := c_in g. Let O := c_out g. Let k := c_kh g * c_kw g. Let L := OH * OW.
    Hypothesis (Sx : shape x = [C; Hh; Ww]) (Se : shape e = [O; OH; OW]).
    Hypothesis (EH : conv_out Hh (c_ph g) (c_dh g) (c_kh g) (c_sh g) OH) (EW : conv_out Ww (c_pw g) (c_dw g) (c_kw g) (c_sw g) OW).
    Hypothesis (PC : 0 < C) (PO : 0 < O).
    Let pos : 0 < c_kh g /\ 0 < c_kw g /\ 0 < OH /\ 0 < OW.
    Proof. destruct EH as (?&?&?&->), EW as (?&?&?&->). repeat split; try assumption; rewrite Nat.add_1_r; apply Nat.lt_0_succ. Qed.
    Let U : tensor := tgen [1; C; c_kh g; c_kw g; OH; OW] (fun i =>
      padded (T [1; C; Hh; Ww] (data x)) (ix 0 i) (ix 1 i) (c_ph g) (c_pw g)
            (ix 4 i * c_sh g + ix 2 i * c_dh g) (ix 5 i * c_sw g + ix 3 i * c_dw g)).
    Lemma patch_nth p : p < C * k * L -> nth p (data U) f0 = patch g Hh Ww OH OW x p.
    Proof.
      destruct pos as (P1 & P2 & P3 & P4). intros Lp. unfold U, patch. fold C k L.
      assert (Pk : k <> 0) by (unfold k; apply Nat.neq_mul_0; lia). assert (PL : L <> 0) by (unfold L; apply Nat.neq_mul_0; lia).
      set (row := p / L). set (col := p mod L).
      assert (Lr : row < C * k) by (apply Nat.div_lt_upper_bound; [exact PL|rewrite Nat.mul_comm; exact Lp]).
      assert (Lc : col < L) by (apply Nat.mod_upper_bound; exact PL).
      assert (Ep : p = row * L + col) by (rewrite (Nat.mul_comm row); apply Nat.div_mod; exact PL).
      pose proof (Nat.mod_upper_bound row k Pk) as Lm.
      set (m := row mod k) in *.
      assert (Er : row = (row / k) * k + m) by (rewrite (Nat.mul_comm _ k); apply Nat.div_mod; exact Pk).
      assert (Em : m = (m / c_kw g) * c_kw g + m mod c_kw g) by (rewrite (Nat.mul_comm _ (c_kw g)); apply Nat.div_mod; lia).
      assert (Ec : col = (col / OW) * OW + col mod OW) by (rewrite (Nat.mul_comm _ OW); apply Nat.div_mod; lia).
      assert (V : valid [1; C; c_kh g; c_kw g; OH; OW] [0; row / k; m / c_kw g; m mod c_kw g; col / OW; col mod OW]).
      { apply valid6; try (apply Nat.mod_upper_bound; lia).
        - lia.
        - apply Nat.div_lt_upper_bound; [exact Pk|rewrite Nat.mul_comm; exact Lr].
        - apply Nat.div_lt_upper_bound; [lia|rewrite Nat.mul_comm; exact Lm].
        - apply Nat.div_lt_upper_bound; [lia|rewrite Nat.mul_comm; exact Lc]. }
      assert (R : p = ravel [1; C; c_kh g; c_kw g; OH; OW] [0; row / k; m / c_kw g; m mod c_kw g; col / OW; col mod OW]).
      { cbn [ravel]. rewrite !prod_cons. change (prod []) with 1. rewrite Ep, Er at 1. rewrite Em at 1. rewrite Ec at 1. unfold k at 2, L at 1. ring. }
      rewrite R at 1. rewrite nth_tgen by (apply ravel_lt; exact V). rewrite unravel_ravel by exact V. cbn [ix nth].
      rewrite (padded_pixel _ 1 C Hh Ww) by reflexivity. reflexivity.
    Qed.

    Lemma unfolded : f_unfold x g = Ok (T [C * k; L] (data U)).
    Proof.
      unfold f_unfold, unfold_rows. rewrite Sx.
      rewrite (conv_out_size _ _ _ _ _ _ EH), (conv_out_size _ _ _ _ _ _ EW). reflexivity.
    Qed.
    Lemma psg_unbatched : let J := O * L / (C * k) in
      (Nat.divide (C * k) (O * L) -> Nat.divide (C * k) (L * L) ->
       exists G, compute_per_sample_gradient x e (KConv2d g) = Ok G /\ shape G = [C; O; L * L / (C * k)] /\ twf G /\
         forall c j l, c < C -> j < J -> l < L -> nth ((c * J + j) * L + l) (data G) f0 =
           sum k (fun i => fmul (nth ((c * J + j) * k + i) (data e) f0) (patch g Hh Ww OH OW x ((c * L + l) * k + i)))) /\
      (~ Nat.divide (C * k) (O * L) \/ ~ Nat.divide (C * k) (L * L) -> compute_per_sample_gradient x e (KConv2d g) = Err RuntimeError).
    Proof.
      destruct pos as (P1 & P2 & P3 & P4). intros J.
      assert (Pk : k <> 0) by (unfold k; apply Nat.neq_mul_0; lia). assert (PL : L <> 0) by (unfold L; apply Nat.neq_mul_0; lia).
      assert (PCk : C * k <> 0) by (apply Nat.neq_mul_0; lia).
      cbn [compute_per_sample_gradient]. unfold psg_conv2d. rewrite Sx, unfolded. cbn [bind shape nth].
      rewrite (reshape_infer_ok (T [C * k; L] (data U)) [C; L] [] k).
      2:{ rewrite !prod_cons. change (prod []) with 1. rewrite !Nat.mul_1_r. apply Nat.neq_mul_0. lia. }
      2:{ cbn [shape]. rewrite !prod_cons. change (prod []) with 1. ring. }
      cbn [bind shape nth app data].
      assert (Pe : prod (shape e) = O * L) by (rewrite Se, !prod_cons; change (prod []) with 1; unfold L; ring).
      assert (PP : prod [C] * prod [k] = C * k) by (rewrite !prod_cons; change (prod []) with 1; ring).
      destruct (Nat.eq_dec ((O * L) mod (C * k)) 0) as [M|M].
      2:{ assert (ND : ~ Nat.divide (C * k) (O * L)) by (intros D; apply M; apply Nat.mod_divide; assumption).
          rewrite (reshape_infer_no e [C] [k]) by (rewrite Pe, PP; exact ND). split; [intros D _; contradiction|reflexivity]. }
      assert (EJ : O * L = C * J * k).
      { unfold J. rewrite <- Nat.mul_assoc, (Nat.mul_comm _ k), Nat.mul_assoc. apply Nat.div_exact; assumption. }
      assert (D1 : Nat.divide (C * k) (O * L)) by (apply Nat.mod_divide; assumption).
      rewrite (reshape_infer_ok e [C] [k] J).
      2:{ rewrite PP. exact PCk. }
      2:{ rewrite Pe, EJ, !prod_cons. change (prod []) with 1. ring. }
      cbn [bind app]. unfold einsum_ijk_ilk. cbn [shape]. rewrite !Nat.eqb_refl. cbn [andb bind].
      match goal with |- context [tgen ?s ?f] => set (V := tgen s f) end.
      assert (PV : prod (shape V) * k = O * L * L).
      { change (shape V) with [C; J; L]. rewrite !prod_cons. change (prod []) with 1. rewrite EJ. ring. }
      assert (PP2 : prod [C; c_out g] * prod [] = C * O) by (rewrite !prod_cons; change (prod []) with 1; fold O; ring).
      destruct (Nat.eq_dec ((L * L) mod (C * k)) 0) as [M2|M2].
      - assert (EQ : L * L = C * k * (L * L / (C * k))) by (apply Nat.div_exact; assumption).
        set (q := L * L / (C * k)) in *.
        assert (PV' : prod (shape V) = C * O * q).
        { apply (Nat.mul_cancel_r _ _ k); [exact Pk|]. rewrite PV, <- Nat.mul_assoc, EQ. ring. }
        rewrite (reshape_infer_ok V [C; c_out g] [] q).
        2:{ rewrite PP2. apply Nat.neq_mul_0. lia. }
        2:{ rewrite PV', !prod_cons. change (prod []) with 1. fold O. ring. }
        split; [|intros [N|N]; [contradiction|destruct N; apply Nat.mod_divide; assumption]].
        intros _ _. eexists. split; [reflexivity|]. split; [reflexivity|]. split.
        + unfold twf. cbn [data shape app]. transitivity (prod (shape V)); [apply (tgen_wf [C; J; L])|]. rewrite PV', !prod_cons. change (prod []) with 1. fold O. ring.
        + intros c j l Lc Lj Ll. cbn [data].
          assert (Va : valid [C; J; L] [c; j; l]) by (apply valid3; assumption).
          replace ((c * J + j) * L + l) with (ravel [C; J; L] [c; j; l]).
          2:{ cbn [ravel]. rewrite !prod_cons. change (prod []) with 1. ring. }
          unfold V. rewrite nth_tgen by (apply ravel_lt; exact Va). rewrite unravel_ravel by exact Va. cbn [ix nth].
          apply sum_ext. intros i Li. f_equal.
          * unfold tget. cbn [shape data ravel]. f_equal. rewrite !prod_cons. change (prod []) with 1. ring.
          * rewrite <- patch_nth.
            -- unfold tget. cbn [shape data ravel]. f_equal. rewrite !prod_cons. change (prod []) with 1. ring.
            -- assert (c * L + l < C * L) by nia. replace (C * k * L) with (C * L * k) by ring. nia.
      - rewrite reshape_infer_no.
        + split; [intros _ D; destruct M2; apply Nat.mod_divide; assumption|reflexivity].
        + rewrite PP2. intros [q Eq]. apply M2. apply Nat.mod_divide; [exact PCk|]. exists q.
          apply (Nat.mul_cancel_l _ _ O); [lia|]. rewrite Nat.mul_assoc, <- PV, Eq. ring.
    Qed.
  End Unbatched.

  (** the other paddings *)
  Lemma psg_pad_string g (x e : tensor) : (shape x <> [] -> psg_padded PadString g x e = Err TypeError) /\
    (shape x = [] -> psg_padded PadString g x e = Err IndexError) /\ forall t : tensor, forward_padded PadString t g = Err TypeError.
  Proof. cbn [psg_padded]. repeat split; [|intros ->; reflexivity]. intros N. destruct (shape x); [congruence|reflexivity]. Qed.
  Lemma pad_mode_rows g (t d2 : tensor) : twf t -> prod (shape t) <> 0 -> forward_padded PadMode t g = Ok d2 ->
    exists r k, shape d2 = [r; k] /\ vectors r k (mget d2) = concat (map (sample_rows (Some (KConv2d g)) "forward") (samples t)).
  Proof.
    intros W N E. destruct (rows_conv_fwd g "forward" t d2 W N eq_refl E) as (r & k & S & _ & _ & _ & V). exists r, k. split; assumption.
  Qed.

  Section Mode.
    Variables (g : conv) (B Hh Ww OH OW : nat) (x xp e : tensor).
    Hypothesis (Px : pads g B Hh Ww x xp) (Se : shape e = [B; c_out g; OH; OW]) (We : twf e).
    Hypothesis (EH : conv_out Hh (c_ph g) (c_dh g) (c_kh g) (c_sh g) OH) (EW : conv_out Ww (c_pw g) (c_dw g) (c_kw g) (c_sw g) OW).
    Hypothesis (PB : 0 < B) (PC : 0 < c_in g) (PO : 0 < c_out g) (Eg : c_groups g = 1).
    Let H' := Hh + 2 * c_ph g. Let W' := Ww + 2 * c_pw g. Let g0 := unpadded g.
    Lemma conv_out_0 n p d k s o : conv_out n p d k s o -> conv_out (n + 2 * p) 0 d k s o.
    Proof. intros (A & K & L & ->). repeat split; try assumption; [lia|]. do 2 f_equal. lia. Qed.
    Lemma conv_out_lt n p d k s o i j : conv_out n p d k s o -> i < o -> j < k -> i * s + j * d < n + 2 * p.
    Proof.
      intros (A & K & L & ->) Li Lj.
      set (m := n + 2 * p - d * (k - 1) - 1) in *. assert (i <= m / s) by lia.
      pose proof (Nat.mul_div_le m s). assert (j * d <= d * (k - 1)) by (rewrite Nat.mul_comm; apply Nat.mul_le_mono_l; lia). nia.
    Qed.
    Lemma ge_margin a o c kh kw : a < B -> c < c_in g -> kh < c_kh g -> kw < c_kw g ->
      ge g0 H' W' OH OW xp e a o c kh kw = fadd (ge g Hh Ww OH OW x e a o c kh kw) (margin_part g Hh Ww OH OW xp e a o c kh kw).
    Proof.
      intros La Lc Lkh Lkw. destruct Px as (Sx & Sp & EP). unfold ge, margin_part. rewrite <- sum_add. apply sum_ext. intros oh Loh.
      rewrite <- sum_add. apply sum_ext. intros ow Low.
      pose proof (conv_out_lt _ _ _ _ _ _ oh kh EH Loh Lkh) as Lr. pose proof (conv_out_lt _ _ _ _ _ _ ow kw EW Low Lkw) as Lq.
      unfold pix. cbn [g0 unpadded c_sh c_dh c_sw c_dw c_ph c_pw]. set (r := oh * c_sh g + kh * c_dh g) in *. set (q := ow * c_sw g + kw * c_dw g) in *.
      assert (E1 : pixel xp H' W' a c (Z.of_nat r - Z.of_nat 0) (Z.of_nat q - Z.of_nat 0) = tget xp [a; c; r; q]).
      { unfold pixel, H', W'. rewrite !Z.sub_0_r, !Nat2Z.id.
        destruct (Z.leb_spec 0 (Z.of_nat r)); [|lia]. destruct (Z.ltb_spec (Z.of_nat r) (Z.of_nat (Hh + 2 * c_ph g))); [|lia].
        destruct (Z.leb_spec 0 (Z.of_nat q)); [|lia]. destruct (Z.ltb_spec (Z.of_nat q) (Z.of_nat (Ww + 2 * c_pw g))); [|lia]. reflexivity. }
      rewrite E1. unfold margin.
      destruct ((c_ph g <=? r) && (r <? c_ph g + Hh) && (c_pw g <=? q) && (q <? c_pw g + Ww))%bool eqn:I; cbn [negb].
      - apply andb_prop in I. destruct I as [I I4]. apply andb_prop in I. destruct I as [I I3]. apply andb_prop in I. destruct I as [I1 I2].
        apply Nat.leb_le in I1, I3. apply Nat.ltb_lt in I2, I4.
        rewrite <- (padded_pixel x B (c_in g)) by exact Sx. unfold padded. rewrite Sx.
        destruct (Nat.leb_spec (c_ph g) r); [|lia]. destruct (Nat.ltb_spec (r - c_ph g) Hh); [|lia].
        destruct (Nat.leb_spec (c_pw g) q); [|lia]. destruct (Nat.ltb_spec (q - c_pw g) Ww); [|lia]. cbn [andb].
        rewrite <- EP by lia. rewrite !Nat.sub_add by assumption. ring.
      - rewrite <- (padded_pixel x B (c_in g)) by exact Sx. unfold padded. rewrite Sx.
        destruct (Nat.leb_spec (c_ph g) r), (Nat.ltb_spec (r - c_ph g) Hh), (Nat.ltb_spec r (c_ph g + Hh)),
          (Nat.leb_spec (c_pw g) q), (Nat.ltb_spec (q - c_pw g) Ww), (Nat.ltb_spec q (c_pw g + Ww)); cbn [andb] in *; try ring; try discriminate I; lia.
    Qed.
    Lemma psg_pad_mode : exists G, psg_padded PadMode g x e = Ok G /\ shape G = [B; c_out g; c_in g * (c_kh g * c_kw g)] /\ twf G /\
      forall b a, a < B -> is_gradient (fun K => dot (slice e a) (slice (conv2d (unpadded g) K b B (Hh + 2 * c_ph g) (Ww + 2 * c_pw g) OH OW xp) a))
        [c_out g; c_in g; c_kh g; c_kw g]
        (tgen [c_out g; c_in g; c_kh g; c_kw g] (fun i =>
           fadd (tget G [a; ix 0 i; (ix 1 i * c_kh g + ix 2 i) * c_kw g + ix 3 i])
                (margin_part g Hh Ww OH OW xp e a (ix 0 i) (ix 1 i) (ix 2 i) (ix 3 i)))).
    Proof.
      pose proof Px as (Sx & Sp & EP).
      destruct (psg_conv_ok g B Hh Ww OH OW x e Sx Se EH EW PB PC PO) as (G & E & WG & SG & EG).
      exists G. split; [exact E|]. split; [exact SG|]. split; [exact WG|]. intros b a La. split; [apply tgen_wf|].
      intros K K' S1 S2 _ _.
      rewrite !(dot_conv_lin g0 B H' W' OH OW xp e Se (conv_out_0 _ _ _ _ _ _ EH) (conv_out_0 _ _ _ _ _ _ EW)) by assumption.
      match goal with |- context [tgen ?s ?f] => set (D := tgen s f) end.
      assert (X : forall V : tensor, shape V = [c_out g; c_in g; c_kh g; c_kw g] -> dot D V =
        sum (c_out g) (fun o => sum (c_in g) (fun c => sum (c_kh g) (fun kh => sum (c_kw g) (fun kw =>
             fmul (ge g0 H' W' OH OW xp e a o c kh kw) (tget V [o; c; kh; kw])))))).
      { intros V SV. unfold dot.
        replace (length (data D)) with (c_out g * (c_in g * (c_kh g * c_kw g))).
        2:{ unfold D. rewrite (tgen_wf _ _). cbn [shape tgen]. rewrite !prod_cons. change (prod []) with 1. ring. }
        rewrite sum_mul. apply sum_ext. intros o Lo. rewrite sum_mul. apply sum_ext. intros c Lc.
        rewrite sum_mul. apply sum_ext. intros kh Lkh. apply sum_ext. intros kw Lkw.
        replace (o * (c_in g * (c_kh g * c_kw g)) + (c * (c_kh g * c_kw g) + (kh * c_kw g + kw)))
          with (ravel [c_out g; c_in g; c_kh g; c_kw g] [o; c; kh; kw]).
        2:{ cbn [ravel]. rewrite !prod_cons. change (prod []) with 1. ring. }
        assert (Va : valid [c_out g; c_in g; c_kh g; c_kw g] [o; c; kh; kw]) by (apply valid4; assumption).
        f_equal; [|unfold tget; rewrite SV; reflexivity].
        unfold D. rewrite nth_tgen by (apply ravel_lt; exact Va). rewrite unravel_ravel by exact Va. cbn [ix nth].
        rewrite EG by assumption. symmetry. apply ge_margin; assumption. }
      rewrite !X by assumption. cbn [g0 unpadded c_in c_out c_kh c_kw c_groups]. rewrite Eg, !Nat.div_1_r.
      assert (Y : forall V : tensor, sum (c_out g) (fun o => sum (c_in g) (fun c => sum (c_kh g) (fun kh => sum (c_kw g) (fun kw =>
        fmul (ge g0 H' W' OH OW xp e a o (c + o / c_out g * c_in g) kh kw) (tget V [o; c; kh; kw]))))) =
        sum (c_out g) (fun o => sum (c_in g) (fun c => sum (c_kh g) (fun kh => sum (c_kw g) (fun kw =>
        fmul (ge g0 H' W' OH OW xp e a o c kh kw) (tget V [o; c; kh; kw])))))).
      { intros V. apply sum_ext. intros o Lo. rewrite (Nat.div_small o) by exact Lo. apply sum_ext. intros c _. rewrite Nat.mul_0_l, Nat.add_0_r. reflexivity. }
      change (unpadded g) with g0. rewrite !Y. ring.
    Qed.
  End Mode.

  (** rows for the statistics *)
  Lemma make_2d_bare (t : tensor) lt : shape t = [] -> make_2d t None lt = Err IndexError.
  Proof. intros E. cbn [make_2d]. rewrite E. reflexivity. Qed.
  Lemma make_2d_type (t : tensor) k lt : lt <> "forward"%string -> lt <> "backward"%string -> make_2d t (Some k) lt = Err ValueError.
  Proof. intros N1 N2. cbn [make_2d]. apply String.eqb_neq in N1, N2. rewrite N1, N2. reflexivity. Qed.
  Lemma make_2d_scalar (t : tensor) k1 k2 lt : shape t = [] -> lt = "forward"%string \/ lt = "backward"%string ->
    make_2d t (Some (KLinear k1 k2)) lt = Err IndexError.
  Proof. intros E [-> | ->]; cbn [make_2d String.eqb Ascii.eqb Bool.eqb make_forward_2d make_backward_2d]; rewrite E; reflexivity. Qed.
  Lemma make_2d_module (t : tensor) k lt : lt = "forward"%string \/ lt = "backward"%string ->
    (forall i o, k <> KLinear i o) -> (forall g, k <> KConv2d g) -> make_2d t (Some k) lt = Err InvalidModuleError.
  Proof. intros [-> | ->] N1 N2; destruct k; try reflexivity; try (destruct (N1 _ _ eq_refl)); destruct (N2 _ eq_refl). Qed.
  Lemma make_2d_unbatched (t : tensor) g C Hh Ww : shape t = [C; Hh; Ww] -> 0 < c_sh g -> 0 < c_sw g -> 0 < c_kh g -> 0 < c_kw g ->
    make_2d t (Some (KConv2d g)) "backward" = Err RuntimeError /\
    make_2d t (Some (KConv2d g)) "forward" = Err (if (Ww + 2 * c_pw g <? c_kh g) || (c_kh g <? c_kw g) then RuntimeError else IndexError).
  Proof.
    intros E P1 P2 P3 P4. cbn [make_2d String.eqb Ascii.eqb Bool.eqb make_forward_2d make_backward_2d]. split; [rewrite E; reflexivity|].
    unfold extract_patches. rewrite E. unfold out_size.
    destruct (Nat.eqb_spec (c_sh g) 0); [lia|]. destruct (Nat.eqb_spec (c_sw g) 0); [lia|]. cbn [orb].
    destruct (Nat.ltb_spec (Ww + 2 * c_pw g) (1 * (c_kh g - 1) + 1)), (Nat.ltb_spec (Ww + 2 * c_pw g) (c_kh g)); try lia; [reflexivity|]. cbn [bind orb].
    destruct (Nat.ltb_spec (c_kh g + 2 * 0) (1 * (c_kw g - 1) + 1)), (Nat.ltb_spec (c_kh g) (c_kw g)); try lia; reflexivity.
  Qed.
End Proofs.
