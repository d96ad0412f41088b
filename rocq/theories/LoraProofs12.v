(** The gradient logged at a LoRA bottleneck (C55). *)
From Coq Require Import ZArith Field.
From Verif Require Import Py PyStr Field Tensor ModelGrad Monad ModelState ModelMmap ModelSaver ModelLogger ModelModules ModelLora SpecGrad SpecLora GradProofs1 GradProofs2 GradProofs3 LoraProofs1.
Local Open Scope nat_scope.

Section P.
  Context {F : Type} `{OField F}.
  Notation tensor := (tensor F).
  Add Field fld12 : f_theory.
  Definition nobias : nat -> F := fun _ => f0.

  (** calling a layer computes the textbook function *)
  Lemma f_linear_spec (w : tensor) b lead NO J (x : tensor) : shape w = [NO; J] -> shape x = lead ++ [J] ->
    f_linear w b x = Ok (linear w (bias_at b) lead NO J x).
  Proof. intros Ew Ex. unfold f_linear. rewrite Ew, Ex, split_last_app, Nat.eqb_refl. reflexivity. Qed.
  Lemma f_conv2d_spec g (w : tensor) b B Hh Ww OH OW (x : tensor) : shape x = [B; c_in g; Hh; Ww] ->
    conv_out Hh (c_ph g) (c_dh g) (c_kh g) (c_sh g) OH -> conv_out Ww (c_pw g) (c_dw g) (c_kw g) (c_sw g) OW ->
    f_conv2d g w b x = Ok (conv2d g w (bias_at b) B Hh Ww OH OW x).
  Proof.
    intros Ex E1 E2. unfold f_conv2d. rewrite Ex, Nat.eqb_refl, (conv_out_size _ _ _ _ _ _ E1), (conv_out_size _ _ _ _ _ _ E2). cbn [bind]. f_equal.
    unfold conv2d. apply tgen_ext. intros i _. f_equal. apply sum_ext. intros c _. apply sum_ext. intros kh _. apply sum_ext. intros kw _. f_equal.
    apply (padded_pixel x B (c_in g) Hh Ww). exact Ex.
  Qed.

  (** ---- linear ---- *)
  Lemma nth_mat (d : list F) m a i j : nth (i * m + j) d f0 = mget (T [a; m] d) i j.
  Proof. unfold mget, tget. cbn [shape data ravel]. f_equal. unfold prod. cbn. lia. Qed.
  Section Lin.
    Variables (n : nat) (mid : list nat) (K r : nat) (e wc : tensor).
    Let lead := n :: mid.
    Let P := prod lead.
    Hypothesis (Se : shape e = lead ++ [K]) (We : twf e).
    (** gradient at the input of a linear layer with weight [wc], given the gradient [e] at its output *)
    Definition back_lin : tensor := T (lead ++ [r]) (data (mgen P r (fun q i => sum K (fun k => fmul (mget (T [P; K] (data e)) q k) (mget wc k i))))).
    Lemma back_len : length (data back_lin) = prod (lead ++ [r]).
    Proof. unfold back_lin. cbn [data]. rewrite mgen_len, prod_app. fold P. replace (prod [r]) with r by (unfold prod; cbn; lia). reflexivity. Qed.
    Lemma back_get q i : q < P -> i < r -> mget (T [P; r] (data back_lin)) q i = sum K (fun k => fmul (mget (T [P; K] (data e)) q k) (mget wc k i)).
    Proof. intros Hq Hi. unfold back_lin. cbn [data]. exact (mget_mgen P r (fun q i => sum K (fun k => fmul (mget (T [P; K] (data e)) q k) (mget wc k i))) q i Hq Hi). Qed.
    Lemma e_len12 : length (data e) = P * K.
    Proof. rewrite We, Se, prod_app. fold P. unfold prod; cbn [fold_right]. lia. Qed.
    Lemma dot_lin (b : nat -> F) (u : tensor) : dot e (linear wc b lead K r u) =
      sum P (fun q => sum K (fun k => fmul (mget (T [P; K] (data e)) q k) (fadd (sum r (fun i => fmul (mget wc k i) (mget (T [P; r] (data u)) q i))) (b k)))).
    Proof.
      unfold dot. rewrite e_len12, sum_mul. apply sum_ext. intros q Hq. apply sum_ext. intros k Hk. rewrite (nth_mat _ K P). f_equal.
      unfold linear. cbn [data]. fold P. rewrite (nth_mat _ K P). exact (mget_mgen P K (fun q i => fadd (sum r (fun j => fmul (mget wc i j) (mget (T [P; r] (data u)) q j))) (b i)) q k Hq Hk).
    Qed.
    Lemma dot_back (u : tensor) : dot back_lin u = sum P (fun q => sum r (fun i => fmul (sum K (fun k => fmul (mget (T [P; K] (data e)) q k) (mget wc k i))) (mget (T [P; r] (data u)) q i))).
    Proof.
      unfold dot. rewrite back_len, prod_app. fold P. replace (prod [r]) with r by (unfold prod; cbn; lia). rewrite sum_mul. apply sum_ext. intros q Hq. apply sum_ext. intros i Hi.
      rewrite !(nth_mat _ r P). rewrite back_get by assumption. reflexivity.
    Qed.
    Lemma swap_lin (f g h : nat -> nat -> F) M q : sum K (fun k => fmul (f q k) (sum M (fun i => fmul (g k i) (h q i)))) = sum M (fun i => fmul (sum K (fun k => fmul (f q k) (g k i))) (h q i)).
    Proof.
      transitivity (sum K (fun k => sum M (fun i => fmul (f q k) (fmul (g k i) (h q i))))); [apply sum_ext; intros; rewrite <- sum_mul_l; reflexivity|].
      rewrite sum_swap. apply sum_ext. intros i _. rewrite <- sum_mul_r. apply sum_ext. intros k _. ring.
    Qed.
    Lemma back_gradient (b : nat -> F) : is_gradient (fun u => dot e (linear wc b lead K r u)) (lead ++ [r]) back_lin.
    Proof.
      split; [exact back_len|]. intros U U' _ _ _ _. rewrite !dot_lin, !dot_back.
      assert (X : forall u : tensor, sum P (fun q => sum K (fun k => fmul (mget (T [P; K] (data e)) q k) (fadd (sum r (fun i => fmul (mget wc k i) (mget (T [P; r] (data u)) q i))) (b k)))) =
        fadd (sum P (fun q => sum r (fun i => fmul (sum K (fun k => fmul (mget (T [P; K] (data e)) q k) (mget wc k i))) (mget (T [P; r] (data u)) q i))))
             (sum P (fun q => sum K (fun k => fmul (mget (T [P; K] (data e)) q k) (b k))))).
      { intros u. rewrite <- sum_add. apply sum_ext. intros q _. rewrite <- swap_lin, <- sum_add. apply sum_ext. intros k _. ring. }
      rewrite !X. ring.
    Qed.
    Lemma back_unique (b : nat -> F) gB : is_gradient (fun u => dot e (linear wc b lead K r u)) (lead ++ [r]) gB -> data gB = data back_lin.
    Proof. intros G. eapply gradient_unique; [exact G|apply back_gradient]. Qed.
  End Lin.

  Lemma data_same_lin (x x' : tensor) (w : tensor) b lead NO J : data x = data x' -> linear w b lead NO J x = linear w b lead NO J x'.
  Proof. intros E. unfold linear. rewrite E. reflexivity. Qed.

  Lemma lora_linear_projection n mid J K r k1 k2 (x e wa wc gB : tensor) (b : nat -> F) :
    let lead := n :: mid in
    shape x = lead ++ [J] -> shape e = lead ++ [K] -> twf e -> shape wa = [r; J] -> shape wc = [K; r] ->
    shape gB = lead ++ [r] -> is_gradient (fun u => dot e (linear wc b lead K r u)) (lead ++ [r]) gB ->
    exists xa G GB, f_linear wa None x = Ok xa /\ compute_per_sample_gradient x e (KLinear k1 k2) = Ok G /\
      compute_per_sample_gradient xa gB (KLinear r r) = Ok GB /\ shape GB = [n; r; r] /\ twf GB /\
      (forall a i j, a < n -> i < r -> j < r ->
         tget GB [a; i; j] = sum K (fun k => sum J (fun l => fmul (fmul (mget wc k i) (tget G [a; k; l])) (mget wa j l)))) /\
      (forall bb a, a < n -> is_gradient (fun W => dot (slice e a) (slice (linear wc b lead K r (linear W bb lead r r xa)) a)) [r; r] (slice GB a)).
  Proof.
    intros lead Sx Se We Sa Sc Sg Gg. exists (linear wa nobias lead r J x).
    assert (Sxa : shape (linear wa nobias lead r J x) = lead ++ [r]) by reflexivity.
    exists (G_lin n mid K J x e), (G_lin n mid r r (linear wa nobias lead r J x) gB).
    assert (Wg : twf gB) by (destruct Gg as [L _]; unfold twf; rewrite Sg; exact L).
    split; [apply f_linear_spec; assumption|]. split; [apply (psg_linear_ok n mid K J x e Sx Se)|]. split; [apply (psg_linear_ok n mid r r _ gB Sxa Sg)|].
    split; [reflexivity|]. split; [apply tgen_wf|].
    pose proof (back_unique n mid K r e wc Se We b gB Gg) as Dg.
    assert (LQ : forall a p, a < n -> p < prod mid -> a * prod mid + p < prod lead) by (intros a p Ha Hp; unfold lead; rewrite prod_cons; nia).
    split.
    - intros a i j Ha Hi Hj. unfold G_lin. rewrite tget_tgen by (apply valid3; assumption). cbn [ix nth].
      transitivity (sum K (fun k => sum J (fun l => sum (prod mid) (fun p => fmul (fmul (mget wc k i) (fmul (mget (T [n * prod mid; K] (data e)) (a * prod mid + p) k) (mget (T [n * prod mid; J] (data x)) (a * prod mid + p) l))) (mget wa j l))))).
      + transitivity (sum (prod mid) (fun p => sum K (fun k => sum J (fun l => fmul (fmul (mget wc k i) (fmul (mget (T [n * prod mid; K] (data e)) (a * prod mid + p) k) (mget (T [n * prod mid; J] (data x)) (a * prod mid + p) l))) (mget wa j l))))).
        * apply sum_ext. intros p Hp. specialize (LQ a p Ha Hp).
          assert (E1 : mget (T [n * prod mid; r] (data gB)) (a * prod mid + p) i = sum K (fun k => fmul (mget (T [n * prod mid; K] (data e)) (a * prod mid + p) k) (mget wc k i))).
          { rewrite Dg. apply (back_get n mid K r e wc (a * prod mid + p) i LQ Hi). }
          assert (E2 : mget (T [n * prod mid; r] (data (linear wa nobias lead r J x))) (a * prod mid + p) j = sum J (fun l => fmul (mget wa j l) (mget (T [n * prod mid; J] (data x)) (a * prod mid + p) l))).
          { transitivity (fadd (sum J (fun l => fmul (mget wa j l) (mget (T [n * prod mid; J] (data x)) (a * prod mid + p) l))) f0); [|ring].
            exact (mget_mgen (prod lead) r (fun q i => fadd (sum J (fun l => fmul (mget wa i l) (mget (T [prod lead; J] (data x)) q l))) f0) (a * prod mid + p) j LQ Hj). }
          rewrite E1, E2. rewrite <- sum_mul_r. apply sum_ext. intros k _. rewrite <- sum_mul_l. apply sum_ext. intros l _. ring.
        * rewrite sum_swap. apply sum_ext. intros k _. rewrite sum_swap. reflexivity.
      + apply sum_ext. intros k Hk. apply sum_ext. intros l Hl. rewrite tget_tgen by (apply valid3; assumption). cbn [ix nth].
        rewrite <- sum_mul_l, <- sum_mul_r. apply sum_ext. intros p _. ring.
    - intros bb a Ha. destruct (psg_linear_correct n mid r r r r (linear wa nobias lead r J x) gB Wg Sxa Sg) as (G' & EG & _ & _ & C1 & _).
      cbn [compute_per_sample_gradient] in EG. rewrite (psg_linear_ok n mid r r _ gB Sxa Sg) in EG. injection EG as <-.
      destruct (C1 bb a Ha) as [L1 D1]. split; [exact L1|]. intros W W' S1 S2 W1 W2. rewrite <- (D1 W W' S1 S2 W1 W2).
      assert (X : forall u : tensor, shape u = lead ++ [r] -> dot (slice e a) (slice (linear wc b lead K r u) a) =
        fadd (dot (slice gB a) (slice u a)) (sum (prod mid) (fun p => sum K (fun k => fmul (mget (T [n * prod mid; K] (data e)) (a * prod mid + p) k) (b k))))).
      { intros u Su. unfold lead. rewrite (dot_linear n mid K r u e Se We wc b a Ha). unfold dot at 1.
        rewrite (slice_length_t n (mid ++ [r])) by assumption. rewrite prod_app. replace (prod [r]) with r by (unfold prod; cbn; lia). rewrite sum_mul, <- sum_add. apply sum_ext. intros p Hp.
        specialize (LQ a p Ha Hp).
        transitivity (fadd (sum K (fun k => fmul (mget (T [n * prod mid; K] (data e)) (a * prod mid + p) k) (sum r (fun i => fmul (mget wc k i) (mget (T [n * prod mid; r] (data u)) (a * prod mid + p) i)))))
                           (sum K (fun k => fmul (mget (T [n * prod mid; K] (data e)) (a * prod mid + p) k) (b k)))).
        { rewrite <- sum_add. apply sum_ext. intros k _. ring. }
        f_equal. rewrite (swap_lin K (fun q k => mget (T [n * prod mid; K] (data e)) q k) (fun k i => mget wc k i) (fun q i => mget (T [n * prod mid; r] (data u)) q i) r (a * prod mid + p)).
        apply sum_ext. intros i Hi. pose proof (back_get n mid K r e wc (a * prod mid + p) i LQ Hi) as BG. cbn [prod fold_right] in BG.
        assert (Li : p * r + i < prod (mid ++ [r])) by (rewrite prod_app; replace (prod [r]) with r by (unfold prod; cbn; lia); nia).
        rewrite !(nth_slice_t n (mid ++ [r])) by assumption. rewrite prod_app. replace (prod [r]) with r by (unfold prod; cbn; lia).
        replace (a * (prod mid * r) + (p * r + i)) with ((a * prod mid + p) * r + i) by ring. rewrite !(nth_mat _ r (n * prod mid)). f_equal. rewrite Dg. symmetry. exact BG. }
      rewrite !X by reflexivity. unfold lead. ring.
  Qed.
End P.
