(** Gradient theorems assembled from GradProofs1 and GradProofs2. *)
From Coq Require Import ZArith.
From Verif Require Import Py Field Tensor ModelGrad SpecGrad GradProofs1 GradProofs2.
Local Open Scope nat_scope.

Section Proofs.
  Context {F : Type} `{OField F}.
  Add Field FfG3 : f_theory.
  Notation tensor := (tensor F).

  Lemma gradient_unique phi wsh (G G' : tensor) : is_gradient phi wsh G -> is_gradient phi wsh G' -> data G = data G'.
  Proof.
    intros (L1 & E1) (L2 & E2). apply dot_unique; [congruence|]. intros W LW. rewrite L1 in LW.
    assert (Z : forall c : tensor, length (data c) = prod wsh -> dot c (tzeros wsh) = f0).
    { intros c _. unfold dot. apply sum_zero. intros i _. unfold tzeros. cbn [data]. rewrite nth_repeat. ring. }
    assert (D : forall c : tensor, dot c W = dot c (T wsh (data W))) by reflexivity.
    rewrite !D. specialize (E1 (tzeros wsh) (T wsh (data W)) eq_refl eq_refl (tzeros_wf _) LW).
    specialize (E2 (tzeros wsh) (T wsh (data W)) eq_refl eq_refl (tzeros_wf _) LW).
    rewrite !Z in * by assumption. rewrite E1 in E2.
    transitivity (fsub (dot G (T wsh (data W))) f0); [ring|]. rewrite E2. ring.
  Qed.
  Lemma dot_slices n rest (t u : tensor) : shape t = n :: rest -> shape u = n :: rest -> twf t ->
    dot t u = sum n (fun a => dot (slice t a) (slice u a)).
  Proof.
    intros St Su Wt. unfold dot. rewrite Wt, St, prod_cons, sum_mul. apply sum_ext. intros a La.
    rewrite (slice_length_t n rest) by assumption. apply sum_ext. intros j Lj.
    rewrite !(nth_slice_t n rest) by assumption. reflexivity.
  Qed.

  Lemma psg_linear_correct n mid NI NJ k1 k2 (x e : tensor) : twf e ->
    shape x = n :: mid ++ [NJ] -> shape e = n :: mid ++ [NI] ->
    exists G, compute_per_sample_gradient x e (KLinear k1 k2) = Ok G /\ shape G = [n; NI; NJ] /\ twf G /\
      (forall b a, a < n -> is_gradient (fun W => dot (slice e a) (slice (linear W b (n :: mid) NI NJ x) a)) [NI; NJ] (slice G a)) /\
      (forall b W W', shape W = [NI; NJ] -> shape W' = [NI; NJ] ->
         fsub (dot e (linear W' b (n :: mid) NI NJ x)) (dot e (linear W b (n :: mid) NI NJ x)) =
         sum n (fun a => fsub (dot (slice G a) W') (dot (slice G a) W))).
  Proof.
    intros We Sx Se. exists (G_lin n mid NI NJ x e). cbn [compute_per_sample_gradient].
    split; [apply psg_linear_ok; assumption|]. split; [reflexivity|]. split; [apply G_lin_wf|]. split.
    - intros b a La. split.
      + apply (slice_length_t n [NI; NJ]); [reflexivity|apply G_lin_wf|exact La].
      + intros W W' S1 S2 _ _. apply psg_linear_grad; assumption.
    - intros b W W' S1 S2. rewrite !(dot_slices n (mid ++ [NI]) e) by (assumption || reflexivity).
      rewrite <- sum_sub. apply sum_ext. intros a La. apply psg_linear_grad; assumption.
  Qed.
  (** ---- broadcasting ---- *)
  Lemma bshape_spec a b : length a = length b ->
    match bshape a b with
    | Ok l => length l = length a /\ forall k, (nth k a 1 = nth k b 1 \/ nth k a 1 = 1 \/ nth k b 1 = 1) /\ nth k l 1 = if nth k a 1 =? 1 then nth k b 1 else nth k a 1
    | Err x => x = RuntimeError /\ exists k, k < length a /\ nth k a 1 <> nth k b 1 /\ nth k a 1 <> 1 /\ nth k b 1 <> 1
    end.
  Proof.
    revert b. induction a as [|p a IH]; intros [|q b] L; try discriminate L.
    - split; [reflexivity|]. intros [|k]; cbn; auto.
    - cbn [bshape]. injection L as L. specialize (IH b L). destruct (bshape a b) as [l|e]; cbn [bind].
      + destruct IH as (Ll & IH).
        assert (K : forall r, (p = q \/ p = 1 \/ q = 1) -> r = (if p =? 1 then q else p) -> length (r :: l) = length (p :: a) /\
          forall k, (nth k (p :: a) 1 = nth k (q :: b) 1 \/ nth k (p :: a) 1 = 1 \/ nth k (q :: b) 1 = 1) /\
            nth k (r :: l) 1 = if nth k (p :: a) 1 =? 1 then nth k (q :: b) 1 else nth k (p :: a) 1).
        { intros r Hc Hr. split; [cbn; congruence|]. intros [|k]; cbn [nth]; [split; assumption|apply IH]. }
        destruct (p =? q) eqn:E1; [apply Nat.eqb_eq in E1; apply K; [auto|destruct (p =? 1) eqn:E2; [apply Nat.eqb_eq in E2|]; congruence]|].
        destruct (p =? 1) eqn:E2; [apply Nat.eqb_eq in E2; apply K; auto|].
        destruct (q =? 1) eqn:E3; [apply Nat.eqb_eq in E3; apply K; auto|].
        split; [reflexivity|]. exists 0. cbn. rewrite Nat.eqb_neq in *. repeat split; try assumption. lia.
      + destruct IH as (-> & k & Hk & IH). split; [reflexivity|]. exists (S k). cbn [nth length]. split; [lia|exact IH].
  Qed.
  Lemma rev_nth1 (l : list nat) k : nth k (rev l) 1 = if k <? length l then nth (length l - S k) l 1 else 1.
  Proof.
    destruct (k <? length l) eqn:E; [apply Nat.ltb_lt in E; apply rev_nth; exact E|].
    apply Nat.ltb_ge in E. apply nth_overflow. rewrite rev_length. exact E.
  Qed.
  Lemma repeat_nth1 m k : nth k (repeat 1 m) 1 = 1.
  Proof. revert k. induction m as [|m IH]; intros [|k]; cbn; auto. Qed.
  Lemma size_at_pad k m sh : size_at k (pad_left m sh) = size_at k sh.
  Proof.
    unfold size_at, pad_left. rewrite rev_app_distr. destruct (Nat.lt_ge_cases k (length (rev sh))) as [L|L].
    - apply app_nth1. exact L.
    - rewrite app_nth2 by exact L. rewrite (nth_overflow (rev sh)) by exact L.
      replace (rev (repeat 1 (m - length sh))) with (repeat 1 (m - length sh)); [apply repeat_nth1|].
      clear. induction (m - length sh) as [|n IH]; [reflexivity|]. cbn [repeat rev]. rewrite <- IH. clear. induction n as [|n IH]; [reflexivity|]. cbn. f_equal. exact IH.
  Qed.
  Lemma pad_left_length m sh : length (pad_left m sh) = max m (length sh).
  Proof. unfold pad_left. rewrite app_length, repeat_length. lia. Qed.
  Lemma nth_size_at sh k : k < length sh -> nth k sh 1 = size_at (length sh - S k) sh.
  Proof. intros L. unfold size_at. rewrite rev_nth by lia. f_equal. lia. Qed.
  Lemma bcast_spec a b :
    match bcast a b with
    | Ok l => ~ incompatible a b /\ broadcast a b l
    | Err x => x = RuntimeError /\ incompatible a b
    end.
  Proof.
    unfold bcast. assert (L : length (pad_left (length b) a) = length (pad_left (length a) b)) by (rewrite !pad_left_length; lia).
    pose proof (bshape_spec _ _ L) as HB. destruct (bshape _ _) as [l|e].
    - destruct HB as (Ll & HB).
      assert (K : forall k, (size_at k a = size_at k b \/ size_at k a = 1 \/ size_at k b = 1) /\ size_at k l = if size_at k a =? 1 then size_at k b else size_at k a).
      { intros k. destruct (Nat.lt_ge_cases k (length l)) as [Lk|Lk].
        - specialize (HB (length l - S k)). rewrite <- (size_at_pad k (length b) a), <- (size_at_pad k (length a) b).
          rewrite !nth_size_at in HB by lia. rewrite <- L, Ll in HB. rewrite pad_left_length in *.
          replace (Nat.max (length b) (length a) - S (Nat.max (length b) (length a) - S k)) with k in HB by lia. exact HB.
        - rewrite pad_left_length in Ll. unfold size_at. rewrite !nth_overflow by (rewrite rev_length; lia). cbn. auto. }
      split.
      + intros (k & N1 & N2 & N3). destruct (K k) as ([?|[?|?]] & _); contradiction.
      + split; [rewrite Ll, pad_left_length; lia|]. intros k. destruct (K k) as (C & E). destruct (size_at k a =? 1) eqn:E1.
        * apply Nat.eqb_eq in E1. rewrite E, E1. auto.
        * rewrite E. apply Nat.eqb_neq in E1. intuition congruence.
    - destruct HB as (-> & k & Lk & N). split; [reflexivity|]. exists (length (pad_left (length b) a) - S k).
      rewrite !nth_size_at in N by lia. rewrite <- L in N. rewrite !size_at_pad in N. exact N.
  Qed.
  Lemma psg_linear_mismatch lx le NI NJ k1 k2 (x e : tensor) : shape x = lx ++ [NJ] -> shape e = le ++ [NI] -> incompatible lx le ->
    compute_per_sample_gradient x e (KLinear k1 k2) = Err RuntimeError.
  Proof.
    intros Sx Se (k & N1 & N2 & N3). cbn [compute_per_sample_gradient]. unfold psg_linear, einsum_outer. rewrite Sx, Se, !split_last_app.
    pose proof (bcast_spec le lx) as HB. destruct (bcast le lx) as [l|x0]; [|destruct HB as (-> & _); reflexivity].
    destruct HB as (HB & _). exfalso. apply HB. exists k. auto.
  Qed.
  Lemma valid_nth sh i : valid sh i <-> length i = length sh /\ forall k, k < length sh -> nth k i 0 < nth k sh 1.
  Proof.
    split.
    - intros V. induction V as [|j n i sh Lt V IH]; [split; [reflexivity|cbn; lia]|]. destruct IH as (L & IH).
      split; [cbn; congruence|]. intros [|k] Lk; cbn [nth]; [exact Lt|]. apply IH. cbn in Lk. lia.
    - revert i. induction sh as [|n sh IH]; intros [|j i] (L & Hk); try discriminate L; [constructor|]. constructor.
      + apply (Hk 0). cbn. lia.
      + apply IH. split; [cbn in L; lia|]. intros k Lk. apply (Hk (S k)). cbn. lia.
  Qed.
  Lemma bclip_length sh i : length i = length sh -> length (bclip sh i) = length sh.
  Proof. revert i. induction sh as [|n sh IH]; intros [|j i] L; try discriminate L; [reflexivity|]. cbn. f_equal. apply IH. cbn in L. lia. Qed.
  Lemma bclip_nth sh i k : length i = length sh -> k < length sh -> nth k (bclip sh i) 0 = if nth k sh 1 =? 1 then 0 else nth k i 0.
  Proof.
    revert i k. induction sh as [|n sh IH]; intros [|j i] [|k] L Lk; try discriminate L; try (cbn in Lk; lia); cbn [bclip nth]; [reflexivity|].
    apply IH; cbn in *; lia.
  Qed.
  Lemma bclip_snoc sh i n j : length i = length sh -> j < n -> bclip (sh ++ [n]) (i ++ [j]) = bclip sh i ++ [j].
  Proof.
    revert i. induction sh as [|p sh IH]; intros [|q i] L Lj; try discriminate L.
    - cbn. destruct (n =? 1) eqn:E; [apply Nat.eqb_eq in E; f_equal; lia|reflexivity].
    - cbn [bclip app]. f_equal. apply IH; cbn in *; lia.
  Qed.
  Lemma valid_app_last l n i j : valid l i -> j < n -> valid (l ++ [n]) (i ++ [j]).
  Proof. intros V L. apply Forall2_app; [exact V|]. constructor; [exact L|constructor]. Qed.
  Lemma expand_expanded lead l n (t : tensor) : shape t = lead ++ [n] -> twf t -> length lead <= length l ->
    (forall k, size_at k lead = size_at k l \/ size_at k lead = 1) -> expanded lead l n t (expand_lead t lead l n).
  Proof.
    intros St Wt Ll HS. unfold expand_lead. destruct (same_shape lead l) eqn:ES.
    - apply same_shape_true in ES. subst l. split; [exact St|]. split; [exact Wt|]. intros i j V Lj. exists i.
      pose proof (proj1 (valid_nth _ _) V) as (Li & Hi). split; [exact V|]. split; [|reflexivity]. intros k Lk. destruct (size_at k lead =? 1) eqn:E; [|reflexivity].
      apply Nat.eqb_eq in E. specialize (Hi (length lead - S k) ltac:(lia)). rewrite nth_size_at in Hi by lia.
      replace (length lead - S (length lead - S k)) with k in Hi by lia. rewrite rev_nth by lia. rewrite Li. lia.
    - split; [reflexivity|]. split; [apply tgen_wf|]. intros i j V Lj. pose proof (proj1 (valid_nth _ _) V) as (Li & Hi).
      assert (Ls : length (skipn (length l - length lead) i) = length lead) by (rewrite skipn_length; lia).
      exists (bclip lead (skipn (length l - length lead) i)).
      assert (HN : forall k, k < length lead -> nth k (rev (bclip lead (skipn (length l - length lead) i))) 0 = if size_at k lead =? 1 then 0 else nth k (rev i) 0).
      { intros k Lk. rewrite rev_nth by (rewrite bclip_length by exact Ls; exact Lk). rewrite bclip_length by exact Ls.
        rewrite bclip_nth by (exact Ls || lia). rewrite nth_size_at by lia. replace (length lead - S (length lead - S k)) with k by lia.
        destruct (size_at k lead =? 1); [reflexivity|]. rewrite rev_nth by lia.
        transitivity (nth (length i - S k) (firstn (length l - length lead) i ++ skipn (length l - length lead) i) 0); [|rewrite firstn_skipn; reflexivity]. rewrite app_nth2; rewrite firstn_length; [f_equal; lia|lia]. }
      split; [|split; [exact HN|]].
      + apply valid_nth. split; [rewrite bclip_length by exact Ls; reflexivity|]. intros k Lk. specialize (HN (length lead - S k) ltac:(lia)).
        rewrite rev_nth in HN by (rewrite bclip_length by exact Ls; lia). rewrite bclip_length in HN by exact Ls.
        replace (length lead - S (length lead - S k)) with k in HN by lia. rewrite HN. rewrite nth_size_at by exact Lk.
        destruct (size_at (length lead - S k) lead =? 1) eqn:E; [apply Nat.eqb_eq in E; lia|]. apply Nat.eqb_neq in E.
        destruct (HS (length lead - S k)) as [HS'|HS']; [|contradiction]. rewrite HS'. rewrite rev_nth by lia.
        specialize (Hi (length i - S (length lead - S k)) ltac:(lia)). rewrite nth_size_at in Hi by lia.
        replace (length l - S (length i - S (length lead - S k))) with (length lead - S k) in Hi by lia. exact Hi.
      + rewrite tget_tgen by (apply valid_app_last; assumption). f_equal. rewrite skipn_app.
        replace (length l - length lead - length i) with 0 by lia. cbn [skipn]. rewrite bclip_snoc by assumption. reflexivity.
  Qed.
  Lemma psg_linear_broadcast lx le NI NJ k1 k2 (x e : tensor) : shape x = lx ++ [NJ] -> shape e = le ++ [NI] -> twf x -> twf e -> ~ incompatible lx le ->
    exists l x' e', broadcast lx le l /\ expanded lx l NJ x x' /\ expanded le l NI e e' /\
      compute_per_sample_gradient x e (KLinear k1 k2) = compute_per_sample_gradient x' e' (KLinear k1 k2).
  Proof.
    intros Sx Se Wx We NB. pose proof (bcast_spec le lx) as HB. destruct (bcast le lx) as [l|x0] eqn:EB.
    - destruct HB as (_ & Ll & HB). exists l, (expand_lead x lx l NJ), (expand_lead e le l NI).
      assert (X : expanded lx l NJ x (expand_lead x lx l NJ)) by (apply expand_expanded; [assumption..|lia|intros k; apply (HB k)]).
      assert (E : expanded le l NI e (expand_lead e le l NI)) by (apply expand_expanded; [assumption..|lia|intros k; apply (HB k)]).
      split; [split; [lia|intros k; destruct (HB k) as (?&?&?); intuition]|]. split; [exact X|]. split; [exact E|].
      destruct X as (SX & _), E as (SE & _). cbn [compute_per_sample_gradient]. unfold psg_linear. f_equal. unfold einsum_outer.
      rewrite SX, SE, Sx, Se, !split_last_app, EB, bcast_refl. cbn [bind]. rewrite !expand_lead_refl. reflexivity.
    - destruct HB as (_ & k & N1 & N2 & N3). exfalso. apply NB. exists k. auto.
  Qed.
  (** no batch dimension: the reduction has nothing to keep *)
  Lemma psg_linear_unbatched NI NJ k1 k2 (x e : tensor) : shape x = [NJ] -> shape e = [NI] ->
    compute_per_sample_gradient x e (KLinear k1 k2) = Err RuntimeError.
  Proof.
    intros Sx Se. cbn [compute_per_sample_gradient]. unfold psg_linear, einsum_outer. rewrite Sx, Se. reflexivity.
  Qed.

  Section Conv.
    Variables (g : conv) (B Hh Ww OH OW : nat) (x e : tensor).
    Hypothesis (Sx : shape x = [B; c_in g; Hh; Ww]) (Se : shape e = [B; c_out g; OH; OW]) (We : twf e).
    Hypothesis (EH : conv_out Hh (c_ph g) (c_dh g) (c_kh g) (c_sh g) OH) (EW : conv_out Ww (c_pw g) (c_dw g) (c_kw g) (c_sw g) OW).
    Hypothesis (PB : 0 < B) (PC : 0 < c_in g) (PO : 0 < c_out g).

    Lemma psg_conv_correct : c_groups g = 1 ->
      exists G, compute_per_sample_gradient x e (KConv2d g) = Ok G /\
        shape G = [B; c_out g; c_in g * (c_kh g * c_kw g)] /\ twf G /\
        forall b a, a < B -> is_gradient (fun K => dot (slice e a) (slice (conv2d g K b B Hh Ww OH OW x) a))
                               [c_out g; c_in g; c_kh g; c_kw g] (slice G a).
    Proof.
      intros Eg. destruct (psg_conv_ok g B Hh Ww OH OW x e Sx Se EH EW PB PC PO) as (G & E & WG & SG & EG).
      exists G. split; [exact E|]. split; [exact SG|]. split; [exact WG|]. intros b a La. split.
      - rewrite (slice_length_t B [c_out g; c_in g * (c_kh g * c_kw g)]) by assumption. cbn. ring.
      - intros K K' S1 S2 _ _. rewrite !(dot_conv_lin g B Hh Ww OH OW x e Se EH EW) by assumption.
        rewrite !(dot_G g B Hh Ww OH OW x e Se EH EW) by assumption. ring.
    Qed.

    (** grouped: the logged rows contain the gradient of every (output channel, its group's input channel) *)
    Lemma psg_conv_grouped : 0 < c_groups g -> c_in g mod c_groups g = 0 -> c_out g mod c_groups g = 0 ->
      exists G, compute_per_sample_gradient x e (KConv2d g) = Ok G /\
        shape G = [B; c_out g; c_in g * (c_kh g * c_kw g)] /\ twf G /\
        (forall a, a < B -> length (data (slice G a)) = c_groups g * prod [c_out g; c_in g / c_groups g; c_kh g; c_kw g]) /\
        forall b a, a < B -> is_gradient (fun K => dot (slice e a) (slice (conv2d g K b B Hh Ww OH OW x) a))
          [c_out g; c_in g / c_groups g; c_kh g; c_kw g]
          (tgen [c_out g; c_in g / c_groups g; c_kh g; c_kw g] (fun i =>
             tget G [a; ix 0 i; ((ix 1 i + ix 0 i / (c_out g / c_groups g) * (c_in g / c_groups g)) * c_kh g + ix 2 i) * c_kw g + ix 3 i])).
    Proof.
      intros Pg Mi Mo. destruct (psg_conv_ok g B Hh Ww OH OW x e Sx Se EH EW PB PC PO) as (G & E & WG & SG & EG).
      set (cig := c_in g / c_groups g). set (cog := c_out g / c_groups g).
      assert (Ei : c_in g = c_groups g * cig) by (apply Nat.div_exact; lia).
      assert (Eo : c_out g = c_groups g * cog) by (apply Nat.div_exact; lia).
      exists G. split; [exact E|]. split; [exact SG|]. split; [exact WG|]. split.
      { intros a La. rewrite (slice_length_t B [c_out g; c_in g * (c_kh g * c_kw g)]) by assumption.
        rewrite !prod_cons. change (prod []) with 1. rewrite Ei at 1. ring. }
      intros b a La. split; [apply tgen_wf|].
      intros K K' S1 S2 _ _. rewrite !(dot_conv_lin g B Hh Ww OH OW x e Se EH EW) by assumption.
      match goal with |- context [tgen ?s ?f] => set (D := tgen s f) end.
      assert (X : forall V : tensor, shape V = [c_out g; cig; c_kh g; c_kw g] -> dot D V =
        sum (c_out g) (fun o => sum cig (fun c => sum (c_kh g) (fun kh => sum (c_kw g) (fun kw =>
             fmul (ge g Hh Ww OH OW x e a o (c + o / cog * cig) kh kw) (tget V [o; c; kh; kw])))))).
      { intros V SV. unfold dot.
        replace (length (data D)) with (c_out g * (cig * (c_kh g * c_kw g))).
        2:{ unfold D. rewrite (tgen_wf _ _). cbn [shape tgen]. rewrite !prod_cons. change (prod []) with 1. ring. }
        rewrite sum_mul. apply sum_ext. intros o Lo. rewrite sum_mul. apply sum_ext. intros c Lc.
        rewrite sum_mul. apply sum_ext. intros kh Lkh. apply sum_ext. intros kw Lkw.
        replace (o * (cig * (c_kh g * c_kw g)) + (c * (c_kh g * c_kw g) + (kh * c_kw g + kw)))
          with (ravel [c_out g; cig; c_kh g; c_kw g] [o; c; kh; kw]).
        2:{ cbn [ravel]. rewrite !prod_cons. change (prod []) with 1. ring. }
        assert (Va : valid [c_out g; cig; c_kh g; c_kw g] [o; c; kh; kw]) by (apply valid4; assumption).
        f_equal; [|unfold tget; rewrite SV; reflexivity].
        unfold D. rewrite nth_tgen by (apply ravel_lt; exact Va). rewrite unravel_ravel by exact Va. cbn [ix nth].
        apply EG; try assumption.
        assert (o / cog < c_groups g) by (apply Nat.div_lt_upper_bound; [intros Z; rewrite Z, Nat.mul_0_r in Eo; lia|lia]).
        rewrite Ei. nia. }
      rewrite !X by assumption. unfold cig, cog. ring.
    Qed.
  End Conv.

  (** shape errors and unsupported modules *)
  Lemma psg_other (x e : tensor) :
    compute_per_sample_gradient x e KConv1d = Err NotImplementedError /\
    compute_per_sample_gradient x e KEmbedding = Err ValueError /\
    compute_per_sample_gradient x e KOther = Err ValueError.
  Proof. repeat split. Qed.
  Lemma psg_conv_small g B C Hh Ww (x e : tensor) : shape x = [B; C; Hh; Ww] ->
    Hh + 2 * c_ph g < c_dh g * (c_kh g - 1) + 1 -> compute_per_sample_gradient x e (KConv2d g) = Err RuntimeError.
  Proof.
    intros Sx Ls. cbn [compute_per_sample_gradient]. unfold psg_conv2d, f_unfold, unfold_rows. rewrite Sx. unfold out_size.
    destruct (Nat.ltb_spec (Hh + 2 * c_ph g) (c_dh g * (c_kh g - 1) + 1)); [|lia]. rewrite Bool.orb_true_r. reflexivity.
  Qed.
  Lemma mod_neq n m k : m <> 0 -> n mod m <> 0 -> n <> k * m.
  Proof. intros N M E. subst. rewrite Nat.mod_mul in M by exact N. contradiction. Qed.
End Proofs.
