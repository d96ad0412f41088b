(** Gradients of linear layers over several calls (C19). *)
From Coq Require Import ZArith Permutation.
From Verif Require Import BcastProofs Py Field Tensor ModelGrad Monad ModelState ModelMmap ModelSaver ModelLogger SpecGrad SpecState SpecLogger GradProofs1 GradProofs3 LogProofs1 LogProofs6.
Local Open Scope nat_scope.

Lemma Forall2_in_r {A B} (R : A -> B -> Prop) l l' b : Forall2 R l l' -> In b l' -> exists a, In a l /\ R a b.
Proof. intros HF. induction HF as [|x y l l' Hxy HF IH]; intros Hb; [destruct Hb|]. destruct Hb as [<-|Hb]; [exists x; split; [left; reflexivity|exact Hxy]|].
  destruct (IH Hb) as (a & Ha & Hr). exists a. split; [right; exact Ha|exact Hr]. Qed.

Section P.
  Context {F : Type} `{OField F}.
  Add Field FfLP7 : f_theory.
  Notation tensor := (tensor F).
  Notation dten := (@dten F).
  Notation lx := (@lx F).
  Variable kind : mid -> mkind.
  Variable wsize : mid -> nat.
  Variable eigh : tensor -> res (tensor * tensor).
  Variable enc : dten -> array.
  Notation run_evs := (run_evs kind eigh).
  Notation reachable := (reachable kind wsize eigh enc).
  Notation psg_is := (psg_is kind).

  Lemma sum_lsum {A} n (f : A -> nat -> F) (l : list A) :
    sum n (fun k => lsum (map (fun a => f a k) l)) = lsum (map (fun a => sum n (f a)) l).
  Proof.
    induction l as [|a l IH].
    - unfold lsum. cbn. apply sum_zero. reflexivity.
    - cbn [map]. unfold lsum in *. cbn [fold_right]. rewrite <- IH, <- sum_add. reflexivity.
  Qed.
  Lemma lsum_fmul (l : list F) c : fmul (lsum l) c = lsum (map (fun a => fmul a c) l).
  Proof. induction l as [|a l IH]; unfold lsum in *; cbn; [ring|]. rewrite <- IH. ring. Qed.
  Lemma lsum_sub {A} (f g : A -> F) l : lsum (map (fun a => fsub (f a) (g a)) l) = fsub (lsum (map f l)) (lsum (map g l)).
  Proof. induction l as [|a l IH]; unfold lsum in *; cbn; [ring|]. rewrite IH. ring. Qed.
  Lemma gradient_sum {A} (phi : A -> tensor -> F) (gs : A -> tensor) (l : list A) wsh (G : tensor) :
    (forall a, In a l -> is_gradient (phi a) wsh (gs a)) -> length (data G) = prod wsh ->
    (forall k, k < prod wsh -> nth k (data G) f0 = lsum (map (fun a => nth k (data (gs a)) f0) l)) ->
    is_gradient (fun W => lsum (map (fun a => phi a W) l)) wsh G.
  Proof.
    intros Hg HL HV. split; [exact HL|]. intros W W' S1 S2 T1 T2.
    assert (HD : forall V : tensor, dot G V = lsum (map (fun a => dot (gs a) V) l)).
    { intros V. unfold dot at 1. rewrite HL. 
      rewrite (sum_ext _ _ (fun k => lsum (map (fun a => fmul (nth k (data (gs a)) f0) (nth k (data V) f0)) l))).
      - rewrite (sum_lsum (prod wsh) (fun a k => fmul (nth k (data (gs a)) f0) (nth k (data V) f0))). f_equal. apply map_ext_in. intros a Ha.
        unfold dot. rewrite (proj1 (Hg a Ha)). reflexivity.
      - intros k Hk. rewrite (HV k Hk), lsum_fmul, map_map. reflexivity. }
    rewrite !HD, <- !lsum_sub. f_equal. apply map_ext_in. intros a Ha. exact (proj2 (Hg a Ha) W W' S1 S2 T1 T2).
  Qed.
  Lemma sum_of_data ts (t : tensor) k : sum_of ts t -> k < prod (shape t) -> nth k (data t) f0 = lsum (map (fun u => nth k (data u) f0) ts).
  Proof.
    intros (HW & HS & HT) Hk. specialize (HT (unravel (shape t) k) (unravel_valid _ _ Hk)). unfold tget in HT. rewrite (ravel_unravel _ _ Hk) in HT.
    rewrite HT. f_equal. apply map_ext_in. intros u Hu. rewrite Forall_forall in HS. rewrite (HS u Hu), (ravel_unravel _ _ Hk). reflexivity.
  Qed.

  Lemma linear_gradient ids mask es (x x1 x2 : lx) rest n N NI NJ : reachable x -> begins ids mask x x1 ->
    o_grad (x_opt x) = PLog :: rest -> ~ In PLog (o_forward (x_opt x)) -> ~ In PLog (o_backward (x_opt x)) ->
    run_evs es x1 = (x2, Ok tt) ->
    let ds := filter (fun d => String.eqb (name_of (x_names x) (fst d)) n) (deliveries (x_heap x) [] es) in
    ds <> [] ->
    (forall d, In d ds -> times (fst d) (x_mods x) = 1 /\ (exists k1 k2, kind (fst d) = KLinear k1 k2) /\ twf (snd (snd (snd d))) /\
       exists md, shape (snd (fst (snd d))) = N :: md ++ [NJ] /\ shape (snd (snd (snd d))) = N :: md ++ [NI]) ->
    exists G, logged x2 n "grad" = Some G /\ shape G = [N; NI; NJ] /\ twf G /\
      forall (b : nat -> F) a, a < N ->
        is_gradient (fun W => lsum (map (fun d => dot (slice (snd (snd (snd d))) a)
          (slice (linear W b (removelast (shape (snd (fst (snd d))))) NI NJ (snd (fst (snd d)))) a)) ds)) [NI; NJ] (slice G a).
  Proof.
    intros HR HB Hg Hf Hb E ds Hne Hds.
    destruct (batch_multiples kind wsize eigh enc ids mask es x x1 x2 rest n 1 HR HB Hg Hf Hb E ltac:(lia)) as (ts & HF & HL).
    { intros d Hd En. apply Hds. apply filter_In. split; [exact Hd|]. apply String.eqb_eq. exact En. }
    fold ds in HF. destruct ts as [|t0 ts0]; [inversion HF; congruence|]. remember (t0 :: ts0) as ts eqn:Ets.
    destruct HL as (G & EG & HW & HH & HS & HV). exists G. split; [exact EG|].
    (* every gradient is that of a linear layer *)
    assert (HP : forall d t, In d ds -> psg_is d t -> shape t = [N; NI; NJ] /\ twf t /\ forall b a, a < N ->
      is_gradient (fun W => dot (slice (snd (snd (snd d))) a) (slice (linear W b (removelast (shape (snd (fst (snd d))))) NI NJ (snd (fst (snd d)))) a)) [NI; NJ] (slice t a)).
    { intros d t Hd Ht. destruct (Hds d Hd) as (_ & (k1 & k2 & Ek) & We & md & Sx & Se). unfold SpecLogger.psg_is in Ht. rewrite Ek in Ht.
      destruct (psg_linear_correct N md NI NJ k1 k2 _ _ We Sx Se) as (G' & EG' & SG' & WG' & HG' & _). rewrite EG' in Ht. injection Ht as <-.
      split; [exact SG'|]. split; [exact WG'|]. intros b a Ha. rewrite Sx. replace (removelast (N :: md ++ [NJ])) with (N :: md); [exact (HG' b a Ha)|].
      rewrite app_comm_cons, removelast_last. reflexivity. }
    assert (HT : forall t, In t ts -> shape t = [N; NI; NJ]).
    { intros t Ht. destruct (Forall2_in_r _ _ _ _ HF Ht) as (d & Hd & Hp). exact (proj1 (HP d t Hd Hp)). }
    assert (ESh : shape G = [N; NI; NJ]). { rewrite HH, Ets. apply HT. rewrite Ets. left. reflexivity. }
    assert (HSum : sum_of ts G).
    { apply sum_onto_of; [intros t Ht; rewrite (HT t Ht); symmetry; exact ESh|]. split; [exact HW|]. split; [exact HH|]. split; [exact HS|].
      intros idx Hi. rewrite (HV idx Hi). cbn [fnat]. ring. }
    split; [exact ESh|]. split; [exact HW|]. intros b a Ha.
    set (pg := fun d : mid * (dten * dten) => match compute_per_sample_gradient (snd (fst (snd d))) (snd (snd (snd d))) (kind (fst d)) with Ok t => t | Err _ => G end).
    assert (Ep : ts = map pg ds).
    { clear -HF. clearbody ds. induction HF as [|d t ds ts Hd HF IH]; [reflexivity|]. cbn [map]. f_equal; [|exact IH]. unfold pg. unfold SpecLogger.psg_is in Hd. rewrite Hd. reflexivity. }
    assert (Hpg : forall d, In d ds -> psg_is d (pg d)).
    { intros d Hd. clear -HF Hd. clearbody ds. induction HF as [|d' t ds ts Hd' HF IH]; [destruct Hd|]. destruct Hd as [<-|Hd]; [|auto].
      unfold pg. unfold SpecLogger.psg_is in *. rewrite Hd'. reflexivity. }
    apply (gradient_sum _ (fun d => slice (pg d) a)).
    - intros d Hd. destruct (HP d _ Hd (Hpg d Hd)) as (_ & _ & HG). exact (HG b a Ha).
    - apply (slice_length_t N [NI; NJ]); assumption.
    - intros k Hk. rewrite (nth_slice_t N [NI; NJ] G a k ESh Hk).
      assert (Hlt : a * prod [NI; NJ] + k < prod (shape G)). { rewrite ESh, (prod_cons N). apply (Nat.lt_le_trans _ (a * prod [NI; NJ] + prod [NI; NJ])); [lia|]. replace (a * prod [NI; NJ] + prod [NI; NJ]) with (S a * prod [NI; NJ]) by (cbn; lia). apply Nat.mul_le_mono_r. lia. }
      rewrite (sum_of_data ts G _ HSum Hlt), Ep, map_map. f_equal. apply map_ext_in. intros d Hd.
      destruct (HP d _ Hd (Hpg d Hd)) as (Sp & _). symmetry. exact (nth_slice_t N [NI; NJ] (pg d) a k Sp Hk).
  Qed.
End P.
