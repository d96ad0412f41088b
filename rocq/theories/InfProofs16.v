(** Influence of some of the source samples: the rows of these samples. *)
From Verif Require Import Py PyStr Field Tensor ModelGrad Monad ModelState ModelInfluence SpecGrad SpecState SpecInfluence SpecRows GradProofs1 GradProofs2 StateProofs1 InfProofs1 InfProofs2 InfProofs10 InfProofs15.
Local Open Scope string_scope.
Local Open Scope list_scope.
Local Open Scope nat_scope.

Section Proofs.
  Context {F : Type} `{OField F}.
  Notation tensor := (tensor F).
  Notation sval := (@sval F).
  Notation lstate := (@lstate F).
  Notation dten := (@dten F).
  Notation tlog := (@tlog F).
  Notation scores := (@scores F).
  Variable eigh : tensor -> res (tensor * tensor).
  Variable inverse : tensor -> res tensor.
  Variable fsqrt : F -> F.
  Notation precondition := (precondition eigh inverse).
  Notation compute_influence := (compute_influence eigh inverse fsqrt).
  Notation influence_all := (influence_all eigh inverse fsqrt).
  Notation influence_loop := (influence_loop eigh inverse fsqrt).

  Variables off k n : nat.
  Hypothesis Lk : off + k <= n.
  Hypothesis Nk : k <> 0.
  Notation R := (rows (F:=F) off k).
  Notation Rd := (Rd (F:=F) off k).
  Notation Pt := (part (F:=F) off k).
  Notation samples := (samples (F:=F) n).
  Notation uniform := (uniform (F:=F) n).

  Lemma bind_ok {A B} (m : res A) (f : A -> res B) b : (let* x := m in f x) = Ok b -> exists a, m = Ok a /\ f a = Ok b.
  Proof. destruct m; cbn [bind]; [eauto|discriminate]. Qed.
  Lemma lift_ok {S A} (r : res A) (s s' : S) a : lift r s = (s', Ok a) -> s' = s /\ r = Ok a.
  Proof. intros [= <- ->]. auto. Qed.

  Lemma item_part (A : tlog) m t x : uniform A -> log_item (log_nd A) m t = Ok x -> log_item (log_nd (Pt A)) m t = Ok (Rd x) /\ samples (snd x).
  Proof. intros U. rewrite !log_item_look, part_look. destruct (look A m t) as [y|] eqn:E; [|discriminate]. intros [= <-]. split; [reflexivity|]. exact (U m t y E). Qed.
  Definition lset (O : tlog) (m : string) (x : dten) : tlog := dset m (dset "grad" x (match dget m O with Some e => e | None => [] end)) O.
  Lemma dset_map {A B} (f : A -> B) a b (d : dict string A) : dset a (f b) (map (fun p => (fst p, f (snd p))) d) = map (fun p => (fst p, f (snd p))) (dset a b d).
  Proof. induction d as [|[c x] d IH]; cbn [map dset fst snd]; [reflexivity|]. destruct (eqb a c); cbn [map fst snd]; [reflexivity|]. rewrite IH. reflexivity. Qed.
  Lemma lset_nd (O : tlog) m x : nd_set2 (log_nd O) m "grad" (VT x) = Ok (log_nd (lset O m x)).
  Proof.
    unfold nd_set2, log_nd, lset. rewrite (log_nd_item O m : nd_item (Node _) m = _). cbn [bind]. unfold leafs. cbn [nd_set1 bind]. f_equal. f_equal.
    set (f := fun e : dict string dten => Node (map (fun q : string * dten => (fst q, Leaf (VT (snd q)))) e)). rewrite <- (dset_map f). f_equal. unfold f. f_equal. apply (dset_map (fun y : dten => Leaf (VT y))).
  Qed.
  Lemma lset_look (O : tlog) m x m' t' : look (lset O m x) m' t' = if (String.eqb m' m && String.eqb t' "grad")%bool then Some x else look O m' t'.
  Proof.
    unfold look, lset. destruct (String.eqb_spec m' m) as [->|N]; cbn [andb].
    - rewrite dget_dset_eq. destruct (String.eqb_spec t' "grad") as [->|N]; [apply dget_dset_eq|]. rewrite dget_dset_neq by exact N. destruct (dget m O); reflexivity.
    - rewrite dget_dset_neq by exact N. reflexivity.
  Qed.
  Lemma lset_uniform (O : tlog) m x : uniform O -> samples (snd x) -> uniform (lset O m x).
  Proof. intros U S m' t' y. rewrite lset_look. destruct (_ && _)%bool; [intros [= <-]; exact S|apply U]. Qed.
  Lemma lset_part (O : tlog) m x : Pt (lset O m x) = lset (Pt O) m (Rd x).
  Proof.
    unfold lset, part. set (f := fun d : dten => (fst d, rows off k (snd d))). change (Rd x) with (f x).
    set (g := fun e : dict string dten => map (fun q => (fst q, f (snd q))) e).
    change (map (fun p => (fst p, g (snd p))) (dset m (dset "grad" x match dget m O with Some e => e | None => [] end) O) = dset m (dset "grad" (f x) match dget m (map (fun p => (fst p, g (snd p))) O) with Some e => e | None => [] end) (map (fun p => (fst p, g (snd p))) O)).
    rewrite <- (dset_map g). f_equal. rewrite (dget_map g). destruct (dget m O) as [e|]; cbn [option_map]; unfold g; [|reflexivity]. rewrite <- (dset_map f). reflexivity.
  Qed.
  Lemma uniform_nil : uniform [].
  Proof. intros m t x E. discriminate E. Qed.

  Lemma kfac_module_part evn ec (A : tlog) m d (s s' : lstate) x l : uniform A -> kfac_module evn ec (log_nd A) m d s = (s', Ok (x, l)) ->
    kfac_module evn ec (log_nd (Pt A)) m d s = (s', Ok (Rd x, l)) /\ samples (snd x).
  Proof.
    intros U E. unfold kfac_module in *. apply sbind_ok in E. destruct E as (s1 & g & E1 & E). apply lift_ok in E1. destruct E1 as (-> & E1). destruct (item_part A m "grad" g U E1) as (E1' & Sg).
    unfold lift at 1. rewrite (sbind_run _ _ s s (Rd g)) by (rewrite E1'; reflexivity). apply sbind_ok in E. destruct E as (s1 & fw & E2 & E). rewrite (sbind_run _ _ _ _ _ E2). apply sbind_ok in E. destruct E as (s2 & bw & E3 & E). rewrite (sbind_run _ _ _ _ _ E3).
    apply sbind_ok in E. destruct E as (s3 & ev & E4 & E). rewrite (sbind_run _ _ _ _ _ E4). apply sbind_ok in E. destruct E as (s4 & y & E5 & E). rewrite (sbind_run _ _ _ _ _ E5). apply sbind_ok in E. destruct E as (s5 & full & E6 & E). rewrite (sbind_run _ _ _ _ _ E6). cbv zeta in E |- *.
    set (l0 := match d with Some x => x | None => fmul tenth (tmean full) end) in *. set (full' := tmap (fun e => fadd e l0) full) in *.
    apply sbind_ok in E. destruct E as (s6 & [] & E7 & E). cbn [fst Rd InfProofs15.Rd]. rewrite (sbind_run _ _ _ _ _ E7). apply sbind_ok in E. destruct E as (s7 & rot & E8 & E). apply lift_ok in E8. destruct E8 as (-> & E8). destruct (sandwich_rows off k n Lk _ _ _ _ Sg E8) as (Sr & E8').
    unfold lift at 1. rewrite (sbind_run _ _ s6 s6 (R rot)) by (change (snd (InfProofs15.Rd off k g)) with (R (snd g)); rewrite E8'; reflexivity). apply sbind_ok in E. destruct E as (s7 & pr & E9 & E). apply lift_ok in E9. destruct E9 as (-> & E9). destruct (div_each_rows off k n Lk _ _ _ Sr E9) as (Sp & E9').
    unfold lift at 1. rewrite (sbind_run _ _ s6 s6 (R pr)) by (rewrite E9'; reflexivity). apply sbind_ok in E. destruct E as (s7 & out & E10 & E). apply lift_ok in E10. destruct E10 as (-> & E10). destruct (sandwich_rows off k n Lk _ _ _ _ Sp E10) as (So & E10').
    unfold lift at 1. rewrite (sbind_run _ _ s6 s6 (R out)) by (rewrite E10'; reflexivity). injection E as <- <- <-. split; [reflexivity|exact So].
  Qed.
  Lemma kfac_loop_part evn ec (A : tlog) : uniform A -> forall ms d (O : tlog) (s s' : lstate) out, uniform O -> kfac_loop evn ec (log_nd A) ms d (log_nd O) s = (s', Ok out) ->
    exists P, out = log_nd P /\ uniform P /\ kfac_loop evn ec (log_nd (Pt A)) ms d (log_nd (Pt O)) s = (s', Ok (log_nd (Pt P))).
  Proof.
    intros U. induction ms as [|m ms IH]; intros d O s s' out UO E; cbn [kfac_loop] in *.
    - injection E as <- <-. exists O. auto.
    - apply sbind_ok in E. destruct E as (s1 & (x & l) & E1 & E). destruct (kfac_module_part _ _ _ _ _ _ _ _ _ U E1) as (E1' & Sx). rewrite (sbind_run _ _ _ _ _ E1').
      apply sbind_ok in E. destruct E as (s2 & o & E2 & E). cbn [fst snd] in *. apply lift_ok in E2. destruct E2 as (-> & E2). rewrite lset_nd in E2. injection E2 as <-. unfold lift at 1. rewrite (sbind_run _ _ s1 s1 (log_nd (lset (Pt O) m (Rd x)))) by (rewrite lset_nd; reflexivity).
      rewrite <- lset_part. apply IH; [apply lset_uniform; assumption|exact E].
  Qed.
  Lemma raw_module_part ci (A : tlog) m x : uniform A -> raw_module ci (log_nd A) m = Ok x -> raw_module ci (log_nd (Pt A)) m = Ok (Rd x) /\ samples (snd x).
  Proof.
    intros U E. unfold raw_module in *. apply bind_ok in E. destruct E as (g & E1 & E). destruct (item_part A m "grad" g U E1) as (E1' & Sg). rewrite E1'. cbn [bind]. apply bind_ok in E. destruct E as (iv & E2 & E). rewrite E2. cbn [bind].
    apply bind_ok in E. destruct E as (g2 & E3 & E). assert (Nn : n <> 0) by lia. pose proof Sg as (r & Sh & W). unfold make_2d in E3. rewrite Sh in E3. destruct (infer_rows off k n Lk Nk _ _ Sg E3) as (S2 & E3').
    unfold make_2d. cbn [snd InfProofs15.Rd]. rewrite rows_size. rewrite E3'. cbn [bind]. apply bind_ok in E. destruct E as (p & E4 & E). destruct (matmul_rows off k n Lk _ _ _ S2 E4) as (S3 & E4'). rewrite E4'. cbn [bind]. apply bind_ok in E. destruct E as (q & E5 & E). injection E as <-. cbn [fst snd].
    rewrite Sh in *. cbn [tl]. destruct (reshape_rows off k n Lk Nk _ _ _ S3 E5) as (S4 & E5'). rewrite E5'. split; [reflexivity|exact S4].
  Qed.
  Lemma raw_fold_part ci (A : tlog) : uniform A -> forall ms (O : tlog) out, uniform O -> foldM (fun out m => let* p := raw_module ci (log_nd A) m in nd_set2 out m "grad" (VT p)) ms (log_nd O) = Ok out ->
    exists P, out = log_nd P /\ uniform P /\ foldM (fun out m => let* p := raw_module ci (log_nd (Pt A)) m in nd_set2 out m "grad" (VT p)) ms (log_nd (Pt O)) = Ok (log_nd (Pt P)).
  Proof.
    intros U. induction ms as [|m ms IH]; intros O out UO E; cbn [foldM] in *.
    - injection E as <-. eauto.
    - apply bind_ok in E. destruct E as (o & E1 & E). apply bind_ok in E1. destruct E1 as (x & E1 & E2). destruct (raw_module_part ci A m x U E1) as (E1' & Sx). rewrite E1'. cbn [bind]. rewrite lset_nd in *. injection E2 as <-. cbn [bind]. rewrite <- lset_part. apply IH; [apply lset_uniform; assumption|exact E].
  Qed.
  Lemma prec_part (A : tlog) ids ids' d h (s s' : lstate) r : uniform A -> precondition (ids, Nest (log_nd A)) d h s = (s', Ok r) ->
    exists P, r = (ids, Nest (log_nd P)) /\ uniform P /\ precondition (ids', Nest (log_nd (Pt A))) d h s = (s', Ok (ids', Nest (log_nd (Pt P)))).
  Proof.
    intros U E. unfold ModelInfluence.precondition in *. destruct (mem h ["auto"; "kfac"; "raw"]); [|discriminate E]. apply sbind_ok in E. destruct E as (s1 & cs & E1 & E). rewrite (sbind_run _ _ _ _ _ E1). cbn [snd fst] in *.
    rewrite log_nd_keys in *. rewrite ?log_nd_keys, part_keys. rewrite (sbind_run _ _ s1 s1 (dkeys A) (eq_refl : lift (Ok (dkeys A)) s1 = _)). rewrite (sbind_run _ _ s1 s1 (dkeys A) (eq_refl : lift (Ok (dkeys A)) s1 = _)) in E. apply sbind_ok in E. destruct E as (s2 & cms & E2 & E). rewrite (sbind_run _ _ _ _ _ E2). destruct (forallb (fun m => mem m cms) (dkeys A)).
    2: { injection E as <- <-. exists A. auto. }
    apply sbind_ok in E. destruct E as (s3 & raw & E3 & E). rewrite (sbind_run _ _ _ _ _ E3). apply sbind_ok in E. destruct E as (s4 & p & E4 & E). injection E as <- <-. destruct raw.
    - unfold precondition_raw in *. apply sbind_ok in E4. destruct E4 as (s5 & ci & E5 & E4). rewrite log_nd_keys in *. rewrite (sbind_run _ _ s5 s5 (dkeys A) (eq_refl : lift (Ok (dkeys A)) s5 = _)) in E4. apply lift_ok in E4. destruct E4 as (-> & E4). destruct (raw_fold_part ci A U (dkeys A) [] p uniform_nil E4) as (P & -> & UP & E6).
      exists P. split; [reflexivity|]. split; [exact UP|]. unfold sbind at 1. rewrite (sbind_run _ _ _ _ _ E5). rewrite ?log_nd_keys, part_keys. rewrite (sbind_run _ _ s5 s5 (dkeys A) (eq_refl : lift (Ok (dkeys A)) s5 = _)). unfold lift. cbn [part map] in E6. unfold log_nd at 2 in E6. cbn [map] in E6. rewrite E6. reflexivity.
    - unfold precondition_kfac in *. apply sbind_ok in E4. destruct E4 as (s5 & vw & E5 & E4). rewrite log_nd_keys in *. unfold sget in E4 at 1. rewrite (sbind_run _ _ s5 s5 s5 eq_refl) in E4. rewrite (sbind_run _ _ s5 s5 (dkeys A) (eq_refl : lift (Ok (dkeys A)) s5 = _)) in E4. destruct (kfac_loop_part _ (snd vw) A U (dkeys A) d [] s5 s4 p uniform_nil E4) as (P & -> & UP & E6).
      exists P. split; [reflexivity|]. split; [exact UP|]. unfold sbind at 1. rewrite (sbind_run _ _ _ _ _ E5). unfold sget at 1. rewrite (sbind_run _ _ s5 s5 s5 eq_refl). rewrite ?log_nd_keys, part_keys. rewrite (sbind_run _ _ s5 s5 (dkeys A) (eq_refl : lift (Ok (dkeys A)) s5 = _)). cbn [part map] in E6. unfold log_nd at 2 in E6. cbn [map] in E6. rewrite E6. reflexivity.
  Qed.
End Proofs.
