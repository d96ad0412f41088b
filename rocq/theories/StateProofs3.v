(** Histories of mean and covariance updates. *)
From Coq Require Import ZArith.
From Verif Require Import Py Field Tensor ModelGrad Monad ModelState SpecGrad SpecState GradProofs1 GradProofs2 StateProofs1 StateProofs2.
Local Open Scope nat_scope.

Section Proofs.
  Context {F : Type} `{OField F}.
  Add Field FfS3 : f_theory.
  Notation tensor := (tensor F).
  Notation sval := (@sval F).
  Notation lstate := (@lstate F).
  Notation dten := (@dten F).
  Notation binfo := (@binfo F).
  Notation call := (@call F).

  Definition zero_of (st : stat) : nat -> tensor := match st with SMean => fun k => tzeros [k] | SCov => fun k => tzeros [k; k] end.
  Definition contrib_of (st : stat) : tensor -> tensor := match st with SMean => col_sum | SCov => gram end.
  Definition add_of (st : stat) : dten -> dten -> res dten := match st with SMean => iadd_ | SCov => add_ end.
  Definition val_add (st : stat) (a b : tensor) : res tensor :=
    match st with SMean => if same_shape (shape a) (shape b) then tadd a b else add_wide a b | SCov => tadd a b end.
  Lemma add_of_eq st (a b : dten) : add_of st a b =
    if dev_eqb (fst a) (fst b) then let* w := val_add st (snd a) (snd b) in Ok (fst a, w) else Err RuntimeError.
  Proof. destruct st; reflexivity. Qed.
  Lemma do_call_acc (c : call) : do_call c =
    accumulate (add_of (k_stat c)) (stat_name (k_stat c)) (counter_name (k_stat c)) (zero_of (k_stat c)) (contrib_of (k_stat c))
      (k_b c) (k_mod c) (k_m c) (k_t c) (k_data c) (k_off c).
  Proof. unfold do_call. destruct (k_stat c); reflexivity. Qed.

  Lemma rowstat_app st r1 r2 idx : rowstat st (r1 ++ r2) idx = fadd (rowstat st r1 idx) (rowstat st r2 idx).
  Proof. destruct st; unfold rowstat, row_sum, row_prod; rewrite map_app, lsum_app; reflexivity. Qed.
  Lemma rowstat_nil st idx : rowstat st [] idx = f0.
  Proof. destruct st; reflexivity. Qed.

  Lemma nth_map_seq (f : nat -> F) k i : i < k -> nth i (map f (seq 0 k)) f0 = f i.
  Proof.
    intros L. rewrite (nth_indep _ f0 (f 0)) by (rewrite map_length, seq_length; exact L).
    rewrite map_nth, seq_nth by exact L. reflexivity.
  Qed.
  Lemma contrib_ok st (d2 : tensor) r k : shape d2 = [r; k] ->
    twf (contrib_of st d2) /\ shape (contrib_of st d2) = zsh st k /\
    forall idx, valid (zsh st k) idx -> tget (contrib_of st d2) idx = rowstat st (vectors r k (mget d2)) idx.
  Proof.
    intros S. destruct st; cbn [contrib_of zsh rowstat].
    - unfold col_sum. rewrite S. cbn [nth]. split; [apply tgen_wf|]. split; [reflexivity|]. intros idx V.
      rewrite tget_tgen by exact V. unfold row_sum, vectors. rewrite map_map, lsum_seq. apply sum_ext. intros a La.
      inversion V as [|i ? ? ? Li V1]; subst. inversion V1; subst. cbn [ix nth]. unfold row_entry. rewrite map_length, seq_length.
      replace (if k =? 1 then 0 else i) with i by (destruct (Nat.eqb_spec k 1); lia). rewrite nth_map_seq by exact Li. reflexivity.
    - unfold gram. rewrite S. cbn [nth]. split; [apply tgen_wf|]. split; [reflexivity|]. intros idx V.
      apply valid2_inv in V. destruct V as (i & j & -> & Li & Lj). fold (mget (mgen k k (fun i j => sum r (fun r0 => fmul (mget d2 r0 i) (mget d2 r0 j)))) i j).
      rewrite mget_mgen by assumption. cbn [nth]. unfold row_prod, vectors. rewrite map_map, lsum_seq. apply sum_ext. intros a La.
      rewrite !nth_map_seq by assumption. reflexivity.
  Qed.
  Lemma vectors_len r k (f : nat -> nat -> F) : Forall (fun v => length v = k) (vectors r k f).
  Proof. unfold vectors. apply Forall_forall. intros v I. apply in_map_iff in I. destruct I as (a & <- & _). rewrite map_length, seq_length. reflexivity. Qed.

  Lemma get_data_tensor (c : call) d t : get_data (k_b c) (k_m c) (k_t c) (k_data c) = Ok d -> call_tensor c = Some t -> t = snd d.
  Proof.
    unfold get_data, call_tensor. destruct (k_data c) as [d'|]; [congruence|].
    unfold nd_item. destruct (b_log (k_b c)) as [|dd]; [discriminate|]. cbn [bind].
    destruct (dget (k_m c) dd) as [[w|e]|]; cbn [bind]; try discriminate.
    destruct (dget (k_t c) e) as [[[x| | |]|]|]; cbn [as_dten]; try discriminate. congruence.
  Qed.
  Lemma call_count_eq (c : call) t n : call_tensor c = Some t -> size0 t = Ok n ->
    count_of (k_b c) (k_t c) n = call_count c.
  Proof.
    intros E S. unfold count_of, call_count, call_samples. rewrite E. unfold samples. rewrite map_length, seq_length. unfold batch_size.
    unfold size0 in S. destruct (shape t) as [|n' ?]; [discriminate|]. injection S as ->. cbn [hd].
    destruct (b_mask (k_b c)); [|reflexivity]. destruct (String.eqb (k_t c) "grad"); reflexivity.
  Qed.

  Lemma lookup2_get2 (s : lstate) a x m t : dget a (attrs s) = Some x -> lookup2 s a m t = get2 x m t.
  Proof.
    intros E. unfold lookup2, get2, sub, get1. rewrite E. destruct x as [|d]; [reflexivity|]. destruct (dget m d) as [[|]|]; reflexivity.
  Qed.
  Lemma names_neq st st' : stat_name st <> counter_name st'.
  Proof. destruct st, st'; discriminate. Qed.
  Lemma stat_name_inj st st' : stat_name st = stat_name st' -> st = st'.
  Proof. destruct st, st'; cbn; congruence. Qed.
  Lemma counter_name_inj st st' : counter_name st = counter_name st' -> st = st'.
  Proof. destruct st, st'; cbn; congruence. Qed.

  Definition good (s : lstate) : Prop := forall st, exists x c,
    dget (stat_name st) (attrs s) = Some x /\ dget (counter_name st) (attrs s) = Some c /\ two x /\ two c.

  (** values a key starts from *)
  Definition base := stat -> string -> string -> option (tensor * F).
  Definition bent (b : option (tensor * F)) (idx : list nat) : F := match b with Some (T0, _) => tget T0 idx | None => f0 end.
  Definition bcnt (b : option (tensor * F)) : F := match b with Some (_, c) => c | None => f0 end.
  Definition key_inv (b : base) (s : lstate) (done : list call) st m t : Prop :=
    let cs := calls_for st m t done in
    (b st m t = None /\ cs = [] /\ lookup2 s (stat_name st) m t = None /\ lookup2 s (counter_name st) m t = None) \/
    (exists dv T k, (b st m t <> None \/ cs <> []) /\
       lookup2 s (stat_name st) m t = Some (VT (dv, T)) /\ twf T /\ shape T = zsh st k /\
       (forall T0 c0, b st m t = Some (T0, c0) -> shape T0 = zsh st k) /\
       (rows_fit st k (all_rows cs) /\ (cs <> [] -> all_rows cs <> []) /\ (b st m t = None -> width (all_rows cs) = k)) /\
       (forall idx, valid (zsh st k) idx -> tget T idx = fadd (bent (b st m t) idx) (rowstat st (all_rows cs) idx)) /\
       lookup2 s (counter_name st) m t = Some (VN (fadd (bcnt (b st m t)) (all_count cs)))).
  Definition hist_inv (b : base) (s : lstate) (done : list call) : Prop :=
    good s /\ forall st m t, key_inv b s done st m t.

  Lemma hist_paired b s done st x c : hist_inv b s done ->
    dget (stat_name st) (attrs s) = Some x -> dget (counter_name st) (attrs s) = Some c -> paired x c.
  Proof.
    intros (G & K) Ex Ec. destruct (G st) as (x' & c' & Ex' & Ec' & Tx & Tc). rewrite Ex in Ex'. rewrite Ec in Ec'.
    injection Ex' as <-. injection Ec' as <-. split; [exact Tx|]. split; [exact Tc|]. intros m t.
    rewrite <- (lookup2_get2 s _ x m t Ex), <- (lookup2_get2 s _ c m t Ec).
    destruct (K st m t) as [(_ & _ & -> & ->)|(dv & T & k & _ & -> & _ & _ & _ & _ & _ & ->)]; exact I.
  Qed.

  Lemma calls_for_app st m t l1 l2 : calls_for st m t (l1 ++ l2) = calls_for st m t l1 ++ calls_for (F:=F) st m t l2.
  Proof. apply filter_app. Qed.
  Lemma stat_eqb_spec a b : reflect (a = b) (stat_eqb a b).
  Proof. destruct a, b; constructor; congruence. Qed.
  Lemma calls_for_one_eq (c : call) : calls_for (k_stat c) (k_m c) (k_t c) [c] = [c].
  Proof.
    unfold calls_for. cbn [filter]. rewrite !String.eqb_refl. destruct (stat_eqb_spec (k_stat c) (k_stat c)); [reflexivity|congruence].
  Qed.
  Lemma calls_for_one_neq st m t (c : call) : (st, m, t) <> (k_stat c, k_m c, k_t c) -> calls_for st m t [c] = [].
  Proof.
    intros N. unfold calls_for. cbn [filter].
    destruct (stat_eqb_spec (k_stat c) st), (String.eqb_spec (k_m c) m), (String.eqb_spec (k_t c) t); cbn [andb]; try reflexivity. congruence.
  Qed.
  Lemma all_rows_one (c : call) : all_rows [c] = call_rows c.
  Proof. unfold all_rows. cbn [map concat]. apply app_nil_r. Qed.
  Lemma all_rows_app (a b : list call) : all_rows (a ++ b) = all_rows a ++ all_rows b.
  Proof. unfold all_rows. rewrite map_app, concat_app. reflexivity. Qed.
  Lemma all_count_app (a b : list call) : all_count (a ++ b) = fadd (all_count a) (all_count b).
  Proof. unfold all_count. rewrite map_app, lsum_app. reflexivity. Qed.
  Lemma all_count_one (c : call) : all_count [c] = call_count c.
  Proof. unfold all_count, lsum. cbn [map fold_right]. ring. Qed.

  Lemma iadd_vec (a b : dten) k l c : shape (snd a) = [k] -> shape (snd b) = [l] -> twf (snd a) -> twf (snd b) -> iadd_ a b = Ok c ->
    (l = k \/ l = 1) /\ twf (snd c) /\ shape (snd c) = [k] /\ forall i, i < k -> tget (snd c) [i] = fadd (tget (snd a) [i]) (tget (snd b) [if l =? 1 then 0 else i]).
  Proof.
    intros Sa Sb Wa Wb E. unfold iadd_ in E. destruct (dev_eqb _ _); [|discriminate E].
    destruct (same_shape _ _) eqn:SS.
    - apply same_shape_true in SS. rewrite Sa, Sb in SS. injection SS as ->. destruct (tadd _ _) as [n|] eqn:En; [|discriminate E]. injection E as <-. cbn [snd].
      split; [auto|]. split; [eapply tzip_wf; [exact Wa|exact Wb|exact En]|]. split.
      + unfold tadd, tzip in En. destruct (same_shape _ _); [|discriminate En]. injection En as <-. exact Sa.
      + intros i Li. replace (if l =? 1 then 0 else i) with i by (destruct (Nat.eqb_spec l 1); lia). eapply tget_tzip; [exact Wa|exact Wb|exact En|]. rewrite Sa. constructor; [exact Li|constructor].
    - unfold add_wide in E. rewrite Sa, Sb in E, SS. unfold bcast, pad_left in E. cbn [length Nat.sub repeat app bshape bind skipn] in E.
      assert (N : k <> l). { intros ->. rewrite same_shape_refl in SS. discriminate SS. }
      destruct (Nat.eqb_spec k l) as [|_]; [congruence|].
      destruct (Nat.eqb_spec k 1) as [->|N1]; cbn [bind] in E.
      { destruct (same_shape [l] [1]) eqn:S1; [|discriminate E]. apply same_shape_true in S1. congruence. }
      destruct (Nat.eqb_spec l 1) as [->|]; cbn [bind] in E; [|discriminate E]. rewrite same_shape_refl in E. cbn [bind] in E. injection E as <-. cbn [snd].
      split; [auto|]. split; [apply tgen_wf|]. split; [reflexivity|]. intros i Li. rewrite tget_tgen by (constructor; [exact Li|constructor]). reflexivity.
  Qed.
  Lemma add_strict (a b : dten) c : twf (snd a) -> twf (snd b) -> add_ a b = Ok c -> shape (snd a) = shape (snd b) /\ twf (snd c) /\ shape (snd c) = shape (snd a) /\
    forall idx, valid (shape (snd a)) idx -> tget (snd c) idx = fadd (tget (snd a) idx) (tget (snd b) idx).
  Proof.
    intros Wa Wb E. unfold add_ in E. destruct (dev_eqb _ _); [|discriminate E]. destruct (tadd _ _) as [n|] eqn:En; [|discriminate E]. injection E as <-. cbn [snd].
    assert (E' := En). unfold tadd, tzip in E'. destruct (same_shape _ _) eqn:SS; [|discriminate E']. apply same_shape_true in SS. injection E' as E'.
    split; [exact SS|]. split; [eapply tzip_wf; [exact Wa|exact Wb|exact En]|]. split; [rewrite <- E'; reflexivity|]. intros idx V. eapply tget_tzip; [exact Wa|exact Wb|exact En|exact V].
  Qed.
  (** what one call adds *)
  Lemma acc_add_ok st off dv (o : dten) (d2 : tensor) (new : dten) k1 r k : twf (snd o) -> shape (snd o) = zsh st k1 -> shape d2 = [r; k] ->
    acc_add (add_of st) off dv o (contrib_of st d2) = Ok new -> (k = k1 \/ st = SMean /\ k = 1) /\ twf (snd new) /\ shape (snd new) = zsh st k1 /\
      forall idx, valid (zsh st k1) idx -> tget (snd new) idx = fadd (tget (snd o) idx) (rowstat st (vectors r k (mget d2)) idx).
  Proof.
    intros Wo So S2 E. destruct (contrib_ok st d2 r k S2) as (Wc & Sc & Vc).
    assert (X : forall e c, add_of st (e, snd o) (dv, contrib_of st d2) = Ok c -> (k = k1 \/ st = SMean /\ k = 1) /\ twf (snd c) /\ shape (snd c) = zsh st k1 /\
      forall idx, valid (zsh st k1) idx -> tget (snd c) idx = fadd (tget (snd o) idx) (rowstat st (vectors r k (mget d2)) idx)).
    { intros e c Ec. destruct st; cbn [add_of] in Ec.
      - apply (iadd_vec _ _ k1 k) in Ec; [|exact So|exact Sc|exact Wo|exact Wc]. destruct Ec as (K & Wn & Sn & Vn). cbn [snd] in Vn.
        split; [destruct K; auto|]. split; [exact Wn|]. split; [exact Sn|]. intros idx V. cbn [zsh] in V. inversion V as [|i ? ? ? Li V1]; subst. inversion V1; subst.
        rewrite (Vn i Li). f_equal. rewrite Vc by (cbn [zsh]; constructor; [destruct (Nat.eqb_spec k 1); lia|constructor]).
        cbn [rowstat nth]. destruct (Nat.eqb_spec k 1) as [->|_]; [|reflexivity]. unfold row_sum. f_equal. apply map_ext_in. intros v Iv. unfold row_entry.
        unfold vectors in Iv. apply in_map_iff in Iv. destruct Iv as (q & <- & _). reflexivity.
      - apply add_strict in Ec; [|exact Wo|exact Wc]. cbn [snd] in Ec. destruct Ec as (SS & Wn & Sn & Vn). rewrite So, Sc in SS. cbn [zsh] in SS. injection SS as ->.
        split; [auto|]. split; [exact Wn|]. split; [rewrite Sn; exact So|]. intros idx V. rewrite Vn by (rewrite So; exact V). rewrite Vc by exact V. reflexivity. }
    unfold acc_add in E. destruct off.
    - destruct (add_of st (dv, snd o) (dv, contrib_of st d2)) as [n|] eqn:En; [|discriminate E]. cbn [bind] in E. injection E as <-. exact (X _ _ En).
    - destruct o as [e o]. exact (X _ _ E).
  Qed.
  Lemma zero_ok st k : twf (zero_of st k) /\ shape (zero_of st k) = zsh st k /\ forall idx, tget (zero_of st k) idx = f0.
  Proof. destruct st; cbn [zero_of zsh]; (split; [apply tzeros_wf|split; [reflexivity|intros; apply tget_tzeros]]). Qed.
  Lemma zsh_inj st k k' : zsh st k = zsh st k' -> k = k'.
  Proof. destruct st; cbn; congruence. Qed.

  Lemma step_inv b s done c s' : hist_inv b s done -> call_ok c -> do_call c s = (s', Ok tt) -> hist_inv b s' (done ++ [c]).
  Proof.
    intros HI (t0 & Et & Wt & NZ & Bt) E. pose proof HI as (G & K).
    destruct (G (k_stat c)) as (x & cc & Ex & Ec & Tx & Tc). pose proof (hist_paired b s done _ _ _ HI Ex Ec) as P.
    set (st := k_stat c) in *. set (m := k_m c) in *. set (t := k_t c) in *.
    rewrite do_call_acc in E. fold st m t in E.
    pose proof (accumulate_eq (add_of st) (stat_name st) (counter_name st) (zero_of st) (contrib_of st) (names_neq st st)
                  (k_b c) (k_mod c) m t (k_data c) (k_off c) s x cc Ex Ec P) as A.
    destruct (get_data (k_b c) m t (k_data c)) as [d|e] eqn:Ed; cbn [bind] in A; [|congruence].
    pose proof (get_data_tensor c d t0 Ed Et) as ->.
    destruct (size0 (snd d)) as [n|e] eqn:En; cbn [bind] in A; [|congruence].
    destruct (make_2d (snd d) (k_mod c) t) as [d2|e] eqn:E2; cbn [bind] in A; [|congruence].
    destruct (rows_make_2d _ _ _ _ Wt NZ Bt E2) as (r & k & S2 & W2 & Nr & Nk & V2).
    assert (LS : last_size d2 = k) by (unfold last_size; rewrite S2; reflexivity).
    pose proof (call_count_eq c (snd d) n Et En) as CE. fold t in CE. rewrite CE in A. clear CE.
    assert (CR : call_rows c = vectors r k (mget d2)).
    { unfold call_rows, call_samples. rewrite Et. symmetry. exact V2. }
    destruct (acc_add (add_of st) (k_off c) (fst d) (old_of (zero_of st) m t (k_off c) x d d2) (contrib_of st d2)) as [new|e] eqn:EA; [|congruence].
    rewrite A in E. injection E as <-. clear A. rename K into KI. pose proof (KI st m t) as K0.
    assert (Hnew : exists k', twf (snd new) /\ shape (snd new) = zsh st k' /\ (forall T0 c0, b st m t = Some (T0, c0) -> shape T0 = zsh st k') /\
       (rows_fit st k' (all_rows (calls_for st m t done ++ [c])) /\ (b st m t = None -> width (all_rows (calls_for st m t done ++ [c])) = k')) /\
       (forall idx, valid (zsh st k') idx -> tget (snd new) idx =
          fadd (bent (b st m t) idx) (rowstat st (all_rows (calls_for st m t done ++ [c])) idx)) /\
       oldc_of m t cc = fadd (bcnt (b st m t)) (all_count (calls_for st m t done))).
    { assert (VL : forall k', (k = k' \/ st = SMean /\ k = 1) -> rows_fit st k' (call_rows c)).
      { intros k' Hk. rewrite CR. unfold rows_fit. apply Forall_forall. intros v Iv. pose proof (proj1 (Forall_forall _ _) (vectors_len r k (mget d2)) v Iv) as Lv. cbv beta in Lv.
        rewrite Lv. exact Hk. }
      unfold key_inv in K0. unfold old_of in EA. unfold oldc_of.
      rewrite <- (lookup2_get2 s _ x m t Ex) in EA. rewrite <- (lookup2_get2 s _ cc m t Ec).
      destruct K0 as [(B0 & C0 & L1 & L2)|(dv & T1 & k1 & NN & L1 & W1 & S1 & SB & (R1 & R2 & R3) & V1 & L2)].
      - rewrite L1 in EA. rewrite L2, B0, C0. destruct (zero_ok st k) as (Wz & Sz & Vz). rewrite LS in EA.
        apply (acc_add_ok st _ _ (_, zero_of st k) d2 _ k r k) in EA; try assumption.
        destruct EA as (_ & Wn & Sn & Vn). exists k. split; [exact Wn|]. split; [exact Sn|]. split; [discriminate|]. cbn [app]. rewrite all_rows_one. split; [split; [apply VL; auto|]|].
        { intros _. rewrite CR. unfold vectors. destruct r; [congruence|]. cbn [seq map]. unfold width. cbn [hd]. rewrite map_length, seq_length. reflexivity. }
        split; [|cbn; unfold all_count; cbn; ring]. intros idx V. rewrite Vn by exact V. cbn [snd bent]. rewrite Vz, CR. ring.
      - rewrite L1 in EA. rewrite L2. apply (acc_add_ok st _ _ (dv, T1) d2 _ k1 r k) in EA; try assumption.
        destruct EA as (Ek & Wn & Sn & Vn). exists k1. split; [exact Wn|]. split; [exact Sn|]. split; [exact SB|]. rewrite all_rows_app, all_rows_one.
        split; [split; [apply Forall_app; split; [exact R1|apply VL; exact Ek]|]|].
        { intros B0. rewrite <- (R3 B0). unfold width. destruct (all_rows (calls_for st m t done)) as [|r0 ?]; [|reflexivity].
          exfalso. destruct NN as [NN|NN]; [congruence|]. apply (R2 NN). reflexivity. }
        split; [|reflexivity]. intros idx V. rewrite Vn by exact V. cbn [snd]. rewrite V1 by exact V.
        rewrite CR, rowstat_app. ring. }
    destruct Hnew as (k' & Wn & Sn & SB & (R1 & R3) & Vn & Cn).
    split.
    - intros st'. destruct (stat_eqb_spec st' st) as [->|Ns].
      + exists (put2 x m t (VT new)), (put2 cc m t (VN (fadd (oldc_of m t cc) (call_count c)))).
        unfold with2. cbn [attrs with_attrs]. rewrite dget_dset_eq, dget_dset_neq by apply names_neq. rewrite dget_dset_eq.
        repeat split; try reflexivity; apply put2_two; assumption.
      + destruct (G st') as (x' & c' & Ex' & Ec' & Tx' & Tc'). exists x', c'. unfold with2. cbn [attrs with_attrs].
        rewrite !dget_dset_neq; try (apply names_neq || (intros Q; symmetry in Q; revert Q; apply names_neq) ||
          (intros Q; apply stat_name_inj in Q; congruence) || (intros Q; apply counter_name_inj in Q; congruence)).
        repeat split; assumption.
    - intros st' m' t'. unfold key_inv.
      assert (LX : forall st1, lookup2 (with2 s (stat_name st) (put2 x m t (VT new)) (counter_name st) (put2 cc m t (VN (fadd (oldc_of m t cc) (call_count c))))) (stat_name st1) m' t'
          = if stat_eqb st1 st then get2 (put2 x m t (VT new)) m' t' else lookup2 s (stat_name st1) m' t').
      { intros st1. destruct (stat_eqb_spec st1 st) as [->|Ns].
        - apply lookup2_get2. unfold with2. cbn [attrs with_attrs]. rewrite dget_dset_neq by apply names_neq. apply dget_dset_eq.
        - unfold lookup2, with2. cbn [attrs with_attrs]. rewrite !dget_dset_neq; [reflexivity| |apply names_neq].
          intros Q. apply stat_name_inj in Q. congruence. }
      assert (LC : forall st1, lookup2 (with2 s (stat_name st) (put2 x m t (VT new)) (counter_name st) (put2 cc m t (VN (fadd (oldc_of m t cc) (call_count c))))) (counter_name st1) m' t'
          = if stat_eqb st1 st then get2 (put2 cc m t (VN (fadd (oldc_of m t cc) (call_count c)))) m' t' else lookup2 s (counter_name st1) m' t').
      { intros st1. destruct (stat_eqb_spec st1 st) as [->|Ns].
        - apply lookup2_get2. unfold with2. cbn [attrs with_attrs]. apply dget_dset_eq.
        - unfold lookup2, with2. cbn [attrs with_attrs]. rewrite !dget_dset_neq; [reflexivity| |].
          + intros Q. symmetry in Q. revert Q. apply names_neq.
          + intros Q. apply counter_name_inj in Q. congruence. }
      rewrite LX, LC.
      destruct (stat_eqb_spec st' st) as [->|Ns]; [destruct (String.eqb_spec m' m) as [->|Nm]; [destruct (String.eqb_spec t' t) as [->|Nt]|]|].
      + right. destruct new as [dn Tn]. cbn [snd] in *. exists dn, Tn, k'.
        assert (CF : calls_for st m t (done ++ [c]) = calls_for st m t done ++ [c]).
        { rewrite calls_for_app. f_equal. apply calls_for_one_eq. }
        split; [right; rewrite CF; intros Q; apply app_eq_nil in Q; destruct Q; discriminate|].
        rewrite get2_put2_eq by exact Tx. split; [reflexivity|]. split; [exact Wn|]. split; [exact Sn|]. split; [exact SB|].
        rewrite CF. split.
        { split; [exact R1|]. split; [|exact R3]. intros _ Q. rewrite all_rows_app, all_rows_one in Q. apply app_eq_nil in Q. destruct Q as [_ Q].
          rewrite CR in Q. unfold vectors in Q. destruct r; [congruence|discriminate Q]. }
        split; [exact Vn|].
        rewrite get2_put2_eq by exact Tc. rewrite Cn, all_count_app, all_count_one. f_equal. f_equal. ring.
      + rewrite !get2_put2_neq by (assumption || congruence). rewrite calls_for_app, calls_for_one_neq, app_nil_r by (fold st m t; congruence).
        rewrite <- (lookup2_get2 s _ x m t' Ex), <- (lookup2_get2 s _ cc m t' Ec). exact (KI st m t').
      + rewrite !get2_put2_neq by (assumption || congruence). rewrite calls_for_app, calls_for_one_neq, app_nil_r by (fold st m t; congruence).
        rewrite <- (lookup2_get2 s _ x m' t' Ex), <- (lookup2_get2 s _ cc m' t' Ec). exact (KI st m' t').
      + rewrite calls_for_app, calls_for_one_neq, app_nil_r by (fold st m t; congruence). exact (KI st' m' t').
  Qed.

  Lemma run_inv b cs : forall s done s', hist_inv b s done -> Forall call_ok cs -> run_calls cs s = (s', Ok tt) -> hist_inv b s' (done ++ cs).
  Proof.
    induction cs as [|c cs IH]; intros s done s' HI Ok1 E.
    - unfold run_calls in E. cbn in E. injection E as <-. rewrite app_nil_r. exact HI.
    - unfold run_calls in E. cbn [seach] in E. apply sbind_ok in E. destruct E as (s1 & [] & E1 & E2). inversion Ok1 as [|? ? O1 O2]; subst.
      replace (done ++ c :: cs) with ((done ++ [c]) ++ cs) by (rewrite <- app_assoc; reflexivity).
      apply (IH s1); [|exact O2|exact E2]. apply (step_inv b s); assumption.
  Qed.
  (** the registries never change *)
  Definition keeps {A} (f : SM lstate A) : Prop := forall s, registries (fst (f s)) = registries s.
  Lemma keeps_bind {A B} (f : SM lstate A) (g : A -> SM lstate B) : keeps f -> (forall a, keeps (g a)) -> keeps (sbind f g).
  Proof.
    intros Kf Kg s. unfold sbind. specialize (Kf s). destruct (f s) as [s1 [a|e]]; cbn [fst] in *; [|exact Kf]. rewrite Kg. exact Kf.
  Qed.
  Lemma keeps_lift {A} (r : res A) : keeps (lift r).
  Proof. intros s. reflexivity. Qed.
  Lemma keeps_attr a : keeps (attr a).
  Proof. intros s. reflexivity. Qed.
  Lemma keeps_set_attr a x : keeps (set_attr a x).
  Proof. intros s. reflexivity. Qed.
  Lemma keeps_seach {A} (f : A -> SM lstate unit) l : (forall a, keeps (f a)) -> keeps (seach f l).
  Proof. intros K. induction l as [|a l IH]; cbn [seach]; [intros s; reflexivity|]. apply keeps_bind; [apply K|intros _; exact IH]. Qed.
  Lemma keeps_acc ad sn cn z co b mo m t d o : keeps (accumulate ad sn cn z co b mo m t d o).
  Proof.
    unfold accumulate.
    repeat (first [apply keeps_bind; [|intros ?] | apply keeps_lift | apply keeps_attr | apply keeps_set_attr
                  | match goal with |- keeps (if ?x then _ else _) => destruct x end | intros ?; reflexivity]).
  Qed.
  Lemma run_registries cs s : registries (fst (run_calls cs s)) = registries s.
  Proof. apply keeps_seach. intros c. rewrite do_call_acc. apply keeps_acc. Qed.
End Proofs.
