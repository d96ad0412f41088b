(** Synchronisation of whole states, and what every process then holds. *)
From Coq Require Import ZArith Permutation.
From Verif Require Import Py Field Tensor ModelGrad Monad ModelState SpecGrad SpecState GradProofs1 GradProofs2 StateProofs1 StateProofs2 StateProofs3 StateProofs4 StateProofs5 StateProofs6 StateProofs8.
Local Open Scope nat_scope.
Local Open Scope string_scope.
Local Open Scope list_scope.
Local Open Scope nat_scope.

Section Proofs.
  Context {F : Type} `{OField F}.
  Add Field FfS9 : f_theory.
  Notation tensor := (tensor F).
  Notation sval := (@sval F).
  Notation lstate := (@lstate F).
  Notation dten := (@dten F).
  Notation call := (@call F).

  Lemma refill_flat_list l0 : forall l, Forall (fun q => is_leaf (snd q)) l0 -> Forall (fun q => is_leaf (snd q)) l -> dkeys l0 = dkeys l ->
    forall vs, lrefill (F:=F) l0 (lleaves l ++ vs) = (l, vs).
  Proof.
    induction l0 as [|[k a] r IH]; intros [|[k' b] r'] F0 F1 K vs; try discriminate K; [reflexivity|].
    cbn [dkeys map fst] in K. injection K as <- K. inversion F0 as [|? ? A B]; subst. inversion F1 as [|? ? C D]; subst. cbn [snd] in *.
    destruct a as [v|]; [|contradiction]. destruct b as [w|]; [|contradiction]. unfold lleaves. cbn [lrefill map concat snd leaves app refill].
    fold (lleaves r'). rewrite (IH r' B D K vs). reflexivity.
  Qed.
  Lemma refill_flat x z : flat x -> flat z -> keys1 x = keys1 z -> forall vs, refill (F:=F) x (leaves z ++ vs) = (z, vs).
  Proof.
    destruct x as [|l0]; [contradiction|]. destruct z as [|l]; [contradiction|]. intros (_ & A) (_ & B) K vs.
    rewrite refill_node, leaves_node, refill_flat_list by assumption. reflexivity.
  Qed.
  Lemma refill_two_list l0 : forall l, Forall (fun q => flat (snd q)) l0 -> Forall (fun q => flat (snd q)) l -> sk (Node l0) = sk (Node l) ->
    forall vs, lrefill (F:=F) l0 (lleaves l ++ vs) = (l, vs).
  Proof.
    induction l0 as [|[k a] r IH]; intros [|[k' b] r'] F0 F1 K vs; try discriminate K; [reflexivity|].
    cbn [sk map fst snd] in K. injection K as <- Kk K. inversion F0 as [|? ? A B]; subst. inversion F1 as [|? ? C D]; subst. cbn [snd] in *.
    unfold lleaves. cbn [lrefill map concat snd]. fold (lleaves r'). rewrite <- app_assoc, refill_flat by assumption.
    rewrite (IH r' B D K vs). reflexivity.
  Qed.
  Lemma refill_two x z : two x -> two z -> sk x = sk z -> forall vs, refill (F:=F) x (leaves z ++ vs) = (z, vs).
  Proof.
    destruct x as [|l0]; [contradiction|]. destruct z as [|l]; [contradiction|]. intros (_ & A) (_ & B) K vs.
    rewrite refill_node, leaves_node, refill_two_list by assumption. reflexivity.
  Qed.

  Record quad := Quad { qm : nd sval; qmc : nd sval; qc : nd sval; qcc : nd sval }.
  Definition qleaves (q : quad) : list sval := leaves (qm q) ++ leaves (qmc q) ++ leaves (qc q) ++ leaves (qcc q).
  Definition rq (Km Kc : list (string * list string)) (done : list call) (q : quad) : Prop :=
    recd SMean (qm q) (qmc q) done /\ recd SCov (qc q) (qcc q) done /\ sk (qm q) = Km /\ sk (qmc q) = Km /\ sk (qc q) = Kc /\ sk (qcc q) = Kc.
  Lemma quad_merge Km Kc d1 q1 d2 q2 : rq Km Kc d1 q1 -> rq Km Kc d2 q2 -> (forall st m t, same_width (all_rows (calls_for st m t (d1 ++ d2)))) ->
    exists q, zip_reduce (qleaves q1) (qleaves q2) = Ok (qleaves q) /\ rq Km Kc (d1 ++ d2) q.
  Proof.
    intros (A1 & A2 & A3 & A4 & A5 & A6) (B1 & B2 & B3 & B4 & B5 & B6) SW.
    destruct (recd_merge _ _ _ _ _ _ _ A1 B1 ltac:(congruence) ltac:(congruence) (SW SMean)) as (xm & cm & M1 & M2 & S1 & S2 & Rm).
    destruct (recd_merge _ _ _ _ _ _ _ A2 B2 ltac:(congruence) ltac:(congruence) (SW SCov)) as (xc & cc & M3 & M4 & S3 & S4 & Rc).
    exists (Quad xm cm xc cc). split.
    - unfold qleaves. cbn [qm qmc qc qcc]. repeat apply zip_reduce_app; apply merge_ok; assumption.
    - unfold rq. cbn [qm qmc qc qcc]. split; [exact Rm|]. split; [exact Rc|]. repeat split; congruence.
  Qed.
  Lemma same_width_incl (a b : list (list F)) : incl a b -> same_width b -> same_width a.
  Proof. intros I S r r' A B. apply S; apply I; assumption. Qed.
  Lemma quad_fold Km Kc (l : list (list call * quad)) : forall d0 q0, rq Km Kc d0 q0 -> Forall (fun p => rq Km Kc (fst p) (snd p)) l ->
    (forall st m t, same_width (all_rows (calls_for st m t (d0 ++ concat (map fst l))))) ->
    exists q, foldM zip_reduce (map (fun p => qleaves (snd p)) l) (qleaves q0) = Ok (qleaves q) /\ rq Km Kc (d0 ++ concat (map fst l)) q.
  Proof.
    induction l as [|[d1 q1] l IH]; intros d0 q0 R0 RL SW.
    - cbn [map concat]. rewrite app_nil_r. exists q0. split; [reflexivity|exact R0].
    - inversion RL as [|? ? R1 Rl]; subst. cbn [fst snd] in R1. cbn [map concat fst snd foldM] in *.
      destruct (quad_merge Km Kc d0 q0 d1 q1 R0 R1) as (q & Z & Rq).
      { intros st m t. apply (same_width_incl _ (all_rows (calls_for st m t (d0 ++ d1 ++ concat (map fst l))))); [|apply SW].
        rewrite app_assoc, (calls_for_app _ _ _ (d0 ++ d1)), all_rows_app. apply incl_appl. apply incl_refl. }
      rewrite Z. cbn [bind]. rewrite app_assoc in *. apply IH; assumption.
  Qed.

  Definition rank_ok (Km Kc : list (string * list string)) (s : lstate) (p : list call * quad) : Prop :=
    registries s = registries (@state_init F) /\ dkeys (attrs s) = dkeys (attrs (@state_init F)) /\
    dget "mean_state" (attrs s) = Some (qm (snd p)) /\ dget "mean_counter" (attrs s) = Some (qmc (snd p)) /\
    dget "covariance_state" (attrs s) = Some (qc (snd p)) /\ dget "covariance_counter" (attrs s) = Some (qcc (snd p)) /\ rq Km Kc (fst p) (snd p).
  Lemma sync_leaves_ok Km Kc s p : rank_ok Km Kc s p -> sync_leaves s = Ok (qleaves (snd p)).
  Proof.
    intros (R & _ & E1 & E2 & E3 & E4 & _). destruct (init_registries s R) as (_ & _ & _ & _ & Es). unfold sync_leaves. rewrite Es.
    cbn [mapM]. rewrite E1, E2, E3, E4. cbn [bind]. unfold qleaves. cbn [concat]. rewrite app_nil_r. reflexivity.
  Qed.
  Lemma refill_state_ok Km Kc s p q d : rank_ok Km Kc s p -> rq Km Kc d q -> rank_ok Km Kc (refill_state s (qleaves q)) (d, q).
  Proof.
    intros (R & K & E1 & E2 & E3 & E4 & ((T1 & T2 & _) & (T3 & T4 & _) & S1 & S2 & S3 & S4)) Rq. pose proof Rq as ((U1 & U2 & _) & (U3 & U4 & _) & V1 & V2 & V3 & V4).
    destruct (init_registries s R) as (_ & _ & _ & _ & Es).
    assert (X : refill_state s (qleaves q) = with_attrs s (dset "covariance_counter" (qcc q) (dset "covariance_state" (qc q) (dset "mean_counter" (qmc q) (dset "mean_state" (qm q) (attrs s)))))).
    { unfold refill_state. rewrite Es. cbn [fold_left fst snd]. rewrite E1. unfold qleaves. rewrite refill_two by congruence. cbn [fst snd attrs with_attrs].
      rewrite dget_dset_neq by discriminate. rewrite E2, refill_two by congruence. cbn [fst snd attrs with_attrs].
      rewrite !dget_dset_neq by discriminate. rewrite E3, refill_two by congruence. cbn [fst snd attrs with_attrs].
      rewrite !dget_dset_neq by discriminate. rewrite E4. rewrite <- (app_nil_r (leaves (qcc q))), refill_two by congruence. reflexivity. }
    rewrite X. unfold rank_ok. cbn [fst snd]. split; [exact R|]. split.
    - cbn [attrs with_attrs]. rewrite <- K.
      assert (DK : forall a (y v : nd sval) (d0 : dict string (nd sval)), dget a d0 = Some y -> dkeys (dset a v d0) = dkeys d0).
      { intros a y v d0 Q. apply dkeys_dset_in. apply dget_In_keys. eauto. }
      rewrite (DK _ (qcc (snd p))) by (rewrite !dget_dset_neq by discriminate; exact E4). rewrite (DK _ (qc (snd p))) by (rewrite !dget_dset_neq by discriminate; exact E3).
      rewrite (DK _ (qmc (snd p))) by (rewrite !dget_dset_neq by discriminate; exact E2). rewrite (DK _ (qm (snd p))) by exact E1. reflexivity.
    - cbn [attrs with_attrs]. split; [rewrite 3!dget_dset_neq by discriminate; apply dget_dset_eq|]. split; [rewrite 2!dget_dset_neq by discriminate; apply dget_dset_eq|].
      split; [rewrite dget_dset_neq by discriminate; apply dget_dset_eq|]. split; [apply dget_dset_eq|exact Rq].
  Qed.
  Lemma rank_hist Km Kc s p : rank_ok Km Kc s p -> hist_inv (fun _ _ _ => None) s (fst p).
  Proof.
    intros (_ & _ & E1 & E2 & E3 & E4 & (R1 & R2 & _)). apply hist_recd. intros [|]; cbn [stat_name counter_name]; eauto.
  Qed.

  Lemma run_rank cs s : run_calls cs state_init = (s, Ok tt) -> Forall call_ok cs ->
    exists q, rank_ok (fold_left skadd (touched SMean cs) []) (fold_left skadd (touched SCov cs) []) s (cs, q).
  Proof.
    intros E O. pose proof (run_inv _ cs _ [] s init_hist O E) as HI. cbn [app] in HI. pose proof (proj1 (hist_recd _ _) HI) as HJ. clear HI. rename HJ into HI.
    pose proof (run_registries cs (@state_init F)) as R. rewrite E in R. cbn [fst] in R.
    pose proof (run_keeps_keys cs (@state_init F)) as KK. rewrite E in KK. cbn [fst] in KK.
    assert (KK' : dkeys (attrs s) = dkeys (attrs (@state_init F))). { apply KK. intros st. rewrite init_attrs. destruct st; cbn; intuition. } clear KK.
    pose proof (order_run cs _ [] s order_init E) as OI. cbn [app] in OI.
    destruct (HI SMean) as (xm & cm & Em & Ecm & Rm). destruct (HI SCov) as (xc & cc & Ec & Ecc & Rc).
    destruct (OI SMean) as (xm' & cm' & Em' & Ecm' & _ & Sm & Scm). destruct (OI SCov) as (xc' & cc' & Ec' & Ecc' & _ & Sc & Scc).
    rewrite Em in Em'. injection Em' as <-. rewrite Ecm in Ecm'. injection Ecm' as <-. rewrite Ec in Ec'. injection Ec' as <-. rewrite Ecc in Ecc'. injection Ecc' as <-.
    rewrite fold_firsts in Sm, Sc. exists (Quad xm cm xc cc). unfold rank_ok, rq. cbn [fst snd qm qmc qc qcc]. unfold touched.
    split; [exact R|]. split; [exact KK'|]. split; [exact Em|]. split; [exact Ecm|]. split; [exact Ec|]. split; [exact Ecc|].
    split; [exact Rm|]. split; [exact Rc|]. repeat split; congruence.
  Qed.

  (** normalising a recorded history leaves the moments *)
  Lemma hist_moments s cs : hist_inv (fun _ _ _ => None) s cs -> registries s = registries (@state_init F) ->
    exists s', normalize s = (s', Ok tt) /\ registries s' = registries s /\ dkeys (attrs s') = dkeys (attrs s) /\
      forall st m t, let ccs := calls_for st m t cs in
        (ccs = [] -> stored s' st m t = None) /\
        (ccs <> [] -> stored s' st m t = Some (moment st (width (all_rows ccs)) (all_rows ccs) (all_count ccs))).
  Proof.
    intros HI R. destruct (init_registries s R) as (En & _).
    destruct (normalize_good s En (hist_pairs _ _ _ HI)) as (s' & E1 & R1 & K1 & _ & D1 & _).
    exists s'. split; [exact E1|]. split; [exact R1|]. split; [exact K1|].
    intros st m t ccs. destruct HI as (_ & K). specialize (K st m t). unfold key_inv in K. fold ccs in K. unfold stored.
    specialize (D1 st m t). destruct K as [(_ & C0 & L1 & L2)|(dv & Tn & k & NE & L1 & W & S & _ & (R2 & NR & WR) & V & L2)].
    - rewrite D1, L1. cbn. split; [reflexivity|congruence].
    - destruct NE as [NE|NE]; [congruence|]. split; [congruence|]. intros _. specialize (NR NE).
      assert (Wd : width (all_rows ccs) = k) by (apply WR; reflexivity).
      rewrite Wd. rewrite D1, L1, L2. cbn [divide]. f_equal. cbn [bcnt bent snd] in *.
      rewrite (stored_moment st k Tn (all_rows ccs)); [f_equal; ring|exact W|exact S|]. intros idx Vi. rewrite V by exact Vi. ring.
  Qed.
  Lemma filter_perm {A} (f : A -> bool) l l' : Permutation l l' -> Permutation (filter f l) (filter f l').
  Proof.
    induction 1 as [|x l l' P IH|x y l|l1 l2 l3 P1 IH1 P2 IH2]; cbn; [constructor| | |eapply perm_trans; eassumption].
    - destruct (f x); [constructor|]; exact IH.
    - destruct (f x), (f y); try reflexivity. constructor.
  Qed.
  Lemma width_same (a b : list (list F)) : Permutation a b -> same_width b -> width a = width b.
  Proof.
    intros P S. unfold width. destruct a as [|x a]; [apply Permutation_nil in P; subst; reflexivity|].
    destruct b as [|y b]; [symmetry in P; apply Permutation_nil in P; discriminate|]. cbn [hd]. apply S; [|left; reflexivity].
    apply (Permutation_in _ P). left. reflexivity.
  Qed.
  Lemma Forall2_ex {A B C} (P : A -> B -> Prop) (Q : A -> C -> Prop) l1 (l2 : list B) : Forall2 P l1 l2 -> (forall a b, In a l1 -> P a b -> exists c, Q a c) ->
    exists l3, Forall2 Q l1 l3.
  Proof.
    induction 1 as [|a b l1 l2 Hab F2 IH]; intros E; [exists []; constructor|]. destruct (E a b (or_introl eq_refl) Hab) as (c & Hc).
    destruct IH as (l3 & Fl); [intros; eapply E; [right|]; eassumption|]. exists (c :: l3). constructor; assumption.
  Qed.
  Lemma mapM_exists {A B} (f : A -> res B) (P : A -> B -> Prop) l : (forall a, In a l -> exists b, f a = Ok b /\ P a b) -> exists bs, mapM f l = Ok bs /\ Forall2 P l bs.
  Proof.
    induction l as [|a l IH]; intros E; [exists []; split; [reflexivity|constructor]|].
    destruct (E a (or_introl eq_refl)) as (b & Eb & Pb). destruct IH as (bs & El & Fl); [intros; apply E; right; assumption|].
    exists (b :: bs). cbn [mapM]. rewrite Eb. cbn [bind]. rewrite El. split; [reflexivity|constructor; assumption].
  Qed.
  Lemma perm_rotate {A} (l : list A) i d : i < length l -> Permutation (nth i l d :: firstn i l ++ skipn (S i) l) l.
  Proof.
    intros L. destruct (nth_split l d L) as (l1 & l2 & E & Li). rewrite E at 2 3 4.
    rewrite <- Li. rewrite (firstn_app (length l1)), Nat.sub_diag, firstn_all. cbn [firstn]. rewrite app_nil_r.
    rewrite skipn_app. replace (S (length l1) - length l1) with 1 by lia. rewrite skipn_all2 by lia. cbn [skipn app]. apply Permutation_middle.
  Qed.

  Theorem sync_moments (dk : @sdisk F) css ss :
    Forall2 (fun cs s => run_calls cs state_init = (s, Ok tt) /\ Forall call_ok cs) css ss -> css <> [] ->
    (forall st cs cs', In cs css -> In cs' css -> touched st cs = touched st cs') ->
    (forall st m t, same_width (all_rows (calls_for st m t (concat css)))) ->
    exists ss' dk', finalize_ranks dk ss = Ok (ss', dk') /\ length ss' = length css /\
      forall s', In s' ss' -> forall st m t, let ccs := calls_for st m t (concat css) in
        (ccs = [] -> stored s' st m t = None) /\
        (ccs <> [] -> stored s' st m t = Some (moment st (width (all_rows ccs)) (all_rows ccs) (all_count ccs))).
  Proof.
    intros Fr NE TO SW.
    assert (G : exists Km Kc (ps : list (list call * quad)), map fst ps = css /\ Forall2 (rank_ok Km Kc) ss ps).
    { destruct css as [|cs0 csr] eqn:Ecss; [congruence|]. rewrite <- Ecss in *. clear NE.
      exists (fold_left skadd (touched SMean cs0) []), (fold_left skadd (touched SCov cs0) []).
      assert (I0 : In cs0 css) by (rewrite Ecss; left; reflexivity). clear Ecss SW csr.
      assert (TO' : forall st cs, In cs css -> touched st cs = touched st cs0) by (intros; apply TO; assumption). clear TO I0.
      induction Fr as [|cs s css ss (E & O) Fr IH]; [exists []; split; [reflexivity|constructor]|].
      destruct (run_rank cs s E O) as (q & Rq). rewrite (TO' SMean cs), (TO' SCov cs) in Rq by (left; reflexivity).
      destruct IH as (ps & E1 & E2); [intros; apply TO'; right; assumption|]. exists ((cs, q) :: ps). cbn [map fst]. split; [f_equal; exact E1|]. constructor; assumption. }
    destruct G as (Km & Kc & ps & Eps & FR).
    assert (L : length ss = length css). { clear -Fr. induction Fr; cbn; congruence. }
    assert (Lps : length ps = length css) by (rewrite <- Eps, map_length; reflexivity).
    (* after synchronisation *)
    assert (G : exists ss1 ds, (if 1 <? length ss then sync_all ss else Ok ss) = Ok ss1 /\ length ss1 = length css /\
       Forall2 (fun s d => exists q, rank_ok Km Kc s (d, q)) ss1 ds /\ forall d, In d ds -> Permutation d (concat css)).
    { destruct (1 <? length ss) eqn:One.
      - unfold sync_all. assert (ML : mapM sync_leaves ss = Ok (map (fun p => qleaves (snd p)) ps)).
        { clear -FR. induction FR as [|s p ss ps R0 FR IH]; [reflexivity|]. cbn [mapM map]. rewrite (sync_leaves_ok _ _ _ _ R0). cbn [bind]. rewrite IH. reflexivity. }
        rewrite ML. cbn [bind].
        match goal with |- context [mapM ?f _] => pose (g := f) end.
        destruct (mapM_exists g (fun i s => exists q, rank_ok Km Kc s (nth i css [] ++ concat (firstn i css ++ skipn (S i) css), q)) (seq 0 (length ss))) as (ss1 & Eb & Fb).
        { intros i Ii. apply in_seq in Ii. destruct Ii as [_ Ii]. cbn in Ii. pose (p0 := ([] : list call, Quad (Node []) (Node []) (Node []) (Node []))).
          assert (Ri : rank_ok Km Kc (nth i ss state_init) (nth i ps p0)).
          { clear -FR Ii. revert i Ii. induction FR as [|s p ss ps R0 FR IH]; intros i Ii; [cbn in Ii; lia|]. destruct i; [exact R0|]. cbn [nth]. apply IH. cbn in Ii. lia. }
          assert (Rall : Forall (fun p => rq Km Kc (fst p) (snd p)) ps).
          { clear -FR. induction FR as [|s p ss ps R0 FR IH]; constructor; [|exact IH]. apply R0. }
          assert (Efst : map fst (firstn i ps ++ skipn (S i) ps) = firstn i css ++ skipn (S i) css).
          { rewrite map_app, <- firstn_map, <- skipn_map, Eps. reflexivity. }
          assert (Ei : fst (nth i ps p0) = nth i css []).
          { rewrite <- Eps. change (@nil call) with (fst p0). rewrite map_nth. reflexivity. }
          pose proof (perm_rotate css i [] ltac:(congruence)) as PR.
          destruct (quad_fold Km Kc (firstn i ps ++ skipn (S i) ps) (fst (nth i ps p0)) (snd (nth i ps p0))) as (q & Ef & Rq).
          - destruct Ri as (_ & _ & _ & _ & _ & _ & Ri). exact Ri.
          - apply Forall_app. rewrite Forall_forall in Rall. split; apply Forall_forall; intros p Ip; apply Rall.
            + rewrite <- (firstn_skipn i ps). apply in_or_app. left. exact Ip.
            + rewrite <- (firstn_skipn (S i) ps). apply in_or_app. right. exact Ip.
          - intros st m t. rewrite Efst, Ei. change (nth i css [] ++ concat (firstn i css ++ skipn (S i) css)) with (concat (nth i css [] :: firstn i css ++ skipn (S i) css)).
            apply (same_width_incl _ (all_rows (calls_for st m t (concat css)))); [|apply SW].
            intros r Ir. unfold all_rows in *. revert Ir. apply Permutation_in. apply concat_perm, Permutation_map, filter_perm, concat_perm. exact PR.
          - unfold g. rewrite (nth_indep _ [] (qleaves (snd p0))) by (rewrite map_length; lia).
            rewrite (map_nth (fun p => qleaves (snd p)) ps p0 i). rewrite firstn_map, skipn_map, <- map_app.
            rewrite Ef. cbn [bind]. eexists. split; [reflexivity|]. rewrite Efst, Ei in Rq. exists q. eapply refill_state_ok; eassumption. }
        exists ss1, (map (fun i => nth i css [] ++ concat (firstn i css ++ skipn (S i) css)) (seq 0 (length ss))). split; [exact Eb|].
        split; [pose proof (Forall2_length _ _ _ Fb) as Q; rewrite seq_length in Q; congruence|]. split.
        + clear -Fb. induction Fb; cbn [map]; constructor; assumption.
        + intros d Id. apply in_map_iff in Id. destruct Id as (i & <- & Ii). apply in_seq in Ii.
          change (Permutation (concat (nth i css [] :: firstn i css ++ skipn (S i) css)) (concat css)). apply concat_perm. apply perm_rotate. lia.
      - apply Nat.ltb_ge in One. exists ss, css. split; [reflexivity|]. split; [exact L|]. rewrite <- Eps at 1. split.
        + clear -FR. induction FR as [|s [d q] ss ps R0 FR IH]; cbn [map fst]; constructor; [eauto|exact IH].
        + intros d Id. rewrite L in One. clear -Id One. destruct css as [|c0 [|c1 csr]]; [contradiction| |cbn [length] in One; lia].
          destruct Id as [<-|[]]. cbn [concat]. rewrite app_nil_r. reflexivity. }
    destruct G as (ss1 & ds & Es1 & L1 & F1 & PD). unfold finalize_ranks. rewrite Es1. cbn [bind].
    assert (NZ : length css <> 0) by (destruct css; [congruence|discriminate]).
    assert (G : exists ss2, mapM (fun s => match normalize s with (s', Ok _) => Ok s' | (_, Err e) => Err e end) ss1 = Ok ss2 /\ length ss2 = length ss1 /\
      Forall (fun s' => registries s' = registries (@state_init F) /\ dkeys (attrs s') = dkeys (attrs (@state_init F)) /\
        forall st m t, let ccs := calls_for st m t (concat css) in
        (ccs = [] -> stored s' st m t = None) /\
        (ccs <> [] -> stored s' st m t = Some (moment st (width (all_rows ccs)) (all_rows ccs) (all_count ccs)))) ss2).
    { clear Es1 L1. revert PD. induction F1 as [|s d ss1 ds (q & Rq) F1 IH]; intros PD; [exists []; split; [reflexivity|]; split; [reflexivity|constructor]|].
      destruct IH as (ss2 & E2 & L2 & A2); [intros d' Id'; apply PD; right; exact Id'|].
      pose proof (rank_hist _ _ _ _ Rq) as HI. cbn [fst] in HI. destruct Rq as (Rr & Rk & _). destruct (hist_moments s d HI Rr) as (s' & En & Rr' & Rk' & V).
      exists (s' :: ss2). cbn [mapM length]. rewrite En. cbn [bind]. rewrite E2. cbn [bind]. split; [reflexivity|]. split; [congruence|].
      constructor; [|exact A2]. split; [congruence|]. split; [congruence|]. intros st m t. cbv zeta. set (ccs := calls_for st m t (concat css)). specialize (V st m t). cbv zeta in V. destruct V as [V1 V2].
      pose proof (PD d (or_introl eq_refl)) as P.
      assert (PC : Permutation (calls_for st m t d) ccs) by (apply filter_perm; exact P). split; intros Q.
      - apply V1. rewrite Q in PC. apply Permutation_sym, Permutation_nil in PC. exact PC.
      - rewrite V2; [|intros Q2; rewrite Q2 in PC; apply Permutation_nil in PC; congruence].
        assert (PRw : Permutation (all_rows (calls_for st m t d)) (all_rows ccs)) by (apply concat_perm, Permutation_map; exact PC).
        rewrite (width_same _ _ PRw) by apply SW. rewrite (moment_perm st _ _ _ _ PRw). f_equal. f_equal. unfold all_count. apply lsum_perm, Permutation_map. exact PC. }
    destruct G as (ss2 & E2 & L2 & A2). rewrite E2. cbn [bind]. destruct ss2 as [|s0 ssr]; [cbn in L2; lia|].
    inversion A2 as [|? ? (R0 & K0 & _) _]; subst. destruct (save_ok dk s0 (saved_present s0 K0 R0)) as (dk' & Ed & _). rewrite Ed.
    exists (s0 :: ssr), dk'. split; [reflexivity|]. split; [congruence|]. intros s' Is'. rewrite Forall_forall in A2. destruct (A2 s' Is') as (_ & _ & V). exact V.
  Qed.
End Proofs.
