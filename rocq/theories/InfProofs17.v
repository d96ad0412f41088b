(** Influence of some of the source samples, continued: scores. *)
From Verif Require Import Py PyStr Field Tensor ModelGrad Monad ModelState ModelInfluence SpecGrad SpecState SpecInfluence SpecRows GradProofs1 GradProofs2 StateProofs1 InfProofs1 InfProofs2 InfProofs10 InfProofs15 InfProofs16.
Local Open Scope string_scope.
Local Open Scope list_scope.
Local Open Scope nat_scope.

Section Proofs.
  Context {F : Type} `{OField F}.
  Notation tensor := (tensor F).
  Notation sval := (@sval F).
  Notation lstate := (@lstate F).
  Notation dten := (@dten F).
  Notation tlog := (@tlog F).
  Notation scores := (@scores F).
  Notation infres := (@infres F).
  Variable eigh : tensor -> res (tensor * tensor).
  Variable inverse : tensor -> res tensor.
  Variable fsqrt : F -> F.
  Notation precondition := (precondition eigh inverse).
  Notation compute_influence := (compute_influence eigh inverse fsqrt).
  Notation influence_all := (influence_all eigh inverse fsqrt).
  Notation influence_loop := (influence_loop eigh inverse fsqrt).

  Variables off k n : nat.
  Hypothesis Lk : off + k <= n.
  Hypothesis Nk : k <> 0.
  Notation R := (rows (F:=F) off k).
  Notation Rd := (Rd (F:=F) off k).
  Notation Pt := (part (F:=F) off k).
  Notation samples := (samples (F:=F) n).
  Notation mat := (InfProofs15.mat (F:=F) n).
  Lemma mat_samples t : mat t -> samples t.
  Proof. intros (q & S & W). exists [q]. auto. Qed.
  Notation uniform := (uniform (F:=F) n).

  Lemma sync_part (A : tlog) tgt t' : uniform A -> synchronize_device (log_nd A) tgt = Ok t' -> synchronize_device (log_nd (Pt A)) tgt = Ok t'.
  Proof.
    intros U. unfold synchronize_device. destruct (first_item tgt) as [[m t]|]; [|auto]. intros E. apply bind_ok in E. destruct E as (d & E1 & E). destruct (item_part off k n A m t d U E1) as (E1' & _). rewrite E1'. exact E.
  Qed.
  Definition Sd (d : scores) : scores := map (fun p => (fst p, option_map Rd (snd p))) d.
  Definition fine (d : scores) : Prop := Forall (fun p => forall x, snd p = Some x -> mat (snd x)) d.
  Lemma fine_set key x d : fine d -> mat (snd x) -> fine (dset key (Some x) d).
  Proof. intros Fd Sx. induction Fd as [|[a o] d E V IH]; cbn [dset]; [constructor; [intros y [= <-]; exact Sx|constructor]|]. destruct (eqb key a); constructor; auto. intros y [= <-]. exact Sx. Qed.
  Lemma fine_get key x d : fine d -> dget key d = Some (Some x) -> mat (snd x).
  Proof. intros Fd E. apply dget_In in E. apply (proj1 (Forall_forall _ _) Fd _ E). reflexivity. Qed.
  Lemma add_score_part x d key d1 : mat (snd x) -> fine d -> add_score x d key = Ok d1 -> fine d1 /\ add_score (Rd x) (Sd d) key = Ok (Sd d1).
  Proof.
    intros Sx Fd E. unfold add_score in *. apply bind_ok in E. destruct E as (o & E1 & E). apply bind_ok in E. destruct E as (o' & E2 & E). injection E as <-. unfold dgetM in *. unfold Sd at 1. rewrite (dget_map (option_map Rd)). destruct (dget key d) as [o0|] eqn:G; [|discriminate]. injection E1 as ->. cbn [option_map bind].
    assert (Q : mat (snd o') /\ match option_map Rd o with None => Ok (Rd x) | Some a => iadd_ a (Rd x) end = Ok (Rd o')).
    { destruct o as [a|]; cbn [option_map]; [|injection E2 as <-; auto]. apply (add_rows off k n Lk Nk _ _ _ (fine_get key a d Fd G) Sx E2). }
    destruct Q as (So & Q). rewrite Q. cbn [bind]. split.
    - apply fine_set; assumption.
    - f_equal. unfold Sd. change (Some (Rd o')) with (option_map Rd (Some o')). apply dset_map.
  Qed.
  Lemma add_scores_part x gs : mat (snd x) -> forall d d1, fine d -> foldM (add_score x) gs d = Ok d1 -> fine d1 /\ foldM (add_score (Rd x)) gs (Sd d) = Ok (Sd d1).
  Proof.
    intros Sx. induction gs as [|g gs IH]; intros d d1 Fd E; cbn [foldM] in *; [injection E as <-; auto|]. apply bind_ok in E. destruct E as (d2 & E1 & E). destruct (add_score_part _ _ _ _ Sx Fd E1) as (F2 & E1'). rewrite E1'. cbn [bind]. apply IH; assumption.
  Qed.
  Lemma add_module_part groups m x d d1 : mat (snd x) -> fine d -> add_module groups m x d = Ok d1 -> fine d1 /\ add_module groups m (Rd x) (Sd d) = Ok (Sd d1).
  Proof.
    intros Sx Fd E. unfold add_module in *. apply bind_ok in E. destruct E as (d2 & E1 & E). destruct (add_score_part _ _ _ _ Sx Fd E1) as (F2 & E1'). rewrite E1'. cbn [bind]. apply add_scores_part; assumption.
  Qed.
  Lemma scores_part (A : tlog) tgt groups : uniform A -> forall ms d d1, fine d ->
    foldM (fun d m => let* a := log_item (log_nd A) m "grad" in let* b := log_item tgt m "grad" in let* x := cross_dot_product a b in add_module groups m x d) ms d = Ok d1 ->
    fine d1 /\ foldM (fun d m => let* a := log_item (log_nd (Pt A)) m "grad" in let* b := log_item tgt m "grad" in let* x := cross_dot_product a b in add_module groups m x d) ms (Sd d) = Ok (Sd d1).
  Proof.
    intros U. induction ms as [|m ms IH]; intros d d1 Fd E; cbn [foldM] in *; [injection E as <-; auto|]. apply bind_ok in E. destruct E as (d2 & E1 & E). apply bind_ok in E1. destruct E1 as (a & E1 & E2). apply bind_ok in E2. destruct E2 as (b & E2 & E3). apply bind_ok in E3. destruct E3 as (x & E3 & E4).
    destruct (item_part off k n A m _ a U E1) as (E1' & Sa). rewrite E1', E2. cbn [bind]. destruct (cross_rows off k n Lk Nk _ _ _ Sa E3) as (Sx & E3'). rewrite E3'. cbn [bind]. destruct (add_module_part _ _ _ _ _ Sx Fd E4) as (F2 & E4'). rewrite E4'. cbn [bind]. apply IH; assumption.
  Qed.
  Lemma init_fold gs : forall d : scores, Forall (fun p => snd p = None) d -> Forall (fun p => snd p = None) (fold_left (fun d g => dset g None d) gs d).
  Proof.
    induction gs as [|g gs IH]; intros d V; cbn [fold_left]; [exact V|]. apply IH. clear IH. induction V as [|[a o] d E V IH]; cbn [dset]; [constructor; [reflexivity|constructor]|]. destruct (eqb g a); constructor; auto.
  Qed.
  Lemma init_none groups : Forall (fun p => snd p = None) (init_scores (F:=F) groups).
  Proof. apply init_fold. constructor; [reflexivity|constructor]. Qed.
  Lemma init_Sd groups : Sd (init_scores groups) = init_scores groups.
  Proof. induction (init_none groups) as [|[a o] d E V IH]; [reflexivity|]. cbn [Sd map fst snd] in *. rewrite E. cbn [option_map]. f_equal. exact IH. Qed.
  Lemma init_fine groups : fine (init_scores groups).
  Proof. unfold fine. eapply Forall_impl; [|apply init_none]. intros [a o] E x E'. cbn [snd] in E'. cbv beta in E. cbn [snd] in E. congruence. Qed.

  (** a score and the score of the part *)
  Definition rel (o o' : option dten) : Prop :=
    match o, o' with
    | None, None => True
    | Some x, Some y => (y = Rd x /\ mat (snd x)) \/ (y = x /\ exists q, shape (snd x) = [1; q] /\ twf (snd x))
    | _, _ => False
    end.
  Definition rels := Forall2 (fun p q : string * option dten => fst q = fst p /\ rel (snd p) (snd q)).
  Lemma Sd_rels d : fine d -> rels d (Sd d).
  Proof.
    intros Fd. induction Fd as [|[a o] d E V IH]; cbn [Sd map]; constructor; [|exact IH]. split; [reflexivity|]. cbn [snd] in *. destruct o as [x|]; cbn; [|exact Logic.I]. left. split; [reflexivity|]. apply E. reflexivity.
  Qed.
  Lemma adjust_rel f o o' norm v : rel o o' -> adjust f o norm = Ok v -> exists v', adjust f o' norm = Ok v' /\ rel (Some v) (Some v').
  Proof.
    intros V E. unfold adjust in *. destruct (shape norm) as [|q [|]]; try discriminate E. destruct o as [[dv t]|]; destruct o' as [[dv' t']|]; try contradiction V.
    - destruct dv; try discriminate E. destruct (shape t) as [|a [|b [|]]] eqn:St; try discriminate E. destruct ((q =? b) || (q =? 1)) eqn:Eq; [|discriminate E]. injection E as <-. destruct V as [(V & Sx)|(V & w & V1 & V2)].
      + injection V as -> ->. destruct Sx as (r & Sr & W). cbn [snd] in *. rewrite St in Sr. injection Sr as -> <-. rewrite rows_size, St. cbn [tl]. rewrite Eq. eexists. split; [reflexivity|]. left. split.
        * unfold InfProofs15.Rd. cbn [fst snd]. rewrite (rows_mgen off k n Lk). f_equal. apply mgen_ext. intros i j Li Lj. f_equal. unfold mget. rewrite (rows_get off k n Lk t [b] i [j] St Li); [reflexivity|]. constructor; [exact Lj|constructor].
        * exists b. split; [reflexivity|apply tgen_wf].
      + injection V as -> ->. rewrite St, Eq. eexists. split; [reflexivity|]. right. split; [reflexivity|]. cbn [snd] in *. rewrite St in V1. injection V1 as -> ->. exists w. split; [reflexivity|apply tgen_wf].
    - injection E as <-. eexists. split; [reflexivity|]. right. split; [reflexivity|]. exists q. split; [reflexivity|apply tgen_wf].
  Qed.
  Lemma adjust_all_rel f norm d d' e : rels d d' -> adjust_all f norm d = Ok e -> exists e', adjust_all f norm d' = Ok e' /\ rels e e'.
  Proof.
    intros V. revert e. unfold adjust_all. induction V as [|[a o] [b o'] d d' (E1 & V1) V IH]; intros e E; cbn [mapM] in *; [injection E as <-; exists []; split; [reflexivity|constructor]|].
    apply bind_ok in E. destruct E as (x & E2 & E). apply bind_ok in E. destruct E as (xs & E3 & E). injection E as <-. cbn [fst snd] in *. subst b. apply bind_ok in E2. destruct E2 as (nk & E2 & E4). rewrite E2. cbn [bind]. apply bind_ok in E4. destruct E4 as (v & E4 & E5). injection E5 as <-.
    destruct (adjust_rel _ _ _ _ _ V1 E4) as (v' & E4' & V2). rewrite E4'. cbn [bind]. destruct (IH xs E3) as (es & E6 & V3). rewrite E6. cbn [bind]. eexists. split; [reflexivity|]. constructor; [split; [reflexivity|exact V2]|exact V3].
  Qed.
  Lemma rows_all (t : tensor) q : off = 0 -> k = 1 -> shape t = [1; q] -> twf t -> R t = t.
  Proof. intros -> -> St W. apply tensor_ext; [apply (rows_wf 0 1 t 1 [q] St W); lia|exact W|rewrite rows_size, St; reflexivity|]. intros idx V. rewrite rows_size, St in V. cbn [tl] in V. inversion V as [|j ? idx' ? Lj V']; subst. unfold rows, tget. rewrite St. cbn [tl shape data ravel]. rewrite nth_firstn_skipn; [f_equal; lia|]. pose proof (ravel_lt _ _ V'). assert (j = 0) by lia. subst j. cbn [ravel] in *. lia. Qed.
  Notation check ids tids := (fun p : string * option dten => match snd p with
                                        | None => Err AttributeError
                                        | Some x =>
                                            match shape (snd x) with
                                            | [n; k] => if (n =? length (ids : list string)) && (k =? length (tids : list string)) then Ok (fst p, snd x) else Err AssertionError
                                            | _ => Err IndexError
                                            end
                                        end).
  Notation Rs := (map (fun q : string * tensor => (fst q, R (snd q)))).
  Lemma check_rel (sids sids' tids : list string) d d' vals : length sids = n -> length sids' = k -> rels d d' -> mapM (check sids tids) d = Ok vals ->
    Forall (fun q => samples (snd q)) vals /\ mapM (check sids' tids) d' = Ok (Rs vals).
  Proof.
    intros Ls Ls' V. revert vals. induction V as [|[a o] [b o'] d d' (E1 & V1) V IH]; intros vals E; cbn [mapM] in *; [injection E as <-; split; [constructor|reflexivity]|].
    apply bind_ok in E. destruct E as (x & E2 & E). apply bind_ok in E. destruct E as (xs & E3 & E). injection E as <-. cbn [fst snd] in *. subst b. destruct (IH xs E3) as (Q1 & Q2). rewrite Q2. destruct o as [y|]; [|discriminate E2]. destruct o' as [y'|]; [|contradiction V1].
    destruct (shape (snd y)) as [|u [|v [|]]] eqn:Sy; try discriminate E2. destruct ((u =? length sids) && (v =? length tids)) eqn:Eb; [|discriminate E2]. injection E2 as <-. apply andb_true_iff in Eb. destruct Eb as (Eu & Ev). apply Nat.eqb_eq in Eu.
    assert (Q : samples (snd y) /\ y' = Rd y).
    { destruct V1 as [(V1 & V2)|(V1 & q & V2 & V3)]; [split; [apply mat_samples; exact V2|exact V1]|]. rewrite Sy in V2. injection V2 as -> ->. assert (n = 1) by lia. assert (off = 0) by lia. assert (k = 1) by lia. split; [exists [q]; split; [rewrite Sy; f_equal; lia|exact V3]|]. subst y'. unfold InfProofs15.Rd. rewrite (rows_all (snd y) q); auto. destruct y; reflexivity. }
    destruct Q as (Q & ->). cbn [InfProofs15.Rd snd fst]. rewrite rows_size, Sy. cbn [tl]. rewrite Ls', Nat.eqb_refl, Ev. cbn [andb bind map]. split; [constructor; assumption|reflexivity].
  Qed.

  Lemma parts_part (A : tlog) : uniform A -> forall path l,
    mapM (fun p => let* d := log_item (log_nd A) (fst p) (snd p) in let* n := size0 (snd d) in let* r := reshape_infer (snd d) [n] [] in Ok (fst d, r)) path = Ok l ->
    Forall (fun x : dten => samples (snd x)) l /\
    mapM (fun p => let* d := log_item (log_nd (Pt A)) (fst p) (snd p) in let* n := size0 (snd d) in let* r := reshape_infer (snd d) [n] [] in Ok (fst d, r)) path = Ok (map Rd l).
  Proof.
    intros U. induction path as [|[m t] path IH]; intros l E; cbn [mapM] in *; [injection E as <-; split; [constructor|reflexivity]|]. apply bind_ok in E. destruct E as (x & E1 & E). apply bind_ok in E. destruct E as (xs & E2 & E). injection E as <-. destruct (IH xs E2) as (Q1 & Q2). rewrite Q2. cbn [fst snd] in *.
    apply bind_ok in E1. destruct E1 as (d & E1 & E3). destruct (item_part off k n A m t d U E1) as (E1' & Sd0). rewrite E1'. cbn [bind]. pose proof Sd0 as (r & Sr & W). unfold size0 in *. rewrite Sr in E3. cbn [bind] in E3. apply bind_ok in E3. destruct E3 as (y & E3 & E4). injection E4 as <-.
    destruct (infer_rows off k n Lk Nk _ _ Sd0 E3) as (Sy & E3'). cbn [InfProofs15.Rd fst snd]. rewrite rows_size. cbn [bind]. rewrite E3'. cbn [bind map]. split; [constructor; assumption|reflexivity].
  Qed.
  Lemma cats_part r : forall a x, samples (snd a) -> Forall (fun x : dten => samples (snd x)) r ->
    foldM (fun (acc x : dten) => if dev_eqb (fst acc) (fst x) then let* c := tcat1 (snd acc) (snd x) in Ok (fst acc, c) else Err RuntimeError) r a = Ok x ->
    samples (snd x) /\ foldM (fun (acc x : dten) => if dev_eqb (fst acc) (fst x) then let* c := tcat1 (snd acc) (snd x) in Ok (fst acc, c) else Err RuntimeError) (map Rd r) (Rd a) = Ok (Rd x).
  Proof.
    induction r as [|b r IH]; intros a x Sa V E; cbn [foldM map] in *; [injection E as <-; auto|]. inversion V as [|? ? Sb V']; subst. apply bind_ok in E. destruct E as (c & E1 & E). cbn [InfProofs15.Rd fst snd]. destruct (dev_eqb (fst a) (fst b)); [|discriminate E1]. apply bind_ok in E1. destruct E1 as (y & E1 & E2). injection E2 as <-.
    destruct (tcat1_rows off k n Lk Nk _ _ _ Sa Sb E1) as (Sy & E1'). rewrite E1'. cbn [bind]. apply (IH (fst a, y)); assumption.
  Qed.
  Lemma flatten_part (A : tlog) path x : uniform A -> flatten_log (log_nd A) path = Ok x -> samples (snd x) /\ flatten_log (log_nd (Pt A)) path = Ok (Rd x).
  Proof.
    intros U E. unfold flatten_log in *. apply bind_ok in E. destruct E as (l & E1 & E). destruct (parts_part A U path l E1) as (V & E1'). rewrite E1'. cbn [bind]. destruct l as [|a r]; [discriminate E|]. cbn [map]. inversion V; subst. apply cats_part; assumption.
  Qed.
  Lemma pick_part groups vals v : Forall (fun q => samples (snd q)) vals -> pick (F:=F) groups vals = Ok v ->
    pick groups (Rs vals) = Ok (rows_val off k v) /\ match v with Mat t => samples t | Grp d => Forall (fun q => samples (snd q)) d end.
  Proof.
    intros V E. unfold pick in *. destruct groups as [g|]; [injection E as <-; auto|]. apply bind_ok in E. destruct E as (t & E1 & E). injection E as <-. unfold dgetM in *. rewrite (dget_map R). destruct (dget "total" vals) as [u|] eqn:G; [|discriminate E1]. injection E1 as ->. cbn [option_map bind]. split; [reflexivity|]. apply dget_In in G. exact (proj1 (Forall_forall _ _) V _ G).
  Qed.
  Definition val_ok (v : @ival F) : Prop := match v with Mat t => samples t | Grp d => Forall (fun q => samples (snd q)) d end.

  Lemma influence_part (A : tlog) sids sids' tgt mode h groups d (s s' : lstate) r : uniform A -> length sids = n -> length sids' = k ->
    compute_influence (sids, Nest (log_nd A)) tgt mode false h groups d s = (s', Ok r) ->
    i_src r = sids /\ val_ok (i_val r) /\ compute_influence (sids', Nest (log_nd (Pt A))) tgt mode false h groups d s = (s', Ok (InfRes sids' (i_tgt r) (rows_val off k (i_val r)))).
  Proof.
    intros U Ls Ls' E. unfold ModelInfluence.compute_influence in *. destruct (mem mode ["dot"; "l2"; "cosine"]); [|discriminate E].
    rewrite (sbind_run _ _ s s _ eq_refl) in E. rewrite (sbind_run _ _ s s _ eq_refl). cbn [fst snd] in *. cbv zeta in *.
    apply sbind_ok in E. destruct E as (s1 & pr & E1 & E).
    assert (Q : exists d0, fst pr = d0 /\ fine d0 /\ (match snd tgt with
        | Flat t =>
            let! mm := attr "model_module" in
            let! src := lift (Ok (log_nd (Pt A))) in
            let! fs := lift (flatten_log src (match mm with Node d => match dget "path"%string d with Some (Leaf (VPath l)) => l | _ => [] end | Leaf _ => [] end)) in
            let! x := lift (cross_dot_product fs (fst fs, snd t)) in
            let! tot := lift (add_score x (init_scores groups) "total") in
            sret (tot, tgt)
        | Nest tgt0 =>
            let! src := lift (Ok (log_nd (Pt A))) in
            let! tgt' := lift (synchronize_device src tgt0) in
            let! ms := lift (nd_keys src) in
            let! tot := lift (foldM (fun d m =>
                let* a := log_item src m "grad" in
                let* b := log_item tgt' m "grad" in
                let* x := cross_dot_product a b in
                add_module groups m x d) ms (init_scores groups)) in
            sret (tot, (fst tgt, Nest tgt'))
        end) s = (s1, Ok (Sd d0, snd pr))).
    { destruct (snd tgt) as [t|t].
      - rewrite (sbind_run _ _ s s _ eq_refl) in E1. rewrite (sbind_run _ _ s s _ eq_refl).
        apply sbind_ok in E1. destruct E1 as (s2 & t' & E2 & E1). apply lift_ok in E2. destruct E2 as (-> & E2). rewrite (sbind_run _ _ s s t') by (unfold lift; rewrite (sync_part A t t' U E2); reflexivity).
        rewrite log_nd_keys in E1. rewrite ?log_nd_keys, ?part_keys. rewrite (sbind_run _ _ s s _ eq_refl) in E1. rewrite (sbind_run _ _ s s _ eq_refl).
        apply sbind_ok in E1. destruct E1 as (s2 & tot & E3 & E1). apply lift_ok in E3. destruct E3 as (-> & E3). injection E1 as <- <-. destruct (scores_part A t' groups U _ _ _ (init_fine groups) E3) as (F1 & E4). rewrite init_Sd in E4.
        exists tot. split; [reflexivity|]. split; [exact F1|]. rewrite (sbind_run _ _ s s (Sd tot)) by (unfold lift; rewrite E4; reflexivity). reflexivity.
      - apply sbind_ok in E1. destruct E1 as (s2 & mm & E2 & E1). rewrite (sbind_run _ _ _ _ _ E2). rewrite (sbind_run _ _ s2 s2 _ eq_refl) in E1. rewrite (sbind_run _ _ s2 s2 _ eq_refl).
        apply sbind_ok in E1. destruct E1 as (s3 & fs & E3 & E1). apply lift_ok in E3. destruct E3 as (-> & E3). destruct (flatten_part A _ fs U E3) as (Sf & E3'). rewrite (sbind_run _ _ s2 s2 (Rd fs)) by (unfold lift; rewrite E3'; reflexivity).
        apply sbind_ok in E1. destruct E1 as (s3 & x & E4 & E1). apply lift_ok in E4. destruct E4 as (-> & E4). destruct (cross_rows off k n Lk Nk _ _ _ Sf E4) as (Sx & E4'). rewrite (sbind_run _ _ s2 s2 (Rd x)) by (unfold lift; change (fst (Rd fs)) with (fst fs); rewrite E4'; reflexivity).
        apply sbind_ok in E1. destruct E1 as (s3 & tot & E5 & E1). apply lift_ok in E5. destruct E5 as (-> & E5). injection E1 as <- <-. destruct (add_score_part _ _ _ _ Sx (init_fine groups) E5) as (F1 & E5'). rewrite init_Sd in E5'.
        exists tot. split; [reflexivity|]. split; [exact F1|]. rewrite (sbind_run _ _ s2 s2 (Sd tot)) by (unfold lift; rewrite E5'; reflexivity). reflexivity. }
    destruct Q as (d0 & Ed & Fd & Q). rewrite (sbind_run _ _ _ _ _ Q). cbn [fst snd]. clear Q E1. rewrite Ed in E.
    apply sbind_ok in E. destruct E as (s2 & tot & E1 & E).
    assert (Q : exists tot', rels tot tot' /\ (if String.eqb mode "cosine"
       then let! nv := compute_self_influence eigh inverse (snd pr) true h groups d in lift (adjust_all (fun v n0 => fdiv v (fsqrt n0)) (snd nv) (Sd d0))
       else if String.eqb mode "l2" then let! nv := compute_self_influence eigh inverse (snd pr) true h groups d in lift (adjust_all (fun v n0 => fsub v (fmul half n0)) (snd nv) (Sd d0))
       else sret (Sd d0)) s1 = (s2, Ok tot')).
    { destruct (String.eqb mode "cosine"); [|destruct (String.eqb mode "l2")].
      - apply sbind_ok in E1. destruct E1 as (s3 & nv & E2 & E1). apply lift_ok in E1. destruct E1 as (-> & E1). destruct (adjust_all_rel _ _ _ _ _ (Sd_rels d0 Fd) E1) as (e & E3 & V). exists e. split; [exact V|]. rewrite (sbind_run _ _ _ _ _ E2). unfold lift. rewrite E3. reflexivity.
      - apply sbind_ok in E1. destruct E1 as (s3 & nv & E2 & E1). apply lift_ok in E1. destruct E1 as (-> & E1). destruct (adjust_all_rel _ _ _ _ _ (Sd_rels d0 Fd) E1) as (e & E3 & V). exists e. split; [exact V|]. rewrite (sbind_run _ _ _ _ _ E2). unfold lift. rewrite E3. reflexivity.
      - injection E1 as <- <-. exists (Sd d0). split; [apply Sd_rels; exact Fd|reflexivity]. }
    destruct Q as (tot' & V & Q). rewrite (sbind_run _ _ _ _ _ Q). clear Q E1. apply sbind_ok in E. destruct E as (s3 & vals & E1 & E). apply lift_ok in E1. destruct E1 as (-> & E1). destruct (check_rel sids sids' (fst tgt) _ _ _ Ls Ls' V E1) as (V1 & E1').
    rewrite (sbind_run _ _ s2 s2 (Rs vals)) by (exact (f_equal (fun z => (s2, z)) E1')). apply sbind_ok in E. destruct E as (s3 & v & E2 & E). apply lift_ok in E2. destruct E2 as (-> & E2). destruct (pick_part _ _ _ V1 E2) as (E2' & V2). rewrite (sbind_run _ _ s2 s2 (rows_val off k v)) by (unfold lift; rewrite E2'; reflexivity).
    injection E as <- <-. cbn [i_src i_tgt i_val]. auto.
  Qed.
  Lemma merge_val_part a b c : val_ok a -> val_ok b -> merge_val false a b = Ok c -> val_ok c /\ merge_val false (rows_val off k a) (rows_val off k b) = Ok (rows_val off k c).
  Proof.
    intros Va Vb E. destruct a as [t|da], b as [u|db]; cbn [merge_val rows_val val_ok] in *; try discriminate E; apply bind_ok in E; destruct E as (w & E1 & E); injection E as <-.
    - cbn [cat_axis] in *. destruct (tcat1_rows off k n Lk Nk _ _ _ Va Vb E1) as (Sw & E1'). rewrite E1'. auto.
    - assert (Q : Forall (fun q => samples (snd q)) w /\ cat_groups false (Rs da) (Rs db) = Ok (Rs w)); [|destruct Q as (Q1 & Q2); rewrite Q2; auto].
      revert w E1. unfold cat_groups. induction Va as [|[a t] da Sa Va IH]; intros w E; cbn [mapM map] in *; [injection E as <-; split; [constructor|reflexivity]|]. apply bind_ok in E. destruct E as (x & E1 & E). apply bind_ok in E. destruct E as (xs & E2 & E). injection E as <-. destruct (IH xs E2) as (Q1 & Q2). rewrite Q2. cbn [fst snd] in *.
      apply bind_ok in E1. destruct E1 as (u & E1 & E3). apply bind_ok in E3. destruct E3 as (c & E3 & E4). injection E4 as <-. unfold dgetM in *. rewrite (dget_map R). destruct (dget a db) as [u'|] eqn:G; [|discriminate E1]. injection E1 as ->. cbn [option_map bind cat_axis] in *.
      assert (Su : samples u). { apply dget_In in G. exact (proj1 (Forall_forall _ _) Vb _ G). }
      destruct (tcat1_rows off k n Lk Nk _ _ _ Sa Su E3) as (Sc & E3'). rewrite E3'. cbn [bind map fst snd]. split; [constructor; assumption|reflexivity].
  Qed.
  Definition racc (sids' : list string) (o : option infres) : option infres := option_map (fun r => InfRes sids' (i_tgt r) (rows_val off k (i_val r))) o.
  Lemma loop_part (A : tlog) sids sids' mode h groups d : uniform A -> length sids = n -> length sids' = k -> forall loader acc (s s' : lstate) o,
    match acc with Some r => i_src r = sids /\ val_ok (i_val r) | None => True end ->
    influence_loop (sids, Nest (log_nd A)) loader mode h groups d acc s = (s', Ok o) ->
    match o with Some r => i_src r = sids /\ val_ok (i_val r) | None => True end /\
    influence_loop (sids', Nest (log_nd (Pt A))) loader mode h groups d (racc sids' acc) s = (s', Ok (racc sids' o)).
  Proof.
    intros U Ls Ls'. induction loader as [|b l IH]; intros acc s s' o Va E; cbn [ModelInfluence.influence_loop] in *; [injection E as <- <-; auto|].
    apply sbind_ok in E. destruct E as (s1 & x & E1 & E). destruct (influence_part A sids sids' b mode h groups d s s1 x U Ls Ls' E1) as (X1 & X2 & E1'). rewrite (sbind_run _ _ _ _ _ E1'). apply sbind_ok in E. destruct E as (s2 & acc' & E2 & E). apply lift_ok in E2. destruct E2 as (-> & E2).
    assert (Q : match acc' with Some r => i_src r = sids /\ val_ok (i_val r) | None => True end /\ merge_tgt (racc sids' acc) (InfRes sids' (i_tgt x) (rows_val off k (i_val x))) = Ok (racc sids' acc')).
    { destruct acc as [a|]; cbn [merge_tgt racc option_map i_src i_tgt i_val] in *; [|injection E2 as <-; auto]. apply bind_ok in E2. destruct E2 as (v & E2 & E3). injection E3 as <-. destruct Va as (V1 & V2). destruct (merge_val_part _ _ _ V2 X2 E2) as (Vv & E2'). rewrite E2'. cbn [bind i_src i_val i_tgt option_map]. auto. }
    destruct Q as (Q1 & Q2). rewrite (sbind_run _ _ s1 s1 (racc sids' acc')) by (unfold lift; rewrite Q2; reflexivity). apply IH; assumption.
  Qed.
  Lemma all_part (A : tlog) sids loader mode prec h groups d (s s' : lstate) o : uniform A -> length sids = n ->
    influence_all (sids, Nest (log_nd A)) loader mode prec h groups d s = (s', Ok o) ->
    influence_all (firstn k (skipn off sids), Nest (log_nd (Pt A))) loader mode prec h groups d s = (s', Ok (option_map (rows_of off k) o)).
  Proof.
    intros U Ls E. assert (Ls' : length (firstn k (skipn off sids)) = k) by (rewrite firstn_length, skipn_length; lia). unfold ModelInfluence.influence_all in *. apply sbind_ok in E. destruct E as (s1 & sl & E1 & E).
    assert (Q : exists P, uniform P /\ sl = (sids, Nest (log_nd P)) /\ (if prec then precondition (firstn k (skipn off sids), Nest (log_nd (Pt A))) d h else sret (firstn k (skipn off sids), Nest (log_nd (Pt A)))) s = (s1, Ok (firstn k (skipn off sids), Nest (log_nd (Pt P))))).
    { destruct prec; [|injection E1 as <- <-; exists A; auto]. destruct (prec_part eigh inverse off k n Lk Nk A sids (firstn k (skipn off sids)) d h s s1 sl U E1) as (P & -> & UP & E2). exists P. auto. }
    destruct Q as (P & UP & -> & Q). rewrite (sbind_run _ _ _ _ _ Q). destruct (loop_part P sids _ mode h groups d UP Ls Ls' loader None s1 s' o Logic.I E) as (V & E2). cbn [racc option_map] in E2. rewrite E2. f_equal. f_equal. destruct o as [r|]; [|reflexivity]. cbn [racc option_map]. destruct V as (V & _). unfold rows_of. rewrite V. reflexivity.
  Qed.
End Proofs.
