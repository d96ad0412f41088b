(** From a whole epoch of batches to the finalised statistics (C63), and masked statistics (C33). *)
From Coq Require Import ZArith Permutation.
From Verif Require Import Py Field Tensor ModelGrad Monad ModelState ModelMmap ModelSaver ModelLogger SpecGrad SpecState SpecLogger StateProofs1 StateProofs3 StateProofs4 GradProofs1 LogProofs1 LogProofs3 LogProofs5 LogProofs6 LogProofs8.
Local Open Scope nat_scope.

Section P.
  Context {F : Type} `{OField F}.
  Add Field lp9field : f_theory.
  Notation tensor := (tensor F).
  Notation dten := (@dten F).
  Notation uten := (@uten F).
  Notation lx := (@lx F).
  Notation ev := (@ev F).
  Notation lstate := (@lstate F).
  Variable kind : mid -> mkind.
  Variable wsize : mid -> nat.
  Variable eigh : tensor -> res (tensor * tensor).
  Variable enc : dten -> array.
  Notation run_evs := (run_evs kind eigh).
  Notation reachable := (reachable kind wsize eigh enc).

  Lemma pristine_hist (s : lstate) : pristine s -> hist_inv (fun _ _ _ => None) s [].
  Proof.
    intros (_ & _ & P). split.
    - intros st. destruct (P st) as [P1 P2]. exists (Node []), (Node []). split; [exact P1|split; [exact P2|split; split; constructor]].
    - intros st m t. left. destruct (P st) as [P1 P2]. unfold lookup2. rewrite P1, P2. cbn. auto.
  Qed.
  Lemma finalize_pristine (dk : @sdisk F) cs (s0 s : lstate) : pristine s0 -> run_calls cs s0 = (s, Ok tt) -> Forall call_ok cs ->
    exists s' dk', finalize dk s = (s', Ok dk') /\
      forall st m t, let ccs := calls_for st m t cs in
        (ccs = [] -> stored s' st m t = None) /\
        (ccs <> [] -> all_rows ccs <> [] /\ rows_fit st (width (all_rows ccs)) (all_rows ccs) /\
           stored s' st m t = Some (moment st (width (all_rows ccs)) (all_rows ccs) (all_count ccs))).
  Proof.
    intros HP E O. pose proof (run_inv _ cs _ [] s (pristine_hist _ HP) O E) as HI. cbn [app] in HI.
    destruct HP as (HR & HK & HE).
    pose proof (run_registries cs s0) as R. rewrite E in R. cbn [fst] in R. rewrite HR in R.
    pose proof (run_keeps_keys cs s0) as KK. rewrite E in KK. cbn [fst] in KK. rewrite HK in KK.
    rewrite init_attrs in KK. specialize (KK ltac:(intros st; destruct st; cbn; intuition)).
    destruct (init_registries s R) as (En & Es & _).
    destruct (normalize_good s En (hist_pairs _ _ _ HI)) as (s' & E1 & R1 & K1 & _ & D1 & _).
    destruct (save_ok dk s') as (dk' & E2 & _).
    { intros a I. replace (st_save s') with (st_save s) in I by (unfold registries in R1; congruence). rewrite Es in I.
      intros Q. apply dget_None_keys in Q. apply Q. rewrite K1, KK. cbn in I |- *. intuition (subst; auto). }
    exists s', dk'. split; [unfold finalize; rewrite (sbind_run _ _ _ _ _ E1); exact E2|].
    intros st m t ccs. destruct HI as (_ & K). specialize (K st m t). unfold key_inv in K. fold ccs in K. unfold stored.
    specialize (D1 st m t). destruct K as [(_ & C0 & L1 & L2)|(dv & Tn & k & NE & L1 & W & S & _ & (R2 & NR & WR) & V & L2)].
    - rewrite D1, L1. cbn. split; [reflexivity|congruence].
    - destruct NE as [NE|NE]; [congruence|]. split; [congruence|]. intros _. specialize (NR NE). split; [exact NR|].
      assert (Wd : width (all_rows ccs) = k) by (apply WR; reflexivity).
      rewrite Wd. split; [exact R2|]. rewrite D1, L1, L2. cbn [divide]. f_equal. cbn [bcnt bent snd] in *.
      rewrite (stored_moment st k Tn (all_rows ccs)).
      + f_equal. ring.
      + exact W.
      + exact S.
      + intros idx Vi. rewrite V by exact Vi. ring.
  Qed.

  (** ---- reachable states ---- *)
  Lemma reachable_op o (x x' : lx) r : reachable x -> run_op kind wsize eigh enc o x = (x', r) -> reachable x'.
  Proof.
    intros (w & t & off & os & ->) E. exists w, t, off, (os ++ [o]). rewrite run_ops_app. unfold run_ops at 1. cbn [fold_left]. rewrite E. reflexivity.
  Qed.
  Lemma reachable_evs es (x x' : lx) r : reachable x -> run_evs es x = (x', r) -> reachable x'.
  Proof.
    revert x. induction es as [|e es IH]; intros x HR E.
    - injection E as <- _. exact HR.
    - unfold ModelLogger.run_evs in E. cbn [seach] in E. unfold sbind in E. destruct (run_ev kind eigh e x) as [y [u|er]] eqn:Ee.
      + apply (IH y); [|exact E]. exact (reachable_op (XEv e) x y _ HR Ee).
      + injection E as <- _. exact (reachable_op (XEv e) x y _ HR Ee).
  Qed.
  Lemma pristine_init w t off : pristine (x_state (@lx_init F w t off)).
  Proof. unfold lx_init. cbn [x_state]. unfold pristine. repeat split; rewrite init_attrs; destruct st; reflexivity. Qed.

  Lemma set_state_pristine k v (s : lstate) : pristine s -> pristine (fst (set_state "model_module" k v s)).
  Proof.
    intros (HR & HK & HE). unfold set_state. rewrite (sbind_run sget _ _ _ _ eq_refl). destruct (mem "model_module"%string (st_states s)); [|exact (conj HR (conj HK HE))].
    unfold attr, sbind at 1. destruct (dget "model_module"%string (attrs s)) as [a|] eqn:Ea; [|exact (conj HR (conj HK HE))].
    unfold sbind, lift. destruct (nd_set1 a k v) as [a'|]; [|exact (conj HR (conj HK HE))]. unfold set_attr. cbn [fst].
    split; [exact HR|]. cbn [attrs with_attrs]. split.
    - rewrite dkeys_dset_in; [exact HK|]. destruct (in_dec string_dec "model_module"%string (dkeys (attrs s))) as [Hi|Hi]; [exact Hi|]. apply dget_None_keys in Hi. congruence.
    - intros st. destruct (HE st) as [H1 H2]. destruct st; rewrite !dget_dset_neq by discriminate; split; assumption.
  Qed.
  Lemma pristine_ops os (x : lx) : Forall preparation os -> pristine (x_state x) -> pristine (x_state (run_ops kind wsize eigh enc os x)).
  Proof.
    revert x. induction os as [|o os IH]; intros x HP HS; [exact HS|]. apply Forall_cons_iff in HP as [H1 HP]. unfold run_ops in IH |- *. cbn [fold_left].
    apply IH; [exact HP|]. clear IH HP. destruct o; try destruct H1.
    - cbn [run_op]. unfold watch. rewrite (sbind_run _ _ _ _ _ (add_modules_run ms x)). rewrite (sbind_run sget _ _ _ _ eq_refl).
      destruct (map _ _) as [|d ds]; [exact HS|]. unfold sbind at 1.
      set (y := with_mods x _ _) in *. assert (Hy : x_state y = x_state x) by reflexivity.
      match goal with |- context[let (_, _) := ?m (x_state y) in _] => assert (HF : pristine (fst (m (x_state y)))) end.
      { unfold sbind. destruct (set_state "model_module" "path" _ (x_state y)) as [s1 [u|e]] eqn:E1.
        - apply set_state_pristine. replace s1 with (fst (set_state "model_module" "path" (VPath (map (fun p => (snd p, "grad"%string)) (x_names y))) (x_state y))) by (rewrite E1; reflexivity).
          apply set_state_pristine. rewrite Hy. exact HS.
        - cbn [fst]. replace s1 with (fst (set_state "model_module" "path" (VPath (map (fun p => (snd p, "grad"%string)) (x_names y))) (x_state y))) by (rewrite E1; reflexivity).
          apply set_state_pristine. rewrite Hy. exact HS. }
      match goal with |- context[let (_, _) := ?m (x_state y) in _] => destruct (m (x_state y)) as [s' [[]|e]] end; [match goal with |- context [x_shared ?z] => destruct (x_shared z) end; exact HF|exact HF].
    - cbn [run_op]. unfold lx_setup. destruct (opt_setup kw) as [[o' kw'] r]. exact HS.
    - exact HS.
    - exact HS.
    - destruct e; try destruct H1. exact HS.
  Qed.

  (** ---- an epoch ---- *)
  Lemma update_state_plain sv (x x' : lx) o : skipn 1 (o_grad (x_opt x)) = [] -> update eigh enc sv x = (x', o) -> x_state x' = x_state x.
  Proof.
    intros Eg E. unfold update in E. rewrite (sbind_run sget _ _ _ _ eq_refl) in E. rewrite Eg in E. cbn [seach] in E.
    rewrite (sbind_run (sret tt) _ _ _ _ eq_refl) in E. destruct sv.
    - unfold lx_save_log in E. destruct (x_ids x).
      + destruct (save_log _ _ _ _) as [[d' s'] o']. injection E as <- _. reflexivity.
      + injection E as <- _. reflexivity.
    - injection E as <- _. reflexivity.
  Qed.
  Lemma stats_opts ids mask es (x x1 x2 : lx) : reachable x -> begins ids mask x x1 -> run_evs es x1 = (x2, Ok tt) ->
    x_opt x2 = x_opt x /\ x_mods x2 = x_mods x /\ x_names x2 = x_names x /\ x_offload x2 = x_offload x.
  Proof.
    intros HR HB E. destruct (begins_fresh _ _ _ _ _ _ _ _ HR HB) as (_ & _ & _ & _ & _ & _ & Eo & Emd & En & _ & Ef).
    apply run_evs_grows in E as (c & s & l & h & hs & ->). cbn. auto.
  Qed.
  Lemma batch_step b (x x1 x2 x3 : lx) sv : reachable x -> begins (bt_ids b) (bt_mask b) x x1 -> moments_only (x_opt x) -> skipn 1 (o_grad (x_opt x)) = [] ->
    run_evs (bt_evs b) x1 = (x2, Ok tt) -> own_backward [] (bt_evs b) -> update eigh enc sv x2 = (x3, Ok tt) ->
    run_calls (stat_calls kind (x_mods x) (x_names x) (x_opt x) (bt_mask b) (x_offload x) (x_heap x) [] (bt_evs b)) (x_state x) = (x_state x3, Ok tt) /\
    x_heap x3 = heap_after (x_heap x) (bt_evs b) /\ x_opt x3 = x_opt x /\ x_mods x3 = x_mods x /\ x_names x3 = x_names x /\ x_offload x3 = x_offload x.
  Proof.
    intros HR HB HM HG E HW EU. destruct (batch_statistics _ _ _ _ _ _ _ _ _ _ HR HB HM E HW) as [HC HH].
    destruct (stats_opts _ _ _ _ _ _ HR HB E) as (Q1 & Q2 & Q3 & Q4).
    rewrite (update_state_plain sv x2 x3 (Ok tt)) by (try rewrite Q1; assumption). split; [exact HC|].
    apply update_stores in EU as (s & sv' & d & vs & ->). cbn. auto 10.
  Qed.
  Lemma epoch_run bs (x x' : lx) : epoch kind eigh enc bs x x' -> reachable x -> moments_only (x_opt x) -> skipn 1 (o_grad (x_opt x)) = [] ->
    Forall (fun b => own_backward [] (bt_evs b)) bs ->
    run_calls (epoch_calls kind (x_mods x) (x_names x) (x_opt x) (x_offload x) (x_heap x) bs) (x_state x) = (x_state x', Ok tt) /\ reachable x'.
  Proof.
    intros HE. induction HE as [x|b bs save x x1 x2 E HE IH|b bs save x x1 x2 E HE IH]; intros HR HM HG HW.
    - split; [reflexivity|exact HR].
    - apply sbind_ok in E as (y & [] & E1 & E). apply sbind_ok in E as (z & [] & E2 & E3). rewrite end_saves in E3. apply Forall_cons_iff in HW as [HW0 HW].
      destruct (batch_step b x y z x1 _ HR (or_introl E1) HM HG E2 HW0 E3) as (C1 & Hh & Q1 & Q2 & Q3 & Q4).
      assert (HRy : reachable y) by exact (reachable_op (XStart (bt_ids b) (bt_mask b)) x y _ HR E1).
      assert (HRz : reachable z) by exact (reachable_evs _ _ _ _ HRy E2).
      rewrite <- end_saves in E3. assert (HR1 : reachable x1) by exact (reachable_op (XEnd save) z x1 _ HRz E3).
      rewrite Q1, Q2, Q3, Q4, Hh in IH. destruct (IH HR1 HM HG HW) as [C2 HR2]. split; [|exact HR2]. cbn [epoch_calls]. exact (run_calls_ok _ _ _ _ _ C1 C2).
    - unfold with_block in E. apply sbind_ok in E as (y0 & [] & E0 & E). apply sbind_ok in E as (y & [] & E1 & E). apply Forall_cons_iff in HW as [HW0 HW].
      assert (HB : begins (bt_ids b) (bt_mask b) x y) by (right; exists save; rewrite (sbind_run _ _ _ _ _ E0); exact E1).
      assert (HRy0 : reachable y0) by exact (reachable_op (XCall (bt_ids b) (bt_mask b) save) x y0 _ HR E0).
      assert (HRy : reachable y) by exact (reachable_op XEnter y0 y _ HRy0 E1).
      destruct (run_evs (bt_evs b) y) as [z [[]|er]] eqn:E2.
      + pose proof E as E3. rewrite exit_saves in E3.
        destruct (batch_step b x y z x1 _ HR HB HM HG E2 HW0 E3) as (C1 & Hh & Q1 & Q2 & Q3 & Q4).
        assert (HRz : reachable z) by exact (reachable_evs _ _ _ _ HRy E2).
        assert (HR1 : reachable x1) by exact (reachable_op XExit z x1 _ HRz E).
        rewrite Q1, Q2, Q3, Q4, Hh in IH. destruct (IH HR1 HM HG HW) as [C2 HR2]. split; [|exact HR2]. cbn [epoch_calls]. exact (run_calls_ok _ _ _ _ _ C1 C2).
      + destruct (lx_exit eigh enc z) as [w [u|e']]; discriminate E.
  Qed.
  Lemma epoch_statistics bs (x x' : lx) : epoch kind eigh enc bs x x' -> reachable x -> pristine (x_state x) -> moments_only (x_opt x) -> skipn 1 (o_grad (x_opt x)) = [] ->
    Forall (fun b => own_backward [] (bt_evs b)) bs ->
    let cs := epoch_calls kind (x_mods x) (x_names x) (x_opt x) (x_offload x) (x_heap x) bs in
    Forall call_ok cs -> forall st m t, let ccs := calls_for st m t cs in
      (ccs = [] -> stored (x_state (fst (lx_finalize x'))) st m t = None) /\
      (ccs <> [] -> stored (x_state (fst (lx_finalize x'))) st m t = Some (moment st (width (all_rows ccs)) (all_rows ccs) (all_count ccs))).
  Proof.
    intros HE HR HP HM HG HW cs HO. destruct (epoch_run _ _ _ HE HR HM HG HW) as [HC _]. fold cs in HC.
    destruct (finalize_pristine (x_disk x') cs _ _ HP HC HO) as (s' & dk' & Ef & HS).
    assert (Es : x_state (fst (lx_finalize x')) = s').
    { unfold lx_finalize, sbind. rewrite Ef. destruct (saver_finalize _ _) as [[d' sv] o']. reflexivity. }
    intros st m t ccs. rewrite Es. destruct (HS st m t) as [H1 H2]. split; [exact H1|]. intros HN. apply H2. exact HN.
  Qed.

  (** ---- masked statistics ---- *)
  Lemma lsum_concat (l : list (list F)) : lsum (concat l) = lsum (map lsum l).
  Proof. induction l as [|a l IH]; [reflexivity|]. cbn [concat map]. rewrite lsum_app, IH. reflexivity. Qed.
  Lemma lsum_flat {A} (f : A -> list (list F)) (g : list F -> F) l : lsum (map g (concat (map f l))) = lsum (map (fun a => lsum (map g (f a))) l).
  Proof. rewrite concat_map, lsum_concat, !map_map. reflexivity. Qed.
  Lemma linear_rows (r : tensor) B P D inf o n st bi off dv : shape r = [B; P; D] -> twf r ->
    call_rows (Call st bi (Some (KLinear inf o)) n "forward" (Some (dv, r)) off) =
    concat (map (fun b => map (fun p => map (fun j => tget r [b; p; j]) (seq 0 D)) (seq 0 P)) (seq 0 B)).
  Proof.
    intros Hs Hw. unfold call_rows, call_samples, call_tensor. cbn [k_data k_mod k_t snd]. unfold samples, batch_size. rewrite Hs. cbn [hd].
    rewrite map_map. f_equal. apply map_ext_in. intros b Hb. apply in_seq in Hb.
    unfold sample_rows, slice. rewrite Hs. cbn [shape data last removelast tl]. unfold vectors.
    replace (prod [P]) with P by (unfold prod; cbn; lia). apply map_ext_in. intros p Hp. apply map_ext_in. intros j Hj. apply in_seq in Hp, Hj.
    change (firstn (prod [P; D]) (skipn (b * prod [P; D]) (data r))) with (data (slice (T [B; P; D] (data r)) b)).
    rewrite nth_slice by (unfold prod; cbn [fold_right]; nia). unfold tget. rewrite Hs. cbn [ravel]. f_equal. unfold prod. cbn [fold_right]. lia.
  Qed.
  Lemma nth_zeros (l : list nat) i : nth i (map (fun _ => f0) l) f0 = f0 :> F.
  Proof. revert i. induction l as [|a l IH]; intros [|i]; cbn; auto. Qed.
  Lemma masked_rows (b : @mbatch F) D inf o n st idx : mb_ok D b -> Forall (fun i => i < D) idx -> length idx = (match st with SMean => 1 | SCov => 2 end) ->
    rowstat st (call_rows (mb_call (KLinear inf o) n st b)) idx = rowstat st (mb_kept D b) idx.
  Proof.
    intros ((Hms & Hmw & Hm) & Has & Haw & Hd & HB & HP & HD) Hi Hl.
    unfold mb_call, seen. rewrite (mask_positions (mb_mask b) (mb_act b) [mb_B b] (mb_P b) D) by assumption. cbn [app].
    rewrite (linear_rows _ (mb_B b) (mb_P b) D) by (try reflexivity; apply tgen_wf).
    assert (Key : forall g : list F -> F,
      (forall p q, p < mb_B b -> q < mb_P b -> g (map (fun j => if mb_keep b p q then tget (snd (mb_act b)) [p; q; j] else f0) (seq 0 D)) =
        if mb_keep b p q then g (map (fun j => tget (snd (mb_act b)) [p; q; j]) (seq 0 D)) else f0) ->
      lsum (map g (concat (map (fun p => map (fun q => map (fun j => tget (tgen [mb_B b; mb_P b; D] (fun i => fmul (tget (snd (mb_act b)) i) (tget (snd (mb_mask b)) (removelast i)))) [p; q; j]) (seq 0 D)) (seq 0 (mb_P b))) (seq 0 (mb_B b))))) =
      lsum (map g (mb_kept D b))).
    { intros g Hg. unfold mb_kept, kept_rows. rewrite !lsum_flat. f_equal. apply map_ext_in. intros p Hp. rewrite lsum_flat. rewrite map_map. f_equal. apply map_ext_in. intros q Hq.
      apply in_seq in Hp, Hq.
      replace (map (fun j => tget (tgen [mb_B b; mb_P b; D] (fun i => fmul (tget (snd (mb_act b)) i) (tget (snd (mb_mask b)) (removelast i)))) [p; q; j]) (seq 0 D))
        with (map (fun j => if mb_keep b p q then tget (snd (mb_act b)) [p; q; j] else f0) (seq 0 D)).
      - rewrite Hg by lia. destruct (mb_keep b p q); cbn [map lsum fold_right]; [ring|reflexivity].
      - apply map_ext_in. intros j Hj. apply in_seq in Hj. rewrite tget_tgen by (repeat constructor; lia). cbn [removelast]. rewrite Hm by lia.
        destruct (mb_keep b p q); ring. }
    destruct st; cbn [rowstat]; unfold row_sum, row_prod; apply Key; intros p q Hp Hq; destruct (mb_keep b p q); try reflexivity.
    - destruct idx as [|i [|]]; try discriminate Hl. inversion Hi; subst. cbn [nth].
      unfold row_entry. apply nth_zeros.
    - destruct idx as [|i [|i' [|]]]; try discriminate Hl. inversion Hi as [|? ? Hi1 Hi2]; subst. cbn [nth].
      rewrite nth_zeros. ring.
  Qed.
  Lemma masked_count (b : @mbatch F) D k n st : mb_ok D b -> call_count (mb_call k n st b) = fnat (length (mb_kept D b)).
  Proof.
    intros ((Hms & Hmw & Hm) & Has & Haw & Hd & HB & HP & HD). unfold mb_call, call_count. cbn [k_b b_mask k_t String.eqb Ascii.eqb Bool.eqb].
    unfold tsum. rewrite lsum_sum. unfold twf in Hmw. rewrite Hmw, Hms.
    replace (prod [mb_B b; mb_P b]) with (mb_B b * mb_P b) by (unfold prod; cbn; lia). rewrite sum_mul. unfold mb_kept, kept_rows.
    assert (HL : forall (l : list nat) (f : nat -> list (list F)), fnat (length (concat (map f l))) = lsum (map (fun a => fnat (length (f a))) l)).
    { induction l as [|a l IH]; intros f; [reflexivity|]. cbn [map concat lsum fold_right]. rewrite app_length, fnat_add, IH. reflexivity. }
    rewrite HL, lsum_seq. apply sum_ext. intros p Hp. rewrite HL, lsum_seq. apply sum_ext. intros q Hq.
    specialize (Hm p q Hp Hq). unfold tget in Hm. rewrite Hms in Hm. cbn [ravel] in Hm. replace (p * prod [mb_P b] + (q * prod [] + 0)) with (p * mb_P b + q) in Hm by (unfold prod; cbn; lia).
    rewrite Hm. destruct (mb_keep b p q); cbn [length]; [|reflexivity]. cbn [fnat]. ring.
  Qed.
  Lemma kept_width (b : @mbatch F) D r : In r (mb_kept D b) -> length r = D.
  Proof.
    unfold mb_kept, kept_rows. intros Hr. apply in_concat in Hr as (l & Hl & Hr). apply in_map_iff in Hl as (p & <- & _).
    apply in_concat in Hr as (l & Hl & Hr). apply in_map_iff in Hl as (q & <- & _). destruct (mb_keep b p q); [|destruct Hr].
    destruct Hr as [<-|[]]. rewrite map_length, seq_length. reflexivity.
  Qed.
  Lemma calls_all k n st (bs : list (@mbatch F)) : calls_for st n "forward" (map (mb_call k n st) bs) = map (mb_call k n st) bs.
  Proof.
    unfold calls_for. induction bs as [|b bs IH]; [reflexivity|]. cbn [map filter]. rewrite IH. unfold mb_call at 1 2 3. cbn [k_stat k_m k_t].
    rewrite !String.eqb_refl. destruct st; reflexivity.
  Qed.
  Lemma plain_all k n st (bs : list (@mbatch F)) : calls_for st n "forward" (map (mb_plain k n st) bs) = map (mb_plain k n st) bs.
  Proof.
    unfold calls_for. induction bs as [|b bs IH]; [reflexivity|]. cbn [map filter]. rewrite IH. unfold mb_plain at 1 2 3. cbn [k_stat k_m k_t].
    rewrite !String.eqb_refl. destruct st; reflexivity.
  Qed.
  Lemma rowstat_app st (a b : list (list F)) idx : rowstat st (a ++ b) idx = fadd (rowstat st a idx) (rowstat st b idx).
  Proof. destruct st; cbn [rowstat]; unfold row_sum, row_prod; rewrite map_app, lsum_app; reflexivity. Qed.
  Lemma moment_ext st k (a b : list (list F)) n : (forall idx, Forall (fun i => i < k) idx -> length idx = (match st with SMean => 1 | SCov => 2 end) -> rowstat st a idx = rowstat st b idx) ->
    moment st k a n = moment st k b n.
  Proof.
    intros HE. destruct st; cbn [moment rowstat] in *.
    - apply tgen_ext. intros idx Hv. inversion Hv as [|i m l l' Hi Hv' E1 E2]; subst. inversion Hv'; subst. cbn [nth]. f_equal.
      apply (HE [i]); [repeat constructor; exact Hi|reflexivity].
    - unfold mgen. apply tgen_ext. intros idx Hv. inversion Hv as [|i m l l' Hi Hv' E1 E2]; subst. inversion Hv' as [|j m2 l2 l2' Hj Hv'' E3 E4]; subst. inversion Hv''; subst. cbn [ix nth]. f_equal.
      apply (HE [i; j]); [repeat constructor; assumption|reflexivity].
  Qed.
  Lemma row_width_linear (r : tensor) B P D : B <> 0 -> P <> 0 ->
    width (concat (map (fun b => map (fun p => map (fun j => tget r [b; p; j]) (seq 0 D)) (seq 0 P)) (seq 0 B))) = D.
  Proof.
    intros HB HP. destruct B as [|B]; [congruence|]. destruct P as [|P]; [congruence|]. cbn [seq map concat app]. unfold width. cbn [hd]. rewrite map_length, seq_length. reflexivity.
  Qed.
  Lemma masked_tensor (b : @mbatch F) D : mb_ok D b -> exists r, seen (Some (mb_mask b)) (mb_act b) = (fst (mb_act b), r) /\ shape r = [mb_B b; mb_P b; D] /\ twf r.
  Proof.
    intros ((Hms & Hmw & Hm) & Has & Haw & Hd & HB & HP & HD). unfold seen. rewrite (mask_positions (mb_mask b) (mb_act b) [mb_B b] (mb_P b) D) by assumption.
    eexists. split; [reflexivity|]. split; [reflexivity|apply tgen_wf].
  Qed.
  Lemma masked_ok (b : @mbatch F) D inf o n st : mb_ok D b -> call_ok (mb_call (KLinear inf o) n st b).
  Proof.
    intros HOK. destruct (masked_tensor b D HOK) as (r & Er & Hs & Hw). destruct HOK as (_ & _ & _ & _ & HB & HP & HD).
    exists r. unfold mb_call, call_tensor. cbn [k_data k_mod]. rewrite Er. split; [reflexivity|]. split; [exact Hw|]. rewrite Hs. split.
    - unfold prod. cbn [fold_right]. destruct (mb_B b), (mb_P b), D; cbn; congruence.
    - cbn [batched]. rewrite Hs. cbn. lia.
  Qed.
  Lemma masked_statistics (dk : @sdisk F) inf o n st D (bs : list (@mbatch F)) s : bs <> [] -> Forall (mb_ok D) bs -> concat (map (mb_kept D) bs) <> [] ->
    run_calls (map (mb_call (KLinear inf o) n st) bs) state_init = (s, Ok tt) ->
    exists s' dk', finalize dk s = (s', Ok dk') /\
      stored s' st n "forward" = Some (moment st D (concat (map (mb_kept D) bs)) (fnat (length (concat (map (mb_kept D) bs))))).
  Proof.
    intros HN HOK _ E. assert (HC : Forall call_ok (map (mb_call (KLinear inf o) n st) bs)).
    { apply Forall_forall. intros c Hc. apply in_map_iff in Hc as (b & <- & Hb). rewrite Forall_forall in HOK. exact (masked_ok b D inf o n st (HOK b Hb)). }
    destruct (finalize_moments dk _ s E HC) as (s' & dk' & Ef & _ & HS). exists s', dk'. split; [exact Ef|].
    destruct (HS st n "forward"%string) as [_ H2]. cbv zeta in H2. rewrite calls_all in H2.
    destruct H2 as (_ & _ & H2 & _); [destruct bs; [congruence|discriminate]|]. rewrite H2. f_equal. clear -HN HOK kind.
    assert (HWd : width (all_rows (map (mb_call (KLinear inf o) n st) bs)) = D).
    { destruct bs as [|b bs]; [congruence|]. apply Forall_inv in HOK. destruct (masked_tensor b D HOK) as (r & Er & Hs & Hw). destruct HOK as (_ & _ & _ & _ & HB & HP & HD).
      unfold all_rows. cbn [map concat]. unfold mb_call at 1. rewrite Er. rewrite (linear_rows r _ _ _ _ _ _ _ _ _ _ Hs Hw).
      pose proof (row_width_linear r (mb_B b) (mb_P b) D HB HP) as HW. unfold width in *. destruct (mb_B b) as [|B]; [congruence|]. destruct (mb_P b) as [|P]; [congruence|].
      cbn [seq map concat app hd] in *. exact HW. }
    rewrite HWd. replace (all_count (map (mb_call (KLinear inf o) n st) bs)) with (fnat (F := F) (length (concat (map (mb_kept D) bs)))).
    - apply moment_ext. intros idx Hi Hl. unfold all_rows. clear HWd HN. induction bs as [|b bs IH]; [destruct st; reflexivity|].
      apply Forall_cons_iff in HOK as [H0 HOK]. cbn [map concat]. rewrite !rowstat_app, (masked_rows b D inf o n st idx H0 Hi Hl), IH by exact HOK. reflexivity.
    - unfold all_count. clear HWd HN. induction bs as [|b bs IH]; [reflexivity|]. apply Forall_cons_iff in HOK as [H0 HOK]. cbn [map concat lsum fold_right].
      rewrite app_length, fnat_add, (masked_count b D _ n st H0). f_equal. apply IH. exact HOK.
  Qed.
  (** without the mask: the same rows, divided by the number of samples *)
  Lemma plain_statistics (dk : @sdisk F) inf o n st D (b : @mbatch F) s : mb_ok D b -> (forall p q, p < mb_B b -> q < mb_P b -> mb_keep b p q = true) ->
    run_calls [mb_plain (KLinear inf o) n st b] state_init = (s, Ok tt) ->
    length (mb_kept D b) = mb_B b * mb_P b /\
    exists s' dk', finalize dk s = (s', Ok dk') /\ stored s' st n "forward" = Some (moment st D (mb_kept D b) (fnat (mb_B b))).
  Proof.
    intros HOK HA E. assert (HKR : mb_kept D b = concat (map (fun p => map (fun q => map (fun j => tget (snd (mb_act b)) [p; q; j]) (seq 0 D)) (seq 0 (mb_P b))) (seq 0 (mb_B b)))).
    { unfold mb_kept, kept_rows. f_equal. apply map_ext_in. intros p Hp. apply in_seq in Hp.
      assert (HX : forall l : list nat, (forall q, In q l -> q < mb_P b) -> concat (map (fun q => if mb_keep b p q then [map (fun j => tget (snd (mb_act b)) [p; q; j]) (seq 0 D)] else []) l) = map (fun q => map (fun j => tget (snd (mb_act b)) [p; q; j]) (seq 0 D)) l).
      { induction l as [|q l IH]; intros Hl; [reflexivity|]. cbn [map concat]. rewrite HA by (try lia; apply Hl; left; reflexivity). cbn [app]. f_equal. apply IH. intros q' Hq'. apply Hl. right. exact Hq'. }
      apply HX. intros q Hq. apply in_seq in Hq. lia. }
    destruct HOK as ((Hms & Hmw & Hm) & Has & Haw & Hd & HB & HP & HD).
    assert (HC : call_ok (mb_plain (KLinear inf o) n st b)).
    { exists (snd (mb_act b)). unfold mb_plain, call_tensor. cbn [k_data k_mod]. split; [reflexivity|]. split; [exact Haw|]. cbn [batched]. rewrite Has. split; [|cbn; lia].
      unfold prod. cbn [fold_right]. destruct (mb_B b), (mb_P b), D; cbn; congruence. }
    split.
    - rewrite HKR. generalize (seq_length (mb_B b) 0). generalize (seq 0 (mb_B b)). intros l <-. induction l as [|a l IH]; [reflexivity|]. cbn [map concat length]. rewrite app_length, IH, map_length, seq_length. lia.
    - destruct (finalize_moments dk _ s E ltac:(constructor; [exact HC|constructor])) as (s' & dk' & Ef & _ & HS). exists s', dk'. split; [exact Ef|].
      destruct (HS st n "forward"%string) as [_ H2]. cbv zeta in H2. pose proof (plain_all (KLinear inf o) n st [b]) as HP1. cbn [map] in HP1. rewrite HP1 in H2.
      destruct H2 as (_ & _ & H2 & _); [discriminate|]. rewrite H2. f_equal. unfold all_rows, all_count. cbn [map concat lsum fold_right]. rewrite app_nil_r.
      assert (HR : call_rows (mb_plain (KLinear inf o) n st b) = mb_kept D b).
      { unfold mb_plain. destruct (mb_act b) as [dv r] eqn:Eab. cbn [snd] in *. rewrite (linear_rows r (mb_B b) (mb_P b) D) by assumption. symmetry. exact HKR. }
      rewrite HR. replace (width (mb_kept D b)) with D by (rewrite HKR; symmetry; apply row_width_linear; assumption). f_equal.
      unfold call_count, mb_plain. cbn [k_b b_mask]. unfold call_samples, call_tensor. cbn [k_data]. unfold samples. rewrite map_length, seq_length. unfold batch_size. rewrite Has. cbn [hd]. ring.
  Qed.
End P.
