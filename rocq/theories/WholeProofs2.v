(** Statistics over the gradients of an epoch: the moments. *)
From Coq Require Import ZArith Permutation Lia.
From Verif Require Import Py PyStr Field Tensor ModelGrad Monad ModelState ModelMmap ModelSaver ModelLogger ModelUtils ModelTrainer SpecGrad SpecState SpecLogger SpecInfluence SpecWhole StateProofs1 StateProofs3 StateProofs4 GradProofs1 LogProofs1 LogProofs8 LogProofs9 WholeProofs1.
Local Open Scope nat_scope.

Section P.
  Context {F : Type} `{OField F}.
  Add Field wp2field : f_theory.
  Notation tensor := (tensor F).
  Notation dten := (@dten F).
  Notation lx := (@lx F).
  Notation lstate := (@lstate F).
  Notation tlog := (@tlog F).
  Variable kind : mid -> mkind.
  Variable wsize : mid -> nat.
  Variable eigh : tensor -> res (tensor * tensor).
  Variable enc : dten -> array.
  Notation reachable := (reachable kind wsize eigh enc).
  Notation logged_epoch := (logged_epoch kind eigh enc).
  Notation lcalls := (lcalls kind).

  Lemma reaches_typ mods names mask off m ps t d (c : @call F) : In c (reaches kind mods names mask off m ps t d) -> k_t c = t.
  Proof.
    unfold reaches. intros Hc. apply in_concat in Hc as (l & Hl & Hc). apply repeat_spec in Hl. subst l. apply in_map_iff in Hc as (st & <- & _). reflexivity.
  Qed.
  Lemma stat_typ mods names o mask off : forall es h cs (c : @call F), In c (stat_calls kind mods names o mask off h cs es) -> k_t c <> "grad"%string.
  Proof.
    induction es as [|e es IH]; intros h cs c Hc; [destruct Hc|]. destruct e; cbn [stat_calls] in Hc; try (exact (IH _ _ _ Hc)).
    - apply in_app_or in Hc as [Hc|Hc]; [|exact (IH _ _ _ Hc)]. destruct ins as [|i [|]]; try destruct Hc. apply reaches_typ in Hc. rewrite Hc. discriminate.
    - apply in_app_or in Hc as [Hc|Hc]; [|exact (IH _ _ _ Hc)]. match type of Hc with In _ (match ?a with _ => _ end) => destruct a end; [|destruct Hc].
      match type of Hc with In _ (match ?a with _ => _ end) => destruct a as [|g [|]] end; try destruct Hc. apply reaches_typ in Hc. rewrite Hc. discriminate.
  Qed.
  Lemma calls_for_none st m t (cs : list (@call F)) : (forall c, In c cs -> k_t c <> t) -> calls_for st m t cs = [].
  Proof.
    intros Hc. unfold calls_for. induction cs as [|c cs IH]; [reflexivity|]. cbn [filter]. destruct (String.eqb_spec (k_t c) t) as [E|E]; [elim (Hc c (or_introl eq_refl) E)|].
    rewrite !andb_false_r. apply IH. intros c' Hc'. apply Hc. right. exact Hc'.
  Qed.
  Lemma gcalls_typ b off ps ms (c : @call F) : In c (gcalls b off ps ms) -> k_t c = "grad"%string.
  Proof. unfold gcalls. intros Hc. apply in_concat in Hc as (l & Hl & Hc). apply in_map_iff in Hl as (st & <- & _). apply in_map_iff in Hc as (m & <- & _). reflexivity. Qed.
  Lemma gcalls_kind b off st ms m (l : list (@call F)) : NoDup ms -> l = map (fun m => Call st b None m "grad" None off) ms ->
    (forall st', st' <> st -> calls_for st' m "grad" l = []) /\ calls_for st m "grad" l = if in_dec string_dec m ms then [Call st b None m "grad" None off] else [].
  Proof.
    intros HN ->. split.
    - intros st' N. unfold calls_for. induction ms as [|a ms IH]; [reflexivity|]. inversion HN; subst. cbn [map filter k_stat]. replace (stat_eqb st st') with false by (destruct st, st'; try reflexivity; congruence).
      cbn [andb]. apply IH. assumption.
    - unfold calls_for. induction ms as [|a ms IH]; [reflexivity|]. inversion HN as [|? ? N1 N2]; subst. cbn [map filter k_stat k_m k_t]. replace (stat_eqb st st) with true by (destruct st; reflexivity). cbn [andb].
      rewrite (IH N2). destruct (String.eqb_spec a m) as [->|N].
      + cbn [andb]. change (String.eqb "grad" "grad") with true. cbn beta iota. destruct (in_dec string_dec m (m :: ms)) as [_|Q]; [|elim Q; left; reflexivity]. destruct (in_dec string_dec m ms); [contradiction|reflexivity].
      + cbn [andb]. destruct (in_dec string_dec m ms) as [J|J]; destruct (in_dec string_dec m (a :: ms)) as [J2|J2]; try reflexivity; [elim J2; right; exact J|destruct J2; contradiction].
  Qed.
  Lemma gcalls_for b off ps ms st m : NoDup (concat (map stat_of ps)) -> NoDup ms ->
    calls_for st m "grad" (gcalls b off ps ms : list (@call F)) =
    if in_dec (fun a b : stat => ltac:(decide equality)) st (concat (map stat_of ps)) then (if in_dec string_dec m ms then [Call st b None m "grad" None off] else []) else [].
  Proof.
    intros HN HM. unfold gcalls. induction (concat (map stat_of ps)) as [|a l IH]; [reflexivity|]. inversion HN as [|? ? N1 N2]; subst. cbn [map concat]. rewrite calls_for_app, (IH N2).
    destruct (gcalls_kind b off a ms m _ HM eq_refl) as [K1 K2]. destruct (in_dec _ st (a :: l)) as [J|J].
    - destruct J as [<-|J].
      + rewrite K2. destruct (in_dec _ a l); [contradiction|]. apply app_nil_r.
      + rewrite K1 by congruence. destruct (in_dec _ st l); [reflexivity|contradiction].
    - rewrite K1 by (intros ->; apply J; left; reflexivity). destruct (in_dec _ st l) as [J2|]; [elim J; right; exact J2|reflexivity].
  Qed.
  Lemma kinds_nodup ps : NoDup ps -> (forall p, In p ps -> p = PMean \/ p = PCovariance) -> NoDup (concat (map stat_of ps)).
  Proof.
    induction ps as [|p ps IH]; intros N Hp; [constructor|]. inversion N as [|? ? N1 N2]; subst. specialize (IH N2 (fun q Hq => Hp q (or_intror Hq))).
    assert (K : forall q, (q = PMean \/ q = PCovariance) -> ~ In q ps -> stat_of q = [match q with PMean => SMean | _ => SCov end] /\ ~ In (match q with PMean => SMean | _ => SCov end) (concat (map stat_of ps))).
    { intros q Hq Nq. split; [destruct Hq as [-> | ->]; reflexivity|]. intros J. apply in_concat in J as (l & Hl & J). apply in_map_iff in Hl as (q' & <- & Hl). destruct (Hp q' (or_intror Hl)) as [-> | ->]; destruct Hq as [-> | ->]; cbn in J; destruct J as [J|[]]; try discriminate J; contradiction. }
    destruct (K p (Hp p (or_introl eq_refl)) N1) as [K1 K2]. cbn [map concat]. rewrite K1. constructor; assumption.
  Qed.

  (** the calls for one key *)
  Definition gcall st m off (p : option (tensor) * tlog) : list (@call F) :=
    if in_dec string_dec m (dkeys (snd p)) then [Call st (BInfo (fst p) (log_nd (snd p))) None m "grad" None off] else [].
  Lemma lcalls_other mods names o off st m t : t <> "grad"%string -> forall bs Ls h, length Ls = length bs ->
    calls_for st m t (lcalls mods names o off h bs Ls) = calls_for st m t (epoch_calls kind mods names o off h bs).
  Proof.
    intros Ht. induction bs as [|b bs IH]; intros [|L Ls] h HL; try discriminate HL; [reflexivity|]. cbn [WholeProofs1.lcalls epoch_calls]. rewrite !calls_for_app, IH by (cbn in HL; lia).
    rewrite (calls_for_none st m t (gcalls _ _ _ _)); [rewrite app_nil_r; reflexivity|]. intros c Hc. apply gcalls_typ in Hc. congruence.
  Qed.
  Lemma lcalls_grad mods names o off st m : all_moments o -> forall bs Ls h, length Ls = length bs -> Forall (fun L : tlog => NoDup (dkeys L)) Ls ->
    (In st (grad_kinds o) -> calls_for st m "grad" (lcalls mods names o off h bs Ls) = concat (map (gcall st m off) (List.combine (map (fun b => option_map snd (bt_mask b)) bs) Ls))) /\
    (~ In st (grad_kinds o) -> calls_for st m "grad" (lcalls mods names o off h bs Ls) = []).
  Proof.
    intros (_ & N & Hp). induction bs as [|b bs IH]; intros [|L Ls] h HL HN; try discriminate HL; [split; reflexivity|]. apply Forall_cons_iff in HN as [HN0 HN].
    destruct (IH Ls (heap_after h (bt_evs b)) ltac:(cbn in HL; lia) HN) as [I1 I2]. cbn [WholeProofs1.lcalls]. rewrite !calls_for_app.
    rewrite (calls_for_none st m "grad" (stat_calls _ _ _ _ _ _ _ _ _)) by (intros c Hc; exact (stat_typ _ _ _ _ _ _ _ _ _ Hc)). cbn [app].
    rewrite gcalls_for by (try assumption; apply kinds_nodup; assumption). fold (grad_kinds o). split; intros J.
    - rewrite (I1 J). destruct (in_dec _ st (grad_kinds o)) as [_|Q]; [|contradiction]. cbn [map List.combine concat]. unfold gcall at 2. cbn [fst snd]. reflexivity.
    - rewrite (I2 J). destruct (in_dec _ st (grad_kinds o)) as [Q|_]; [contradiction|reflexivity].
  Qed.
  Lemma look_call (L : tlog) m t x : look L m t = Some x -> exists d e, log_nd L = Node d /\ dget m d = Some (Node e) /\ dget t e = Some (Leaf (VT x)).
  Proof.
    unfold look, log_nd. intros E. eexists. enough (K : exists e, dget m (map (fun p : string * dict string dten => (fst p, Node (map (fun q => (fst q, Leaf (VT (snd q)))) (snd p)))) L) = Some (Node e) /\ dget t e = Some (Leaf (VT x))).
    { destruct K as (e & K). exists e. split; [reflexivity|exact K]. }
    induction L as [|[k d] L IH]; [discriminate E|]. cbn [map dget fst snd] in *. destruct (eqb_spec m k) as [->|N].
    - eexists. split; [reflexivity|]. clear -E. induction d as [|[k' v] d IH]; [discriminate E|]. cbn [map dget fst snd] in *. destruct (eqb_spec t k') as [->|N]; [injection E as ->; reflexivity|exact (IH E)].
    - exact (IH E).
  Qed.
  Lemma gcall_facts st m off (p : option tensor * tlog) d t : grad_of (snd p) m = Some (d, t) -> In m (dkeys (snd p)) ->
    let c := Call st (BInfo (fst p) (log_nd (snd p))) None m "grad" None off in
    gcall st m off p = [c] /\ call_tensor c = Some t /\ call_rows c = map (@Tensor.data F) (samples t) /\ call_count c = fnat (length (samples t)).
  Proof.
    intros G J c. unfold gcall. destruct (in_dec string_dec m (dkeys (snd p))) as [_|Q]; [|contradiction]. split; [reflexivity|].
    assert (K : call_tensor c = Some t).
    { unfold call_tensor, c. cbn [k_data k_b b_log k_m k_t]. destruct (look_call _ _ _ _ G) as (d0 & e & -> & -> & ->). reflexivity. }
    split; [exact K|]. unfold call_rows, call_count, call_samples. rewrite K. unfold c. cbn [k_mod k_t k_b b_mask sample_rows]. split.
    - clear. induction (samples t) as [|s l IH]; [reflexivity|]. cbn [map concat app]. rewrite IH. reflexivity.
    - destruct (fst p); reflexivity.
  Qed.
  Lemma grad_of_in (L : tlog) m x : grad_of L m = Some x -> In m (dkeys L).
  Proof. unfold grad_of, look. destruct (dget m L) as [e|] eqn:E; [|discriminate]. intros _. apply dget_In_keys. exists e. exact E. Qed.
  Lemma gcalls_facts st m off : forall (ps : list (option tensor * tlog)), Forall (fun p => good_grads (snd p)) ps ->
    let cs := concat (map (gcall st m off) ps) in
    (cs = [] <-> grads m (map snd ps) = []) /\ all_rows cs = grad_rows (grads m (map snd ps)) /\ all_count cs = fnat (length (grad_rows (grads m (map snd ps)))) /\ Forall call_ok cs.
  Proof.
    induction ps as [|p ps IH]; intros HG cs; [repeat split; constructor|]. apply Forall_cons_iff in HG as [HG0 HG]. destruct (IH HG) as (I1 & I2 & I3 & I4). subst cs. cbn [map concat]. unfold grads in *. cbn [map concat].
    destruct (grad_of (snd p) m) as [[d t]|] eqn:G.
    - pose proof (grad_of_in _ _ _ G) as J. destruct (gcall_facts st m off p d t G J) as (K1 & K2 & K3 & K4). rewrite K1. split; [split; discriminate|].
      unfold all_rows, all_count, grad_rows in *. cbn [map concat app lsum fold_right snd]. rewrite K3, K4, I2. split; [reflexivity|]. split.
      + rewrite app_length, map_length, fnat_add. f_equal. exact I3.
      + constructor; [|exact I4]. destruct (HG0 m J) as (d' & t' & G' & W & S). rewrite G in G'. injection G' as <- <-. exists t. split; [exact K2|]. split; [exact W|]. split; [exact S|exact Logic.I].
    - assert (E : gcall st m off p = []).
      { unfold gcall. destruct (in_dec string_dec m (dkeys (snd p))) as [J|_]; [|reflexivity]. destruct (HG0 m J) as (d' & t' & G' & _). congruence. }
      rewrite E. cbn [app]. exact (conj I1 (conj I2 (conj I3 I4))).
  Qed.
  Lemma gcalls_ok b off ps (L : tlog) : good_grads L -> Forall call_ok (gcalls (BInfo b (log_nd L)) off ps (dkeys L) : list (@call F)).
  Proof.
    intros HG. apply Forall_forall. intros c Hc. unfold gcalls in Hc. apply in_concat in Hc as (l & Hl & Hc). apply in_map_iff in Hl as (st & <- & _). apply in_map_iff in Hc as (m & <- & Hm).
    destruct (HG m Hm) as (d & t & G & W & S). destruct (gcall_facts st m off (b, L) d t G Hm) as (_ & K2 & _). exists t. split; [exact K2|]. split; [exact W|]. split; [exact S|exact Logic.I].
  Qed.
  Lemma lcalls_ok mods names o off : forall bs Ls h, length Ls = length bs -> Forall good_grads Ls -> Forall call_ok (epoch_calls kind mods names o off h bs) -> Forall call_ok (lcalls mods names o off h bs Ls).
  Proof.
    induction bs as [|b bs IH]; intros [|L Ls] h HL HG HC; try discriminate HL; [constructor|]. apply Forall_cons_iff in HG as [HG0 HG]. cbn [epoch_calls] in HC. apply Forall_app in HC as [HC0 HC]. cbn [WholeProofs1.lcalls].
    apply Forall_app. split; [|apply IH; [cbn in HL; lia|exact HG|exact HC]]. apply Forall_app. split; [exact HC0|]. apply gcalls_ok. exact HG0.
  Qed.
  Lemma combine_snd {A B} : forall (l : list A) (l' : list B), length l' = length l -> map snd (List.combine l l') = l'.
  Proof. induction l as [|a l IH]; intros [|b l'] E; try discriminate E; [reflexivity|]. cbn [List.combine map snd]. f_equal. apply IH. cbn in E. lia. Qed.

  Definition finalized (x : lx) (Ls : list tlog) (cs : list (@call F)) (s' : lstate) : Prop :=
    (forall st m, (In st (grad_kinds (x_opt x)) -> grads m Ls <> [] -> stored s' st m "grad" = Some (moment st (width (grad_rows (grads m Ls))) (grad_rows (grads m Ls)) (fnat (length (grad_rows (grads m Ls)))))) /\
                  (~ In st (grad_kinds (x_opt x)) \/ grads m Ls = [] -> stored s' st m "grad" = None)) /\
    (forall st m t, t <> "grad"%string -> let ccs := calls_for st m t cs in
       (ccs = [] -> stored s' st m t = None) /\
       (ccs <> [] -> stored s' st m t = Some (moment st (width (all_rows ccs)) (all_rows ccs) (all_count ccs)))).
  Lemma logged_finalize dk bs Ls (x x' : lx) : logged_epoch bs Ls x x' -> reachable x -> pristine (x_state x) -> all_moments (x_opt x) -> Forall (fun b => own_backward [] (bt_evs b)) bs -> Forall good_grads Ls ->
    let cs := epoch_calls kind (x_mods x) (x_names x) (x_opt x) (x_offload x) (x_heap x) bs in
    Forall call_ok cs -> exists s' dk', finalize dk (x_state x') = (s', Ok dk') /\ finalized x Ls cs s'.
  Proof.
    intros HE HR HP HM HW HG cs HO. destruct (logged_run _ _ _ _ _ _ _ _ HE HR HM HW) as (HC & _ & HL & HN). set (lc := lcalls _ _ _ _ _ bs Ls) in *.
    assert (HO2 : Forall call_ok lc) by (apply lcalls_ok; assumption).
    destruct (finalize_pristine dk lc _ _ HP HC HO2) as (s' & dk' & Ef & HS). exists s', dk'. split; [exact Ef|]. split.
    - intros st m. destruct (lcalls_grad (x_mods x) (x_names x) (x_opt x) (x_offload x) st m HM bs Ls (x_heap x) HL HN) as [K1 K2]. fold lc in K1, K2. destruct (HS st m "grad"%string) as [H1 H2]. cbv zeta in *.
      assert (HGp : Forall (fun p : option tensor * tlog => good_grads (snd p)) (List.combine (map (fun b => option_map snd (bt_mask b)) bs) Ls)).
      { apply Forall_forall. intros [a L] J. apply in_combine_r in J. cbn [snd]. rewrite Forall_forall in HG. exact (HG L J). }
      destruct (gcalls_facts st m (x_offload x) _ HGp) as (J1 & J2 & J3 & _). rewrite combine_snd in J1, J2, J3 by (rewrite map_length; exact HL). split.
      + intros Hi Hn. rewrite (K1 Hi) in H2. destruct H2 as (_ & _ & H2); [intros Q; apply Hn, J1, Q|]. rewrite H2, J2, J3. reflexivity.
      + intros Hi. apply H1. destruct (in_dec (fun a b : stat => ltac:(decide equality)) st (grad_kinds (x_opt x))) as [I0|I0]; [|exact (K2 I0)]. destruct Hi as [Hi|Hi]; [contradiction|]. rewrite (K1 I0). apply J1. exact Hi.
    - intros st m t Ht ccs. destruct (HS st m t) as [H1 H2]. cbv zeta in *. unfold lc in H1, H2. rewrite (lcalls_other _ _ _ _ st m t Ht bs Ls (x_heap x) HL) in H1, H2. fold cs in H1, H2. fold ccs in H1, H2.
      split; [exact H1|]. intros Hn. apply H2. exact Hn.
  Qed.
  Lemma gradient_statistics bs Ls (x x' : lx) : logged_epoch bs Ls x x' -> reachable x -> pristine (x_state x) -> all_moments (x_opt x) -> Forall (fun b => own_backward [] (bt_evs b)) bs -> Forall good_grads Ls ->
    let cs := epoch_calls kind (x_mods x) (x_names x) (x_opt x) (x_offload x) (x_heap x) bs in
    Forall call_ok cs -> finalized x Ls cs (x_state (fst (lx_finalize x'))).
  Proof.
    intros HE HR HP HM HW HG cs HO. destruct (logged_finalize (x_disk x') _ _ _ _ HE HR HP HM HW HG HO) as (s' & dk' & Ef & HF).
    assert (Es : x_state (fst (lx_finalize x')) = s'). { unfold lx_finalize, sbind. rewrite Ef. destruct (saver_finalize _ _) as [[d' sv] o']. reflexivity. }
    rewrite Es. exact HF.
  Qed.
End P.
