(** What the hooks accept (C27, C89). *)
From Coq Require Import ZArith Permutation.
From Verif Require Import BcastProofs GradProofs3 Py Field Tensor ModelGrad Monad ModelState ModelMmap ModelSaver ModelLogger SpecGrad SpecState SpecLogger SpecHook LogProofs1 LogProofs2 LogProofs3 LogProofs4 LogProofs5 LogProofs6 LogProofs8 LogProofs10.
Local Open Scope nat_scope.

Section P.
  Context {F : Type} `{OField F}.
  Add Field hookfield : f_theory.
  Notation tensor := (tensor F).
  Notation dten := (@dten F).
  Notation uten := (@uten F).
  Notation lx := (@lx F).
  Notation ev := (@ev F).
  Variable kind : mid -> mkind.
  Variable wsize : mid -> nat.
  Variable eigh : tensor -> res (tensor * tensor).
  Variable enc : dten -> array.
  Notation run_ev := (run_ev kind eigh).
  Notation run_evs := (run_evs kind eigh).
  Notation reachable := (reachable kind wsize eigh enc).

  (** ---- masks ---- *)
  Lemma bmul_multiplied (a m : dten) : length (shape (snd a)) = length (shape (snd m)) ->
    multiplied a m (let* r := bmul a m in Ok (Some r)).
  Proof.
    intros L. unfold bmul. destruct (dev_eqb (fst a) (fst m)) eqn:Ed.
    2:{ cbn. split; [reflexivity|]. left. intros E. rewrite E in Ed. destruct (fst m); discriminate Ed. }
    assert (Ed' : fst a = fst m) by (destruct (fst a), (fst m); congruence || discriminate Ed). clear Ed.
    assert (EB : bshape (shape (snd a)) (shape (snd m)) = bcast (shape (snd a)) (shape (snd m))).
    { unfold bcast, pad_left. rewrite L, Nat.sub_diag. reflexivity. }
    rewrite EB. pose proof (bcast_spec (shape (snd a)) (shape (snd m))) as HB. destruct (bcast _ _) as [sh|e]; cbn [bind multiplied].
    - destruct HB as (NI & Hb). cbn [fst snd]. split; [exact Ed'|]. split; [exact NI|]. split; [reflexivity|]. split; [exact Hb|].
      intros idx V. assert (Li : length idx = length sh) by exact (proj1 (proj1 (valid_nth _ _) V)). rewrite tget_tgen by exact V.
      destruct Hb as (Ll & _).
      assert (Hc : forall q, length q = length sh -> bclip q idx = entry_at q idx).
      { intros q Lq. pose proof (bclip_entry q idx idx eq_refl ltac:(lia)) as HE. replace (length idx - length q) with 0 in HE by lia. exact HE. }
      rewrite !Hc by lia. reflexivity.
    - destruct HB as (-> & HI). split; [reflexivity|]. right. exact HI.
  Qed.
  Lemma mask_positions_general (mask act : dten) sh p sh' d : shape (snd mask) = sh ++ [p] -> shape (snd act) = sh' ++ [p; d] -> length sh = length sh' ->
    multiplied act (per_position mask) (apply_mask mask act).
  Proof.
    intros Em Ea El. unfold apply_mask. rewrite Em, Ea, !app_length. cbn [length].
    replace (length sh + 1 =? length sh' + 2) with false by (symmetry; apply Nat.eqb_neq; lia). cbn [negb].
    replace (S (length sh + 1) =? length sh' + 2) with true by (symmetry; apply Nat.eqb_eq; lia).
    rewrite (size_m1_last _ _ _ Em), (size_m2_last _ _ _ _ Ea). cbn [bind]. rewrite Nat.eqb_refl.
    change (unsqueeze_last mask) with (per_position mask). apply bmul_multiplied. unfold per_position. cbn [snd shape]. rewrite Em, Ea, !app_length. cbn [length]. lia.
  Qed.
  Lemma mask_features_general (mask act : dten) sh n sh' : shape (snd mask) = sh ++ [n] -> shape (snd act) = sh' ++ [n] -> length sh = length sh' ->
    multiplied act mask (apply_mask mask act).
  Proof.
    intros Em Ea El. unfold apply_mask. rewrite Em, Ea, !app_length, El, Nat.eqb_refl. cbn [negb].
    rewrite (size_m1_last _ _ _ Em), (size_m1_last _ _ _ Ea). cbn [bind]. rewrite Nat.eqb_refl. apply bmul_multiplied. rewrite Em, Ea, !app_length, El. reflexivity.
  Qed.
  Lemma mask_scalar (mask act : dten) : shape (snd mask) = [] -> length (shape (snd act)) <= 1 -> apply_mask mask act = Err IndexError.
  Proof.
    intros Em La. unfold apply_mask, size_m1. rewrite Em. cbn [length rev bind].
    destruct (shape (snd act)) as [|n [|]]; cbn [length] in *; [reflexivity|reflexivity|lia].
  Qed.

  (** ---- one gradient ---- *)
  Lemma iadd_cases (a b : dten) :
    match iadd_ a b with
    | Ok c => fst a = fst b /\ fits (shape (snd b)) (shape (snd a))
    | Err e => e = RuntimeError /\ (fst a <> fst b \/ ~ fits (shape (snd b)) (shape (snd a)))
    end.
  Proof.
    unfold iadd_. destruct (dev_eqb (fst a) (fst b)) eqn:Ed.
    2:{ split; [reflexivity|]. left. intros E. rewrite E in Ed. destruct (fst b); discriminate Ed. }
    assert (Ed' : fst a = fst b) by (destruct (fst a), (fst b); congruence || discriminate Ed). clear Ed.
    destruct (same_shape _ _) eqn:ES.
    - unfold tadd, tzip. rewrite ES. apply same_shape_true in ES. cbn [bind]. split; [exact Ed'|]. rewrite ES. apply fits_refl.
    - unfold add_wide. pose proof (bcast_fits (shape (snd a)) (shape (snd b))) as HB.
      destruct (bcast _ _) as [sh|e]; cbn [bind].
      + destruct (same_shape sh (shape (snd a))) eqn:E2; cbn [bind].
        * apply same_shape_true in E2. split; [exact Ed'|]. apply HB. exact E2.
        * split; [reflexivity|]. right. intros Hf. apply HB in Hf. subst sh. rewrite same_shape_refl in E2. discriminate E2.
      + destruct HB as (-> & NF). split; [reflexivity|]. right. exact NF.
  Qed.
  Lemma one_gradient ids mask es t m i g rest (x x1 x2 : lx) : reachable x -> begins ids mask x x1 -> run_evs es x1 = (x2, Ok tt) ->
    o_grad (x_opt x) = PLog :: rest -> filter (fun p => t =? fst p) (outputs es) = [(t, (m, i))] -> times m (x_mods x) = 1 ->
    let n := name_of (x_names x) m in let a := mem_get (x_heap x2) i in let b := mem_get (x_heap x2) g in
    let psg := compute_per_sample_gradient (snd a) (snd b) (kind m) in
    match run_ev (MGrad t g) x2 with
    | (x3, Ok _) => fst a = fst b /\ exists G, psg = Ok G /\
        match entry x2 n "grad" with
        | None => entry x3 n "grad" = Some (fst a, G)
        | Some L => fst L = fst a /\ fits (shape G) (shape (snd L))
        end
    | (x3, Err e) => x3 = x2 /\
        (fst a <> fst b /\ e = RuntimeError \/ fst a = fst b /\ psg = Err e \/
         fst a = fst b /\ e = RuntimeError /\ exists G L, psg = Ok G /\ entry x2 n "grad" = Some L /\ (fst L <> fst a \/ ~ fits (shape G) (shape (snd L))))
    end.
  Proof.
    intros HR HB E Hg Ho Ht n a b psg. destruct (batch_reg kind wsize eigh enc _ _ _ _ _ _ HR HB E) as [Er Eo].
    cbn [ModelLogger.run_ev]. rewrite (sbind_run sget _ _ _ _ eq_refl). rewrite Er. unfold installed. rewrite on_tensor_inst, Ho.
    unfold grad_hooks. cbn [map concat fst snd]. rewrite Ht. cbn [repeat app seach]. fold n.
    unfold sbind. unfold grad_tensor_hook at 1. rewrite Eo, Hg. cbn [plugin_eqb]. change (u_d (uget (x_heap x2) i)) with a. change (u_d (uget (x_heap x2) g)) with b.
    destruct (dev_eqb (fst a) (fst b)) eqn:Ed.
    2:{ cbn. split; [reflexivity|]. left. split; [|reflexivity]. intros E0. rewrite E0 in Ed. destruct (fst b); discriminate Ed. }
    assert (Ed' : fst a = fst b) by (destruct (fst a), (fst b); congruence || discriminate Ed). clear Ed. fold psg.
    destruct psg as [G|e] eqn:Ep.
    2:{ cbn. split; [reflexivity|]. right. left. split; [exact Ed'|reflexivity]. }
    cbn [lift sret sbind firstn]. unfold sbind, lift. cbn [seach]. unfold sbind. cbn [ModelLogger.run_plugin]. unfold log_put, entry.
    destruct (dget n (x_log x2)) as [l|] eqn:En.
    - destruct (dget "grad"%string l) as [old|] eqn:Eg.
      + cbn [deref u_d]. pose proof (iadd_cases (u_d (deref (x_heap x2) old)) (fst a, G)) as HI. destruct (iadd_ _ _) as [c|e].
        * destruct HI as (H1 & H2). destruct old; cbn [sret]; (split; [exact Ed'|]; exists G; split; [reflexivity|]; split; assumption).
        * destruct HI as (-> & HI). split; [reflexivity|]. right. right. split; [exact Ed'|]. split; [reflexivity|].
          eexists _, _. split; [reflexivity|]. split; [reflexivity|]. exact HI.
      + cbn [sret]. split; [exact Ed'|]. exists G. split; [reflexivity|]. cbn [x_log x_heap with_log with_batch]. rewrite !dget_dset_eq. reflexivity.
    - cbn [dget sret]. split; [exact Ed'|]. exists G. split; [reflexivity|]. cbn [x_log x_heap with_log with_batch]. rewrite !dget_dset_eq. reflexivity.
  Qed.

  (** ---- leaving a batch without data ids ---- *)
  Lemma exit_without_ids es (x x1 x2 : lx) : reachable x -> x_ids x = None -> skipn 1 (o_grad (x_opt x)) = [] ->
    lx_enter x = (x1, Ok tt) -> run_evs es x1 = (x2, Ok tt) ->
    lx_exit eigh enc x2 = (x2, if x_save_batch x || x_save x then Err TypeError else Ok tt).
  Proof.
    intros HR Hi Hg En E.
    assert (HK : x_ids x2 = None /\ skipn 1 (o_grad (x_opt x2)) = [] /\ x_save_batch x2 = x_save_batch x /\ x_save x2 = x_save x).
    { rewrite lx_enter_run in En by exact (reachable_inv _ _ _ _ _ HR). injection En as <-. apply run_evs_grows in E as (c & s & l & h & hs & ->). cbn. auto. }
    destruct HK as (K1 & K2 & K3 & K4). unfold lx_exit. rewrite (sbind_run sget _ _ _ _ eq_refl). rewrite K3, K4.
    unfold ModelLogger.update. rewrite (sbind_run sget _ _ _ _ eq_refl). rewrite K2. cbn [seach]. rewrite (sbind_run (sret tt) _ _ _ _ eq_refl).
    destruct (x_save_batch x || x_save x); [|reflexivity]. unfold lx_save_log. rewrite K1. reflexivity.
  Qed.
End P.
