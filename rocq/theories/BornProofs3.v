(** From the constructor of a Lightning module to the scores of its trainer. *)
From Coq Require Import ZArith.
From Verif Require Import Py PyStr Field Tensor ModelGrad Monad ModelState ModelMmap ModelSaver ModelLoader ModelLogger ModelModules ModelLora ModelScheduler ModelInfluence ModelUtils ModelTrainer ModelLightning SpecGrad SpecLora SpecScheduler SpecState SpecStore SpecLogger SpecInfluence SpecRows SpecTrainer SpecLightning SpecDisk SpecNew SpecWhole SpecLightWhole SchedProofs NewProofs NewProofs2 BornProofs BornProofs2 LightWhole2.
Local Open Scope string_scope.
Local Open Scope list_scope.
Local Open Scope nat_scope.

Section P.
  Context {F : Type} `{OField F}.
  Context (rnd : mid -> list nat -> F) (svd : tensor F -> res (tensor F)) (kind : mid -> mkind) (eigh : tensor F -> res (tensor F * tensor F)) (inverse : tensor F -> res (tensor F)) (fsqrt : F -> F)
    (enc : @dten F -> array) (dec : array -> @dten F) (show : did -> string).
  Context {B X : Type} (extract : B -> SM X (list did)) (mask : option (B -> res (option (@dten F)))) (body : B -> list (@ev F)).
  Notation pl := (@pl F X).
  (** the same arguments for a Hugging Face trainer *)
  Definition as_hf (a : @plargs F) : @hfargs F := HA (pa_lora a) false (pa_nf a) (pa_tf a) (pa_bs a) (pa_damping a) (pa_imode a) None "detokenize" 0.
  Lemma module_born a hessian (s : @lm F) (e : X) root (q0 q : pl) w t off : good "none" hessian "grad" -> pa_init a = false -> lm_x s = lx_init w t off -> (w <= 1)%Z ->
    tree_ok root (lm_next s) -> (pa_lora a = true -> t_kids root <> []) -> new_pl hessian "grad" s e = Ok q0 -> new_module rnd svd a root q0 = (q, Ok tt) ->
    let ms := map snd (x_names (lm_x (tr_lm (pl_t q)))) in ms <> [] /\ new_light kind (wsize_of (tr_lm (pl_t q))) eigh enc hessian ms q /\ no_results (pl_t q) /\ pl_epoch q = 0 /\ pl_ext q = e.
  Proof.
    intros G Ni X0 Hw OK Kr E0 E. destruct (pl_new hessian "grad" s e G) as (c & Ec & E0' & _). rewrite E0 in E0'. injection E0' as ->.
    rewrite module_run, Ni in E. unfold prepare in E. change (pl_lm _) with s in E.
    destruct ((lm_watch root (Some (pa_tf a)) (Some (pa_nf a)) ;; (if pa_lora a then lm_add_lora rnd svd true true None None None None else sret tt)) s) as [s1 o] eqn:Es. destruct o as [[]|er]; [|discriminate E]. injection E as <-.
    assert (Eh : new_trainer rnd svd (as_hf a) hessian "grad" s root = (fresh_of c s1, Ok tt)).
    { rewrite (new_trainer_run rnd svd (as_hf a) hessian "grad" s root c Ec). cbn [as_hf ha_tf ha_nf ha_lora]. unfold sbind in Es. destruct (lm_watch root (Some (pa_tf a)) (Some (pa_nf a)) s) as [s2 [[]|e2]]; [|discriminate Es].
      destruct (pa_lora a); [rewrite Es; reflexivity|]. injection Es as <-. reflexivity. }
    destruct (new_trainer_born rnd svd kind eigh enc (as_hf a) hessian s root (fresh_of c s1) w t off G eq_refl X0 Hw OK Kr Eh) as (N1 & (N2 & _ & N3) & N4).
    cbv zeta. change (tr_lm (pl_t (pl_put _ s1))) with s1. change (tr_lm (fresh_of c s1)) with s1 in *. split; [exact N1|]. split; [split; [exact N2|exact N3]|]. split; [repeat split|]. split; reflexivity.
  Qed.
  Lemma module_scores a (s : @lm F) (e : X) root (q0 q : pl) w t off bs es sids (M : @tlog F) :
    pa_init a = false -> lm_x s = lx_init w t off -> (w <= 1)%Z -> tree_ok root (lm_next s) -> (pa_lora a = true -> t_kids root <> []) -> new_pl "raw" "grad" s e = Ok q0 -> new_module rnd svd a root q0 = (q, Ok tt) ->
    let ms := map snd (x_names (lm_x (tr_lm (pl_t q)))) in
    light_training rnd svd kind eigh enc dec show extract mask body ms a q bs sids M -> matrices ms M ->
    exists q', pl_extract rnd svd kind eigh inverse fsqrt enc dec show extract mask body a (bs :: es) q = (q', Ok tt) /\
      forall bs2 es2 qids (Q : @tlog F) d, light_testing kind eigh enc show extract mask body q' bs2 qids Q ->
      pa_imode a = "dot" -> pa_damping a = Some d -> fle f0 d -> d <> f0 -> inverse_contract inverse -> (forall m x, grad_of M m = Some x -> inverts inverse (prod (tl (shape (snd x))))) ->
      Q <> [] -> plain_log Cpu (length qids) Q -> within Q M -> (forall m, In m ms -> In m (dkeys Q)) ->
      exists qf o P, pl_influence rnd svd kind eigh inverse fsqrt enc dec show extract mask body a (bs2 :: es2) q' = (qf, Ok (Some o)) /\ tr_scores (pl_t qf) = Some o /\
        saved (tr_ifn (pl_t qf)) (InfRes qids sids (final (fun l => score_matrix P M l (length qids) (length sids)) None (dkeys Q))) /\
        dkeys P = dkeys Q /\
        (forall m g, grad_of Q m = Some (Cpu, g) -> exists v, grad_of P m = Some (Cpu, v) /\ raw_solution d (second_moment M m) v g).
  Proof.
    intros Ni X0 Hw OK Kr E0 E ms T MM. destruct (module_born a "raw" s e root q0 q w t off good_raw Ni X0 Hw OK Kr E0 E) as (_ & NR & (NS & _ & NB & _) & _). fold ms in NR.
    destruct (light_raw rnd svd kind _ eigh inverse fsqrt enc dec show extract mask body ms a q bs es sids M NR T) as (q' & C & Ep & _). exists q'. split; [exact Ep|].
    intros bs2 es2 qids Q d TE. exact (light_influence_raw rnd svd kind _ eigh inverse fsqrt enc dec show extract mask body ms a q bs es sids M q' bs2 es2 qids Q d NR T NS NB MM Ep TE).
  Qed.
End P.
