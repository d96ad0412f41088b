(** From the constructor of a trainer to its scores. *)
From Coq Require Import ZArith.
From Verif Require Import Py PyStr Field Tensor ModelGrad Monad ModelState ModelMmap ModelSaver ModelLoader ModelLogger ModelModules ModelLora ModelScheduler ModelInfluence ModelUtils ModelTrainer SpecGrad SpecLora SpecScheduler SpecState SpecStore SpecLogger SpecInfluence SpecRows SpecTrainer SpecDisk SpecWhole WholeProofs6 BornProofs.
Local Open Scope string_scope.
Local Open Scope list_scope.
Local Open Scope nat_scope.

Section P.
  Context {F : Type} `{OField F}.
  Context (rnd : mid -> list nat -> F) (svd : tensor F -> res (tensor F)) (kind : mid -> mkind) (eigh : tensor F -> res (tensor F * tensor F)) (inverse : tensor F -> res (tensor F)) (fsqrt : F -> F)
    (enc : @dten F -> array) (dec : array -> @dten F) (show : did -> string) (tok : option (data -> res (list string))) (hash : string -> string).
  Lemma good_raw : good "none" "raw" "grad".
  Proof. repeat split; cbn; auto 6. Qed.
  Lemma born_scores a (s : @lm F) root (p : @tr F) w t off steps sids (M : @tlog F) :
    ha_init a = false -> lm_x s = lx_init w t off -> (w <= 1)%Z -> tree_ok root (lm_next s) -> (ha_lora a = true -> t_kids root <> []) -> new_trainer rnd svd a "raw" "grad" s root = (p, Ok tt) ->
    let ms := map snd (x_names (lm_x (tr_lm p))) in
    training rnd svd kind eigh enc dec show tok hash ms a p steps sids M -> matrices ms M ->
    exists p', extract_log rnd svd kind eigh inverse fsqrt enc dec show tok hash a [steps] p = (p', Ok tt) /\
      forall epochs qids (Q : @tlog F) d, testing rnd svd kind eigh enc show tok hash a p' epochs qids Q ->
      ha_imode a = "dot" -> ha_damping a = Some d -> fle f0 d -> d <> f0 -> inverse_contract inverse -> (forall m x, grad_of M m = Some x -> inverts inverse (prod (tl (shape (snd x))))) ->
      groups_ok (ha_groups a) -> groups_hit (ha_groups a) (dkeys Q) -> Q <> [] -> plain_log Cpu (length qids) Q -> within Q M -> (forall m, In m ms -> In m (dkeys Q)) ->
      exists pf o P, influence rnd svd kind eigh inverse fsqrt enc dec show tok hash a epochs p' = (pf, Ok (Some o)) /\ tr_scores pf = Some o /\
        saved (tr_ifn pf) (InfRes qids sids (final (fun l => score_matrix P M l (length qids) (length sids)) (ha_groups a) (dkeys Q))) /\
        dkeys P = dkeys Q /\
        (forall m g, grad_of Q m = Some (Cpu, g) -> exists q, grad_of P m = Some (Cpu, q) /\ raw_solution d (second_moment M m) q g).
  Proof.
    intros Ni X0 Hw OK Kr E ms T MM. destruct (new_trainer_born rnd svd kind eigh enc a "raw" s root p w t off good_raw Ni X0 Hw OK Kr E) as (_ & NR & NO). fold ms in NR.
    destruct (extract_raw rnd svd kind _ eigh inverse fsqrt enc dec show tok hash ms a p steps sids M NR T) as (p' & C & Ep & _). exists p'. split; [exact Ep|].
    intros epochs qids Q d TE. exact (influence_raw rnd svd kind _ eigh inverse fsqrt enc dec show tok hash ms a p steps sids M p' epochs qids Q d NR T NO MM Ep TE).
  Qed.
End P.
