(** A newly created Hugging Face trainer in a directory with the files of an earlier process. *)
From Coq Require Import ZArith.
From Verif Require Import Py PyStr Field Tensor ModelGrad Monad ModelState ModelMmap ModelSaver ModelLoader ModelLogger ModelModules ModelLora ModelScheduler ModelInfluence ModelUtils ModelTrainer SpecLora SpecWatch SpecScheduler SpecState SpecStore SpecLogger SpecNew SpecWhole SpecInfluence SpecTrainer
  StateProofs6 LogProofs1 LogProofs9 SchedProofs SchedProofs2 WatchProofs3 LoraProofs2 LoraProofs5 LoraProofs7 LoraProofs8 LoraProofs9 LoraProofs11 LoraProofs16 LoraProofs17 LoraProofs18 LoraProofs19 NewProofs BornProofs SpecReopen.
Local Open Scope string_scope.
Local Open Scope list_scope.
Local Open Scope nat_scope.

Section P.
  Context {F : Type} `{OField F}.
  Notation lm := (@lm F).
  Notation lx := (@lx F).
  Notation lstate := (@lstate F).
  Notation tr := (@tr F).
  Context (rnd : mid -> list nat -> F) (svd : tensor F -> res (tensor F)) (kind : mid -> mkind) (eigh : tensor F -> res (tensor F * tensor F)) (enc : @dten F -> array).
  Notation reachable w := (reachable kind w eigh enc).

  Lemma watch_disk wsize ms (x x' : lx) : watch wsize ms x = (x', Ok tt) -> x_disk x' = x_disk x.
  Proof.
    intros E. unfold watch in E. rewrite (sbind_run _ _ _ _ _ (add_modules_run ms x)) in E. set (y := with_mods x _ _) in *. rewrite (sbind_run _ _ y y y) in E by reflexivity. cbv zeta in E.
    destruct (map (fun p : mid * string => wsize (fst p)) (x_names y)) as [|d ds]; [discriminate E|]. apply sbind_ok in E as (z & [] & E1 & E2).
    match type of E1 with (let (_, _) := ?m (x_state y) in _) = _ => destruct (m (x_state y)) as [s' o] end. injection E1 as <- ->. cbn [x_shared with_state] in E2. destruct (x_shared y); injection E2 as <-; reflexivity.
  Qed.
  Lemma init_pristine : pristine (@state_init F).
  Proof. split; [reflexivity|]. split; [reflexivity|]. intros []; split; vm_compute; reflexivity. Qed.
  Lemma new_reopened a hessian (p : tr) (s : lm) root (r : tr) : new_object_in p s -> ha_lora a = false -> new_trainer rnd svd a hessian "grad" s root = (r, Ok tt) -> reopened p r.
  Proof.
    intros (C1 & C2 & w & t & off & X) L E. destruct (new_sched "none" hessian "grad") as [c|e] eqn:Ec; [|unfold new_trainer in E; rewrite Ec in E; discriminate E].
    rewrite (new_trainer_run rnd svd a hessian "grad" s root c Ec), L in E. destruct (lm_watch root (Some (ha_tf a)) (Some (ha_nf a)) s) as [s1 [[]|e]] eqn:W; [|discriminate E]. injection E as <-.
    assert (K : lm_conf s1 = lm_conf s /\ lm_file s1 = lm_file s). { unfold lm_watch, on_x in W. match type of W with (let (_, _) := ?z in _) = _ => destruct z as [x' o] end. injection W as <- _. split; reflexivity. } destruct K as [K1 K2].
    apply lm_watch_x in W. destruct (watch_parts _ _ _ _ W) as (_ & Dx & _ & _). pose proof (watch_disk _ _ _ _ W) as Dd.
    assert (P0 : pristine (x_state (lm_x s))) by (rewrite X; exact init_pristine).
    assert (P : pristine (x_state (lm_x s1))) by (apply (pristine_watch kind eigh enc _ _ _ _ _ P0 W)).
    unfold reopened. change (tr_lm (fresh_of c s1)) with s1. split; [congruence|]. split; [congruence|]. split; [repeat split; reflexivity|]. cbv zeta. rewrite Dx, Dd, X. split; [reflexivity|]. split; [reflexivity|exact P].
  Qed.
End P.
