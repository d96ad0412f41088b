(** initialize_from_log and finalize: the configuration file. *)
From Verif Require Import Py PyStr Field Tensor ModelGrad Monad ModelState ModelMmap ModelSaver ModelLogger ModelModules ModelLora SpecState SpecLora LogProofs1 LoraProofs1 LoraProofs2 LoraProofs3 LoraProofs4 LoraProofs5 LoraProofs6 LoraProofs7 LoraProofs8 LoraProofs9 LoraProofs10 LoraProofs11 LoraProofs16 LoraProofs17 LoraProofs18.
Local Open Scope nat_scope.

Section P.
  Context {F : Type} `{OField F}.
  Notation lm := (@lm F).
  Notation tensor := (tensor F).
  Context (rnd : mid -> list nat -> F) (svd : tensor -> res tensor).

  (** ---- nothing but finalize writes config.yaml ---- *)
  Definition kc {A} (m : SM lm A) : Prop := forall s, lm_conf (fst (m s)) = lm_conf s.
  Lemma kc_bind {A B} (m : SM lm A) (f : A -> SM lm B) : kc m -> (forall a, kc (f a)) -> kc (sbind m f).
  Proof. intros Hm Hf s. unfold sbind. pose proof (Hm s) as E. destruct (m s) as [s1 [a|e]]; cbn [fst] in *; [rewrite (Hf a s1); exact E|exact E]. Qed.
  Lemma kc_ret {A} (a : A) : kc (sret a).
  Proof. intros s. reflexivity. Qed.
  Lemma kc_fail {A} e : kc (@sfail lm A e).
  Proof. intros s. reflexivity. Qed.
  Lemma kc_get : kc sget.
  Proof. intros s. reflexivity. Qed.
  Lemma kc_lift {A} (r : res A) : kc (lift r).
  Proof. intros s. reflexivity. Qed.
  Lemma kc_x {A} (m : SM (@lx F) A) : kc (on_x m).
  Proof. intros s. unfold on_x. destruct (m (lm_x s)). reflexivity. Qed.
  Lemma kc_layer k w : kc (new_layer rnd k w).
  Proof. intros s. reflexivity. Qed.
  Lemma kc_weight m f : kc (set_weight m f).
  Proof. intros s. unfold set_weight. destruct (dget _ _) as [[v b]|]; [destruct (f v)|]; reflexivity. Qed.
  Ltac kc1 := first [apply kc_ret | apply kc_fail | apply kc_get | apply kc_lift | apply kc_x | apply kc_layer | apply kc_weight | apply kc_bind; [|intros ?]].
  Lemma kc_new_shared r t : kc (new_shared rnd r t).
  Proof. unfold new_shared, linear_layer, conv_layer. destruct (t_kind t); repeat kc1. Qed.
  Lemma kc_new_lora r t sh : kc (new_lora rnd r t sh).
  Proof.
    unfold new_lora, linear_layer, conv_layer, zero_weight. destruct (t_kind t); try kc1.
    all: repeat (first [kc1 | destruct sh]); intros s; reflexivity.
  Qed.
  Lemma kc_pca r t l cov : kc (pca_init svd r t l cov).
  Proof.
    unfold pca_init. destruct l as [? ? ? ? [|[? a] [|? [|[? c] [|? [|? ?]]]]]]; try kc1. destruct (t_kind t); repeat kc1.
  Qed.
  Lemma kc_item c reach i sh : kc (lora_item rnd svd c reach i sh).
  Proof.
    unfold lora_item. apply kc_bind; [destruct (t_kind (i_mod i)); kc1|]. intros _. kc1; [kc1|]. kc1; [destruct (lc_share c && _)%bool; [kc1; [apply kc_new_shared|kc1]|kc1]|]. kc1; [apply kc_new_lora|].
    kc1; [destruct (String.eqb _ _); [kc1; [kc1|]; kc1; [kc1|apply kc_pca]|kc1]|]. destruct reach; [intros s; reflexivity|kc1].
  Qed.
  Lemma kc_loop c tf nf reach l : forall sh, kc (lora_loop rnd svd c tf nf reach l sh).
  Proof. induction l as [|i l IH]; intros sh; cbn [lora_loop]; [kc1|]. destruct (module_check i tf nf false); [kc1; [apply kc_item|apply IH]|apply IH]. Qed.
  Lemma kc_handler tf nf : kc (handler_add_lora rnd svd tf nf).
  Proof.
    intros s. unfold handler_add_lora. destruct (lm_handler s) as [h|]; [|reflexivity]. destruct (dget _ _) as [cs|]; [|reflexivity]. cbv zeta.
    match goal with |- context [lm_set_lora s (lm_cfg s) (Some ?h)] => generalize h; intros h' end. change (lm_conf s) with (lm_conf (lm_set_lora s (lm_cfg s) (Some h'))). set (t := lm_set_lora s (lm_cfg s) (Some h')).
    destruct (lm_root t) as [root|]; [|reflexivity]. destruct (is_nil _); [reflexivity|]. destruct root as [id k cl ps [|kd kids]].
    - destruct (module_check _ _ _ _); [|reflexivity]. apply kc_bind; [apply kc_item|]. intros r. apply kc_bind; [apply kc_loop|]. intros ?. apply kc_ret.
    - apply kc_bind; [apply kc_loop|]. intros ?. apply kc_ret.
  Qed.
  Lemma kc_load file : kc (load_lora file).
  Proof. intros s. unfold load_lora. destruct (lm_root s); [|reflexivity]. cbv zeta. destruct (forallb _ _); reflexivity. Qed.
  Lemma kc_save : kc (@save_lora F).
  Proof. intros s. unfold save_lora. destruct (lm_root s); [|reflexivity]. destruct (mem _ _); [reflexivity|]. cbv zeta. destruct (is_nil _); reflexivity. Qed.
  Lemma kc_watch root tf nf : kc (lm_watch root tf nf).
  Proof. intros s. unfold lm_watch. cbv zeta. unfold on_x. match goal with |- context [watch ?w ?ms ?x] => destruct (watch w ms x) end. reflexivity. Qed.
  Lemma kc_add w c tf nf path cfg : kc (lm_add_lora rnd svd w c tf nf path cfg).
  Proof.
    unfold lm_add_lora. apply kc_bind; [intros s; reflexivity|]. intros _. kc1; [kc1|]. kc1; [apply kc_handler|]. kc1; [destruct path; [kc1; [kc1|apply kc_load]|kc1]|].
    kc1; [apply kc_save|]. kc1; [destruct (c || w)%bool; kc1|]. destruct w; [|kc1]. kc1; [kc1|]. destruct (lm_root _); [apply kc_watch|kc1].
  Qed.
  Lemma kc_from_log path : kc (lora_from_log rnd svd path).
  Proof.
    unfold lora_from_log. kc1; [kc1|]. destruct (stored_lora path a) as [f|], (lm_root a) as [root|]; try apply kc_ret. kc1; [destruct (is_lora root); [kc1|apply kc_add]|]. kc1; [kc1|].
    destruct (stored_lora path _); [|kc1]. kc1; [kc1|apply kc_load].
  Qed.

  (** ---- settings that are not read ---- *)
  Lemma watch_lora root tf nf (s s1 : lm) o c h : lm_watch root tf nf s = (s1, o) -> lm_watch root tf nf (lm_set_lora s c h) = (lm_set_lora s1 c h, o).
  Proof.
    unfold lm_watch. cbv zeta. unfold on_x.
    match goal with |- context [watch ?w ?ms ?x] => destruct (watch w ms x) as [x' r] eqn:E end. intros [= <- <-].
    match goal with |- (let (x, r0) := ?t in _) = _ => replace t with (x', r) by (symmetry; exact E) end. reflexivity.
  Qed.
  Lemma load_cfg file (s : lm) c h : load_lora file (lm_set_lora s c h) = (lm_set_lora (fst (load_lora file s)) c h, snd (load_lora file s)).
  Proof. unfold load_lora. cbn [lm_set_lora lm_root lm_w]. destruct (lm_root s); [|reflexivity]. cbv zeta. destruct (forallb _ _); reflexivity. Qed.
  Lemma from_log_after_cfg (s s1 : lm) root clear tf nf cfg c h : lm_root s = Some root -> t_kids root <> [] -> tree_ok root (lm_next s) -> plain root -> undotted root ->
    (exists i, selected (chosen tf (lm_tf s)) (chosen nf (lm_nf s)) root i) ->
    lm_add_lora rnd svd true clear tf nf None cfg s = (s1, Ok tt) ->
    lora_from_log rnd svd None (lm_set_lora s1 c h) = (lm_set_lora s1 c h, Ok tt).
  Proof.
    intros Er Kr OK PL U EX E. destruct (add_lora_writes rnd svd clear tf nf cfg s s1 root Er Kr OK PL U EX E) as (root1 & file & R1 & OK1 & _ & F1 & L1 & _).
    destruct EX as (i & Hs).
    destruct (add_lora_bottlenecks rnd svd _ _ _ _ _ _ _ Er Kr OK PL E (ex_intro _ i Hs)) as (f2 & Er2 & WR2 & _ & _ & FB).
    destruct (wp_layer _ _ _ _ _ _ _ _ WR2 i Hs) as (b & n & a & c0 & El & _). destruct (FB i b n a c0 Hs El) as (_ & j & kj & Hj & Ej & En).
    rewrite (from_log_loads rnd svd None (lm_set_lora s1 c h) (replace_kids f2 root) file); [rewrite load_cfg, L1; reflexivity|cbn [stored_lora lm_set_lora lm_file]; rewrite F1; reflexivity|exact Er2|].
    exists j. split; [exact Hj|]. rewrite En. apply substring_snoc. exists ""%string, ""%string. reflexivity.
  Qed.

  (** ---- the whole of initialize_from_log ---- *)
  Lemma init_missing path st (s : lm) : lm_conf s = None -> initialize_from_log rnd svd path st s = (s, Err AssertionError).
  Proof. intros E. unfold initialize_from_log. rewrite (sbind_run _ _ s s s) by reflexivity. rewrite E. reflexivity. Qed.
  Lemma init_stored path st (s : lm) c : lm_conf s = Some c ->
    initialize_from_log rnd svd path st s =
      let (s1, o) := lora_from_log rnd svd path (lm_set_lora s c (lm_handler s)) in
      match o with
      | Err e => (s1, Err e)
      | Ok _ => let dk := match st with Some dk => dk | None => x_disk (lm_x s1) end in
                let (t, r) := load_state dk (x_state (lm_x s1)) in
                (lm_set_x s1 (with_shared (with_state (lm_x s1) t) (x_shared (lm_x s1) && negb (mem "model_module"%string (replaced dk)))), r)
      end.
  Proof.
    intros E. unfold initialize_from_log. rewrite (sbind_run _ _ s s s) by reflexivity. rewrite E. rewrite (sbind_run _ _ s (lm_set_lora s c (lm_handler s)) tt) by reflexivity.
    unfold sbind. destruct (lora_from_log rnd svd path (lm_set_lora s c (lm_handler s))) as [s1 [[]|e]]; [|reflexivity].
    destruct st as [dk|]; unfold on_x, lx_load, lx_load_from; cbv zeta; destruct (load_state _ _); reflexivity.
  Qed.
  Lemma finalize_conf (s s' : lm) o : lm_finalize s = (s', o) ->
    lm_x s' = fst (lx_finalize (lm_x s)) /\ o = snd (lx_finalize (lm_x s)) /\ s' = lm_set_conf (lm_set_x s (lm_x s')) (if is_ok o then Some (lm_cfg s) else lm_conf s).
  Proof.
    unfold lm_finalize, sbind, on_x. destruct (lx_finalize (lm_x s)) as [x [[]|e]]; intros [= <- <-]; repeat split; destruct s; reflexivity.
  Qed.
End P.
