(** Proofs about the scheduler. *)
From Coq Require Import ZArith Lia.
From Verif Require Import Py PyStr Field Tensor ModelGrad Monad ModelState ModelMmap ModelSaver ModelLogger ModelModules ModelLora ModelScheduler SpecGrad SpecState SpecLogger SpecLora SpecScheduler StateProofs6 LogProofs1 LoraProofs6 LoraProofs7.
Local Open Scope string_scope.
Local Open Scope list_scope.
Local Open Scope nat_scope.

Lemma mem_str a (l : list string) : In a l -> mem a l = true.
Proof. intros H. apply mem_In, H. Qed.
Lemma mem_str_not a (l : list string) : ~ In a l -> mem a l = false.
Proof. intros H. destruct (mem a l) eqn:E; [exfalso; apply H, mem_In, E|reflexivity]. Qed.

Ltac each_good G := let G1 := fresh in let G2 := fresh in let G3 := fresh in destruct G as (G1 & G2 & G3); cbn [In] in G1, G2, G3;
  destruct G1 as [<-|[<-|[<-|[]]]]; destruct G2 as [<-|[<-|[<-|[<-|[]]]]]; destruct G3 as [<-|[<-|[<-|[<-|[]]]]].
(** the plan *)
Definition plan (lora hessian save : string) : list okwargs := match configure_schedule lora hessian save with Ok l => l | Err _ => [] end.
Lemma plan_ok lora hessian save : good lora hessian save -> configure_schedule lora hessian save = Ok (plan lora hessian save) /\ length (plan lora hessian save) = epochs lora hessian.
Proof. intros G. each_good G; split; reflexivity. Qed.
Lemma sched_good lora hessian save : good lora hessian save ->
  exists c, new_sched lora hessian save = Ok c /\ length (sc_all c) = epochs lora hessian.
Proof.
  intros G. destruct (plan_ok _ _ _ G) as [P1 P2]. exists (Sched lora hessian save (-1) (plan lora hessian save) (plan lora hessian save)). split; [|exact P2].
  unfold new_sched, sanity_check. destruct G as (G1 & G2 & _). rewrite (mem_str _ _ G1), (mem_str _ _ G2), P1. reflexivity.
Qed.
Lemma sched_bad lora hessian save :
  (~ In lora ["none"; "random"; "pca"] \/ ~ In hessian ["none"; "raw"; "kfac"; "ekfac"] -> new_sched lora hessian save = Err AssertionError) /\
  (In lora ["none"; "random"; "pca"] -> In hessian ["none"; "raw"; "kfac"; "ekfac"] -> ~ In save ["none"; "forward"; "backward"; "grad"] -> new_sched lora hessian save = Err KeyError).
Proof.
  split.
  - intros N. unfold new_sched, sanity_check. destruct (mem lora _) eqn:E1; [|reflexivity]. destruct (mem hessian _) eqn:E2; [|reflexivity].
    exfalso. apply mem_In in E1, E2. tauto.
  - intros G1 G2 N. unfold new_sched, sanity_check. rewrite (mem_str _ _ G1), (mem_str _ _ G2). unfold configure_schedule.
    destruct (String.eqb_spec save "none") as [->|E]; [exfalso; apply N; left; reflexivity|]. cbn [negb]. unfold kw_append at 1. cbn [dget].
    assert (X : forall a, In a ["forward"; "backward"; "grad"] -> eqb save a = false).
    { intros a Ha. apply eqb_neq. intros ->. apply N. right. exact Ha. }
    rewrite !X by (cbn; auto). reflexivity.
Qed.

Definition opts_of (kw : okwargs) : opts := fst (fst (opt_setup kw)).
Definition wantedb (lora hessian save : string) (k : nat) (ph : string) (p : plugin) : bool :=
  let last := S k =? epochs lora hessian in
  match p with
  | PCovariance => ((String.eqb ph "forward" || String.eqb ph "backward") && (negb last || String.eqb hessian "kfac")) || (String.eqb ph "grad" && last && String.eqb hessian "raw")
  | PLog => last && (String.eqb save ph || (String.eqb ph "grad" && (String.eqb hessian "raw" || String.eqb hessian "ekfac")))
  | PCorrectedEigval => last && String.eqb ph "grad" && String.eqb hessian "ekfac"
  | _ => false
  end.
Lemma wantedb_ok lora hessian save k ph p : wantedb lora hessian save k ph p = true <-> wanted lora hessian save k ph p.
Proof.
  destruct p; unfold wantedb, wanted; cbv zeta; rewrite ?Bool.orb_true_iff, ?Bool.andb_true_iff, ?Bool.orb_true_iff, ?Bool.andb_true_iff, ?Bool.orb_true_iff, ?Bool.negb_true_iff, ?String.eqb_eq, ?Nat.eqb_eq, ?Nat.eqb_neq; intuition discriminate.
Qed.
Lemma plugin_in_In p l : plugin_in p l = true <-> In p l.
Proof. unfold plugin_in. rewrite existsb_exists. split; [intros (q & Hq & E); destruct p, q; try discriminate E; exact Hq|intros Hp; exists p; split; [exact Hp|destruct p; reflexivity]]. Qed.
Definition sortedb := fix go (l : list plugin) : bool := match l with [] => true | p :: r => forallb (fun q => rank p <? rank q) r && go r end.
Lemma sortedb_ok l : sortedb l = true -> in_order l.
Proof.
  induction l as [|p r IH]; cbn; [constructor|]. intros E. apply andb_prop in E as [E1 E2]. constructor; [apply IH, E2|]. apply Forall_forall. rewrite forallb_forall in E1. intros q Hq. apply Nat.ltb_lt, E1, Hq.
Qed.
Definition plannedb (lora hessian save : string) (k : nat) (o : opts) : bool :=
  forallb (fun ph => sortedb (phase o ph) && forallb (fun p => Bool.eqb (plugin_in p (phase o ph)) (wantedb lora hessian save k ph p)) plugin_list) ["forward"; "backward"; "grad"].
Lemma plannedb_ok lora hessian save k o : plannedb lora hessian save k o = true -> planned lora hessian save k o.
Proof.
  unfold plannedb. rewrite forallb_forall. intros E ph Hph. specialize (E ph Hph). apply andb_prop in E as [E1 E2]. split; [apply sortedb_ok, E1|].
  intros p. rewrite forallb_forall in E2. assert (Hp : In p plugin_list) by (destruct p; cbn; auto 6). specialize (E2 p Hp). apply Bool.eqb_prop in E2.
  rewrite <- plugin_in_In, E2. apply wantedb_ok.
Qed.
Lemma planned_ok lora hessian save k : good lora hessian save -> k < epochs lora hessian ->
  snd (opt_setup (nth k (plan lora hessian save) [])) = Ok tt /\ planned lora hessian save k (opts_of (nth k (plan lora hessian save) [])).
Proof.
  intros G. each_good G; intros L; cbn in L; (destruct k as [|[|[|k]]]); try (exfalso; lia).
  all: split; [reflexivity|apply plannedb_ok; vm_compute; reflexivity].
Qed.

Section P.
  Context {F : Type} `{OField F}.
  Context (rnd : mid -> list nat -> F) (svd : tensor F -> res (tensor F)).
  Notation lm := (@lm F).
  Definition sched_at (lora hessian save : string) (k : nat) : sched :=
    Sched lora hessian save (Z.of_nat k - 1) (plan lora hessian save) (skipn k (plan lora hessian save)).
  (** the object after the beginning of an epoch *)
  Definition epoch_end (s : lm) (o : opts) (save : bool) : lm := lm_set_x s (with_opt (with_saves (lm_x s) save (x_save_batch (lm_x s))) o).
  Definition adds_lorab (lora : string) (k : nat) : bool := (String.eqb lora "random" && (k =? 0)) || (String.eqb lora "pca" && (k =? 1)).
  Lemma adds_lorab_ok lora k : adds_lorab lora k = true <-> adds_lora lora k.
  Proof. unfold adds_lorab, adds_lora. rewrite Bool.orb_true_iff, !Bool.andb_true_iff, !String.eqb_eq, !Nat.eqb_eq. reflexivity. Qed.
  Definition savesb (lora hessian save : string) (k : nat) : bool := negb (String.eqb save "none") && (S k =? epochs lora hessian).
  Lemma next_run lora hessian save k (s : lm) : good lora hessian save -> k < epochs lora hessian ->
    sched_next rnd svd (sched_at lora hessian save k, s) =
    let (s1, r) := if adds_lorab lora k then lm_add_lora rnd svd true true None None None None s else (s, Ok tt) in
    ((sched_at lora hessian save (S k), match r with Ok _ => epoch_end s1 (opts_of (nth k (plan lora hessian save) [])) (savesb lora hessian save k || x_save (lm_x s1)) | Err _ => s1 end),
     match r with Ok _ => Ok (Z.of_nat k) | Err e => Err e end).
  Proof.
    intros G L. destruct (plan_ok _ _ _ G) as [_ PL]. destruct (planned_ok _ _ _ k G L) as [PO _].
    unfold sched_next. unfold sbind at 1. cbn [fst snd sc_rest sched_at].
    assert (Es : skipn k (plan lora hessian save) = nth k (plan lora hessian save) [] :: skipn (S k) (plan lora hessian save)).
    { rewrite <- PL in L. clear PO PL G. revert k L. generalize (plan lora hessian save) as l. induction l as [|a l IH]; intros k L; [cbn in L; lia|]. destruct k; [reflexivity|]. cbn in L. apply (IH k). lia. }
    rewrite Es. unfold sbind at 1. cbn [sget fst snd sc_epoch sc_lora sc_hessian sc_save sc_all sched_at].
    assert (Ec : forall c, (Z.of_nat k - 1 + 1 =? c)%Z = (Z.of_nat k =? c)%Z) by (intros c; f_equal; lia). rewrite !Ec.
    assert (El : (Z.of_nat k =? lora_epoch lora)%Z = adds_lorab lora k).
    { destruct G as (G & _). cbn in G. destruct G as [<-|[<-|[<-|[]]]]; unfold lora_epoch, adds_lorab; cbn; destruct k as [|[|k]]; try reflexivity; apply Z.eqb_neq; lia. }
    assert (Ev : (Z.of_nat k =? save_epoch save (plan lora hessian save))%Z = savesb lora hessian save k).
    { unfold save_epoch, savesb. rewrite PL. destruct (String.eqb save "none"); cbn [negb andb]; [apply Z.eqb_neq; lia|]. destruct (Nat.eqb_spec (S k) (epochs lora hessian)); [apply Z.eqb_eq; lia|apply Z.eqb_neq; lia]. }
    rewrite El, Ev. replace (Sched lora hessian save (Z.of_nat k - 1 + 1) (plan lora hessian save) (skipn (S k) (plan lora hessian save))) with (sched_at lora hessian save (S k)) by (unfold sched_at; f_equal; lia).
    assert (K : forall s1 : lm, ((if savesb lora hessian save k then on_lm (on_x (lx_save true)) else sret tt) ;; on_lm (on_x (lx_setup (nth k (plan lora hessian save) []))) ;; sret (Z.of_nat k - 1 + 1)%Z) (sched_at lora hessian save (S k), s1)
      = ((sched_at lora hessian save (S k), epoch_end s1 (opts_of (nth k (plan lora hessian save) [])) (savesb lora hessian save k || x_save (lm_x s1))), Ok (Z.of_nat k))).
    { intros s1. assert (X : forall (x : @lx F), lx_setup (nth k (plan lora hessian save) []) x = (with_opt x (opts_of (nth k (plan lora hessian save) [])), Ok tt)).
      { intros x. unfold lx_setup, opts_of in *. destruct (opt_setup _) as [[o kw] r]. cbn in *. subst r. reflexivity. }
      unfold sbind at 1. destruct (savesb lora hessian save k); unfold on_lm, on_x, lx_save, sret, sbind; cbn [fst snd]; rewrite X; unfold epoch_end; repeat f_equal; try lia; destruct s1 as [x ? ? ? ? ? ? ? ? ?]; destruct x; reflexivity. }
    destruct (adds_lorab lora k).
    - unfold sbind at 1, on_lm at 1. cbn [fst snd]. destruct (lm_add_lora rnd svd true true None None None None s) as [s1 [[]|e]]; [apply K|reflexivity].
    - apply K.
  Qed.
  Lemma begun_at lora hessian save k c : good lora hessian save -> begun rnd svd lora hessian save k c -> c = sched_at lora hessian save k /\ k <= epochs lora hessian.
  Proof.
    intros G B. induction B as [c E|k c s c' s' r B IH L E].
    - destruct (plan_ok _ _ _ G) as [P1 _]. unfold new_sched, sanity_check in E. destruct G as (G1 & G2 & _). rewrite (mem_str _ _ G1), (mem_str _ _ G2), P1 in E. injection E as <-. split; [reflexivity|lia].
    - destruct IH as [-> _]. rewrite (next_run _ _ _ _ _ G L) in E. destruct (if adds_lorab lora k then _ else _) as [s1 r1]. injection E as <- _ _. split; [reflexivity|lia].
  Qed.

  (** C30 *)
  Lemma next_epoch lora hessian save k c (s : lm) : good lora hessian save -> begun rnd svd lora hessian save k c -> k < epochs lora hessian ->
    exists c' s1 r, (adds_lora lora k -> lm_add_lora rnd svd true true None None None None s = (s1, r)) /\ (~ adds_lora lora k -> s1 = s /\ r = Ok tt) /\
      match r with
      | Err e => sched_next rnd svd (c, s) = ((c', s1), Err e)
      | Ok _ => exists o b, sched_next rnd svd (c, s) = ((c', lm_set_x s1 (with_opt (with_saves (lm_x s1) b (x_save_batch (lm_x s1))) o)), Ok (Z.of_nat k)) /\
          planned lora hessian save k o /\ (b = true <-> x_save (lm_x s1) = true \/ (save <> "none" /\ S k = epochs lora hessian))
      end.
  Proof.
    intros G B L. destruct (begun_at _ _ _ _ _ G B) as [-> _]. rewrite (next_run _ _ _ _ _ G L). destruct (planned_ok _ _ _ k G L) as [_ PO].
    assert (BB : forall a, savesb lora hessian save k || a = true <-> a = true \/ save <> "none" /\ S k = epochs lora hessian).
    { intros a. unfold savesb. rewrite Bool.orb_true_iff, Bool.andb_true_iff, Bool.negb_true_iff, String.eqb_neq, Nat.eqb_eq. tauto. }
    exists (sched_at lora hessian save (S k)). destruct (adds_lorab lora k) eqn:A.
    - destruct (lm_add_lora rnd svd true true None None None None s) as [s1 r]. exists s1, r. split; [reflexivity|]. split; [intros N; exfalso; apply N, adds_lorab_ok, A|].
      destruct r as [[]|e]; [|reflexivity]. eexists _, _. split; [reflexivity|]. split; [exact PO|apply BB].
    - exists s, (Ok tt). split; [intros N; apply adds_lorab_ok in N; congruence|]. split; [split; reflexivity|]. eexists _, _. split; [reflexivity|]. split; [exact PO|apply BB].
  Qed.
  Lemma next_exhausted lora hessian save c (s : lm) : good lora hessian save -> begun rnd svd lora hessian save (epochs lora hessian) c ->
    sched_next rnd svd (c, s) = ((c, s), Err StopIteration).
  Proof.
    intros G B. destruct (begun_at _ _ _ _ _ G B) as [-> _]. destruct (plan_ok _ _ _ G) as [_ PL]. unfold sched_next, sbind, sched_at. cbn [fst sc_rest]. rewrite skipn_all2 by lia. reflexivity.
  Qed.
End P.
