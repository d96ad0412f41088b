From Coq Require Import Lia FinFun.
From Verif Require Import Py PyStr Monad ModelUtils SpecUtils.
Local Open Scope string_scope.
Local Open Scope list_scope.
Local Open Scope nat_scope.

Section U.
  Variable hash : string -> string.
  Lemma call_index d m ro c : m = "index" -> gen_call hash d (Gen m (Some c), ro) =
    match d_len d with Some n => ((Gen m (Some (c + n)), ro), Ok (map dec (seq c n))) | None => ((Gen m (Some c), ro), Err TypeError) end.
  Proof. intros ->. unfold gen_call, sbind, sget. cbn. unfold index_ids. cbn. destruct (d_len d); reflexivity. Qed.
  Lemma handed_app l c : handed (l ++ [c]) = handed l ++ match snd c with Ok ids => ids | Err _ => [] end.
  Proof. unfold handed. rewrite map_app, concat_app. cbn. rewrite app_nil_r. reflexivity. Qed.
  Lemma index_state ro l e : called hash "index" ro l e -> e = (Gen "index" (Some (length (handed l))), ro) /\ handed l = map dec (seq 0 (length (handed l))).
  Proof.
    induction 1 as [|l e d e' r C [-> IH] E]; [split; reflexivity|]. rewrite call_index in E by reflexivity.
    rewrite handed_app. cbn [snd]. destruct (d_len d) as [n|]; injection E as <- <-.
    - rewrite app_length, map_length, seq_length. split; [reflexivity|]. rewrite seq_app, map_app, <- IH. reflexivity.
    - rewrite app_nil_r. split; [reflexivity|exact IH].
  Qed.
  Lemma index_consecutive ro l e : called hash "index" ro l e -> handed l = map dec (seq 0 (length (handed l))) /\ NoDup (handed l) /\ snd e = ro.
  Proof.
    intros C. destruct (index_state _ _ _ C) as [-> E]. split; [exact E|]. split; [|reflexivity]. rewrite E. apply Injective_map_NoDup; [|apply seq_NoDup]. intros x y. apply dec_inj.
  Qed.
  Lemma index_call ro l e d : called hash "index" ro l e ->
    (forall n, d_len d = Some n -> exists e', gen_call hash d e = (e', Ok (map dec (seq (length (handed l)) n)))) /\
    (d_len d = None -> gen_call hash d e = (e, Err TypeError)).
  Proof.
    intros C. destruct (index_state _ _ _ C) as [-> _]. split.
    - intros n E. rewrite call_index by reflexivity. rewrite E. eexists. reflexivity.
    - intros E. rewrite call_index by reflexivity. rewrite E. reflexivity.
  Qed.
  Lemma other_mode mode ro l e d : called hash mode ro l e -> mode <> "hash" -> mode <> "index" -> gen_call hash d e = (e, Err ValueError).
  Proof.
    intros C N1 N2. assert (X : forall e, g_mode (fst e) = mode -> gen_call hash d e = (e, Err ValueError)).
    { intros e0 E. unfold gen_call, sbind, sget. rewrite E. apply String.eqb_neq in N1, N2. rewrite N1, N2. reflexivity. }
    apply X. clear X d. induction C as [|l e d e' r C IH E]; [reflexivity|]. unfold gen_call, sbind, sget in E. rewrite IH in E.
    apply String.eqb_neq in N1, N2. rewrite N1, N2 in E. injection E as <- _. exact IH.
  Qed.
  (** hash mode *)
  Lemma hash_run l : forall acc g ro, (forall d, In d l -> exists b, content d b) ->
    exists bs ro', Forall2 content l bs /\ hash_ids hash l acc (g, ro) = ((g, ro'), Ok (acc ++ map hash bs)) /\
      forall o, In o ro' <-> In o ro \/ numpy_in o l.
  Proof.
    induction l as [|d l IH]; intros acc g ro A.
    - exists [], ro. split; [constructor|]. split; [cbn; rewrite app_nil_r; reflexivity|]. intros o. split; [auto|intros [X|[b []]]; exact X].
    - destruct (A d (or_introl eq_refl)) as [b Cb]. cbn [hash_ids].
      set (ro1 := match d with DNumpy o _ => o :: ro | _ => ro end).
      destruct (IH (acc ++ [hash b]) g ro1) as (bs & ro' & H1 & H2 & H3); [intros x Hx; apply A; right; exact Hx|].
      exists (b :: bs), ro'. split; [constructor; assumption|]. split; [transitivity (hash_ids hash l (acc ++ [hash b]) (g, ro1)); [destruct Cb; reflexivity|]; rewrite H2, <- app_assoc; reflexivity|].
      intros o. rewrite H3. unfold ro1, numpy_in. cbn [In]. destruct Cb as [o' b|b]; cbn [In]; split; intros X.
      + destruct X as [[->|X]|[b' X]]; eauto.
      + destruct X as [X|[b' [[= -> ->]|X]]]; eauto.
      + destruct X as [X|[b' X]]; eauto.
      + destruct X as [X|[b' [E|X]]]; [eauto|discriminate E|eauto].
  Qed.
  Lemma hash_run_bad l1 d l2 : (forall d, In d l1 -> exists b, content d b) -> (forall b, ~ content d b) -> forall acc g ro,
    exists ro', hash_ids hash (l1 ++ d :: l2) acc (g, ro) = ((g, ro'), Err (match d with DOther => ValueError | _ => TypeError end)) /\
      forall o, In o ro' <-> In o ro \/ numpy_in o l1.
  Proof.
    intros A B. induction l1 as [|d1 l1 IH]; intros acc g ro.
    - exists ro. split; [|intros o; split; [auto|intros [X|[b []]]; exact X]]. cbn. destruct d as [o b|[b|]|]; [exfalso; apply (B b); constructor|exfalso; apply (B b); constructor|reflexivity|reflexivity].
    - destruct (A d1 (or_introl eq_refl)) as [b Cb]. cbn [app hash_ids].
      destruct (IH (fun x Hx => A x (or_intror Hx)) (acc ++ [hash b]) g (match d1 with DNumpy o _ => o :: ro | _ => ro end)) as (ro' & H2 & H3).
      exists ro'. split; [rewrite <- H2; destruct Cb; reflexivity|].
      intros o. rewrite H3. unfold numpy_in. cbn [In]. destruct Cb as [o' b|b]; cbn [In]; split; intros X.
      + destruct X as [[->|X]|[b' X]]; eauto.
      + destruct X as [X|[b' [[= -> ->]|X]]]; eauto.
      + destruct X as [X|[b' X]]; eauto.
      + destruct X as [X|[b' [E|X]]]; [eauto|discriminate E|eauto].
  Qed.
  Lemma hash_mode ro l e : called hash "hash" ro l e -> g_mode (fst e) = "hash" /\ g_count (fst e) = None.
  Proof.
    assert (X : forall l acc e e' r, hash_ids hash l acc e = (e', r) -> fst e' = fst e).
    { clear. induction l as [|d l IH]; intros acc e e' r; [intros [= <- _]; reflexivity|]. cbn [hash_ids]. unfold sbind at 1, lift. destruct (to_numpy d) as [[[o|] b]|x]; cbn [fst snd].
      - unfold sbind. intros E. apply IH in E. exact E.
      - unfold sbind, sret. intros E. apply IH in E. exact E.
      - intros [= <- _]. reflexivity. }
    induction 1 as [|l e d e' r C [IH1 IH2] E]; [split; reflexivity|]. unfold gen_call, sbind, sget in E. rewrite IH1 in E. cbn in E.
    destruct (d_items d) as [it|]; [apply X in E; rewrite E; auto|injection E as <- _; auto].
  Qed.
  Lemma call_hash ro l e d : called hash "hash" ro l e -> gen_call hash d e = match d_items d with Some l => hash_ids hash l [] e | None => (e, Err TypeError) end.
  Proof. intros C. apply hash_mode in C as [C _]. unfold gen_call, sbind, sget. rewrite C. cbn. destruct (d_items d); reflexivity. Qed.
  Lemma hash_good ro l e d it : called hash "hash" ro l e -> d_items d = Some it -> (forall x, In x it -> exists b, content x b) ->
    exists bs e', Forall2 content it bs /\ gen_call hash d e = (e', Ok (map hash bs)) /\ (forall o, In o (snd e') <-> In o (snd e) \/ numpy_in o it).
  Proof.
    intros C E A. rewrite (call_hash _ _ _ _ C), E. destruct e as [g r]. destruct (hash_run it [] g r A) as (bs & ro' & H1 & H2 & H3). exists bs, (g, ro'). auto.
  Qed.
  Lemma hash_bad ro l e d l1 x l2 : called hash "hash" ro l e -> d_items d = Some (l1 ++ x :: l2) -> (forall x, In x l1 -> exists b, content x b) -> (forall b, ~ content x b) ->
    exists e', gen_call hash d e = (e', Err (match x with DOther => ValueError | _ => TypeError end)) /\ (forall o, In o (snd e') <-> In o (snd e) \/ numpy_in o l1).
  Proof.
    intros C E A B. rewrite (call_hash _ _ _ _ C), E. destruct e as [g r]. destruct (hash_run_bad l1 x l2 A B [] g r) as (ro' & H1 & H2). exists (g, ro'). auto.
  Qed.
  Lemma hash_no_iter ro l e d : called hash "hash" ro l e -> d_items d = None -> gen_call hash d e = (e, Err TypeError).
  Proof. intros C E. rewrite (call_hash _ _ _ _ C), E. reflexivity. Qed.
End U.
(** any two calls of any two generators: the ids of two samples are equal iff the hashes of their contents are *)
Lemma hash_content hash ro l e d ids e1 ro' l' e' d' ids' e1' it it' i j x y b b' :
  called hash "hash" ro l e -> called hash "hash" ro' l' e' -> gen_call hash d e = (e1, Ok ids) -> gen_call hash d' e' = (e1', Ok ids') ->
  d_items d = Some it -> d_items d' = Some it' -> nth_error it i = Some x -> nth_error it' j = Some y -> content x b -> content y b' ->
  exists a a', nth_error ids i = Some a /\ nth_error ids' j = Some a' /\ (a = a' <-> hash b = hash b').
Proof.
  assert (G : forall ro l e d ids e1 it i x b, called hash "hash" ro l e -> gen_call hash d e = (e1, Ok ids) -> d_items d = Some it -> nth_error it i = Some x -> content x b -> nth_error ids i = Some (hash b)).
  { clear. intros ro l e d ids e1 it i x b C E I N Cb.
    assert (A : forall z, In z it -> exists b, content z b).
    { intros z Hz. destruct z as [o c|[c|]|]; try (eexists; constructor); exfalso.
      all: apply in_split in Hz as (l1 & l2 & Hz). 
      all: revert E; rewrite (call_hash hash _ _ _ _ C), I, Hz; clear; generalize ([] : list string) e; induction l1 as [|y l1 IH]; intros acc f; cbn [app hash_ids]; [cbn; discriminate|].
      all: unfold sbind at 1, lift; destruct (to_numpy y) as [[[o|] c]|w]; [| |discriminate]; unfold sbind; cbn [fst snd sret]; apply IH. }
    destruct (hash_good hash ro l e d it C I A) as (bs & e' & F & E' & _). rewrite E in E'. injection E' as _ ->.
    assert (Hb : nth_error bs i = Some b).
    { clear - F N Cb. revert i N. induction F as [|z c l bs Z F IH]; intros [|i] N; try discriminate N; cbn in N |- *; [|apply IH, N].
      injection N as ->. destruct Z; inversion Cb; subst; reflexivity. }
    apply map_nth_error, Hb. }
  intros C C' E E' I I' N N' B B'. exists (hash b), (hash b'). split; [exact (G _ _ _ _ _ _ _ _ _ _ C E I N B)|]. split; [exact (G _ _ _ _ _ _ _ _ _ _ C' E' I' N' B')|]. reflexivity.
Qed.
