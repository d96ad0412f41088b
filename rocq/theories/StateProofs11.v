(** The statements of the statistics properties, assembled. *)
From Coq Require Import ZArith Permutation.
From Verif Require Import Py Field Tensor ModelGrad Monad ModelState SpecGrad SpecState GradProofs1 GradProofs2 StateProofs1 StateProofs2 StateProofs3 StateProofs4 StateProofs5 StateProofs6 StateProofs7 StateProofs8 StateProofs9 StateProofs10.
Local Open Scope string_scope.
Local Open Scope list_scope.
Local Open Scope nat_scope.

Section Proofs.
  Context {F : Type} `{OField F}.
  Add Field FfS11 : f_theory.
  Notation tensor := (tensor F).
  Notation lstate := (@lstate F).
  Notation call := (@call F).

  Lemma finalize_stat (st : stat) (dk : @sdisk F) cs s : run_calls cs state_init = (s, Ok tt) -> Forall call_ok cs ->
    exists s' dk', finalize dk s = (s', Ok dk') /\
      forall m t, let ccs := calls_for st m t cs in
        (ccs = [] -> stored s' st m t = None) /\
        (ccs <> [] -> all_rows ccs <> [] /\ rows_fit st (width (all_rows ccs)) (all_rows ccs) /\
           stored s' st m t = Some (moment st (width (all_rows ccs)) (all_rows ccs) (all_count ccs))).
  Proof.
    intros E O. destruct (finalize_moments dk cs s E O) as (s' & dk' & Ef & _ & V). exists s', dk'. split; [exact Ef|]. intros m t ccs.
    destruct (V st m t) as [V1 V2]. split; [exact V1|]. intros N. destruct (V2 N) as (A & B & C & _). auto.
  Qed.
  Lemma finalize_mean (dk : @sdisk F) cs s : run_calls cs state_init = (s, Ok tt) -> Forall call_ok cs ->
    exists s' dk', finalize dk s = (s', Ok dk') /\
      forall m t, let ccs := calls_for SMean m t cs in
        (ccs = [] -> stored s' SMean m t = None) /\
        (ccs <> [] -> all_rows ccs <> [] /\ Forall (fun r => length r = width (all_rows ccs) \/ length r = 1) (all_rows ccs) /\
           stored s' SMean m t = Some (moment SMean (width (all_rows ccs)) (all_rows ccs) (all_count ccs))).
  Proof.
    intros E O. destruct (finalize_stat SMean dk cs s E O) as (s' & dk' & Ef & V). exists s', dk'. split; [exact Ef|]. intros m t ccs.
    destruct (V m t) as [V1 V2]. split; [exact V1|]. intros N. destruct (V2 N) as (A & B & C). split; [exact A|]. split; [|exact C].
    eapply Forall_impl; [|exact B]. intros r [Q|[_ Q]]; auto.
  Qed.
  Lemma finalize_cov (dk : @sdisk F) cs s : run_calls cs state_init = (s, Ok tt) -> Forall call_ok cs ->
    exists s' dk', finalize dk s = (s', Ok dk') /\
      forall m t, let ccs := calls_for SCov m t cs in
        (ccs = [] -> stored s' SCov m t = None) /\
        (ccs <> [] -> all_rows ccs <> [] /\ Forall (fun r => length r = width (all_rows ccs)) (all_rows ccs) /\
           stored s' SCov m t = Some (moment SCov (width (all_rows ccs)) (all_rows ccs) (all_count ccs))).
  Proof.
    intros E O. destruct (finalize_stat SCov dk cs s E O) as (s' & dk' & Ef & V). exists s', dk'. split; [exact Ef|]. intros m t ccs.
    destruct (V m t) as [V1 V2]. split; [exact V1|]. intros N. destruct (V2 N) as (A & B & C). split; [exact A|]. split; [|exact C].
    eapply Forall_impl; [|exact B]. intros r [Q|[Q _]]; [exact Q|discriminate Q].
  Qed.
  Lemma covariance_psd (dk : @sdisk F) cs s s' dk' m t x : run_calls cs state_init = (s, Ok tt) -> Forall call_ok cs -> finalize dk s = (s', Ok dk') ->
    stored s' SCov m t = Some x -> exists k, shape x = [k; k] /\ (forall i j, i < k -> j < k -> mget x i j = mget x j i) /\
      (Forall unmasked (calls_for SCov m t cs) ->
       forall v : nat -> F, fle f0 (sum k (fun i => sum k (fun j => fmul (fmul (v i) (mget x i j)) (v j))))).
  Proof.
    intros E O Ef Es. destruct (finalize_stat SCov dk cs s E O) as (s2 & dk2 & Ef2 & V). rewrite Ef in Ef2. injection Ef2 as <- <-.
    destruct (V m t) as [V1 V2]. cbv zeta in V1, V2. set (ccs := calls_for SCov m t cs) in *.
    assert (N : ccs <> []). { intros Q. rewrite (V1 Q) in Es. discriminate Es. }
    destruct (V2 N) as (NR & FR & S). rewrite S in Es. injection Es as <-. exists (width (all_rows ccs)). split; [reflexivity|]. split.
    - intros i j Li Lj. apply moment_sym; assumption.
    - intros U v. destruct (unmasked_count_pos SCov m t cs U NR) as [P1 P2]. apply moment_psd; assumption.
  Qed.
  Lemma finalize_again (dk : @sdisk F) cs k s st m t x : run_phases dk (cs :: repeat [] k) state_init = (s, Ok tt) -> Forall call_ok cs ->
    let ccs := calls_for st m t cs in stored s st m t = Some x -> all_count ccs <> f0 ->
    ccs <> [] /\ forall idx, valid (shape x) idx -> tget x idx = fdiv (rowstat st (all_rows ccs) idx) (fpow (all_count ccs) (S k)).
  Proof.
    intros E O ccs Es NZ. destruct (phases_init dk _ s E) with (st := st) (m := m) (t := t) as [_ V2].
    { constructor; [exact O|]. apply Forall_forall. intros l Il. apply repeat_spec in Il. subst l. constructor. }
    destruct (V2 x Es) as (w & n & S & W & _ & G). rewrite S. cbn [map] in G. fold ccs in G.
    assert (RN : map (calls_for (F:=F) st m t) (repeat [] k) = repeat [] k). { clear. induction k; cbn; [reflexivity|]. f_equal. exact IHk. }
    rewrite RN in G.
    assert (N : ccs <> []). { intros Q. apply NZ. rewrite Q. reflexivity. }
    split; [exact N|]. intros idx Vi. specialize (G idx Vi). destruct (refinalized_pow st idx ccs k N) as [Q|Q]; [|contradiction].
    rewrite Q in G. injection G as G _. symmetry. exact G.
  Qed.
  Lemma ekfac_after (eigh : tensor -> res (tensor * tensor)) (dk0 dk : @sdisk F) ps s e0 es0 s1 :
    run_phases dk0 ps state_init = (s, Ok tt) -> Forall (Forall call_ok) ps -> Forall grad_wf (e0 :: es0) -> run_ecalls eigh (e0 :: es0) s = (s1, Ok tt) ->
    exists s2 dk2, finalize dk s1 = (s2, Ok dk2) /\
      (forall m, filter (fun e => String.eqb (e_m e) m) (e0 :: es0) = [] -> eig_entry s2 m = None) /\
      forall m, filter (fun e => String.eqb (e_m e) m) (e0 :: es0) <> [] ->
        exists x i j k l cf cb vf vb u v, eig_entry s2 m = Some x /\ twf x /\ shape x = [i; j] /\
          stored s SCov m "forward" = Some cf /\ stored s SCov m "backward" = Some cb /\ eigh cf = Ok (vf, v) /\ eigh cb = Ok (vb, u) /\
          shape u = [k; i] /\ shape v = [l; j] /\ Forall (fun g => shape g = [k; l]) (grads_for m (e0 :: es0)) /\
          forall a c, a < i -> c < j -> mget x a c =
            fdiv (lsum (map (fun g => fmul (project u v a c g) (project u v a c g)) (grads_for m (e0 :: es0)))) (fnat (length (grads_for m (e0 :: es0)))).
  Proof.
    intros E O W Ee. destruct (phases_ok dk0 ps _ inv5_init s E O) as (I & _).
    destruct (ekfac_moments eigh dk s e0 es0 s1 I W Ee) as (s2 & dk2 & Ef & V1 & V2). exists s2, dk2. split; [exact Ef|]. split; [|exact V2].
    intros m Q. apply V1; [|exact Q]. unfold grads_for. rewrite Q. reflexivity.
  Qed.
  Lemma offload_same (dk : @sdisk F) cs s : run_calls cs state_init = (s, Ok tt) ->
    run_calls (map (with_offload true) cs) state_init = (cpu_state s, Ok tt).
  Proof. intros E. rewrite <- cpu_init. apply offload_run; [exact pairs_init|exact E]. Qed.
  Lemma offload_converse dv cs (s' : lstate) :
    Forall (fun c => forall d, get_data (k_b c) (k_m c) (k_t c) (k_data c) = Ok d -> fst d = dv) cs ->
    run_calls (map (with_offload true) cs) state_init = (s', Ok tt) ->
    exists s, run_calls (map (with_offload false) cs) state_init = (s, Ok tt) /\ cpu_state s = s'.
  Proof. intros G E. apply (onload_run dv cs state_init s' pairs_init (on_dev_init dv) G). rewrite cpu_init. exact E. Qed.
  Lemma cpu_lookup (s : lstate) a m t : lookup2 (cpu_state s) a m t = option_map on_cpu (lookup2 s a m t).
  Proof.
    unfold lookup2, cpu_state. cbn [attrs with_attrs]. rewrite (dget_map (fun _ x => nd_map on_cpu x)).
    destruct (dget a (attrs s)) as [[v|d]|]; cbn [nd_map]; try reflexivity. change (match nd_map on_cpu (Node d) with Node d0 => match dget m d0 with Some (Node e) => match dget t e with Some (Leaf v) => Some v | _ => None end | _ => None end | Leaf _ => None end = option_map on_cpu (match dget m d with Some (Node e) => match dget t e with Some (Leaf v) => Some v | _ => None end | _ => None end)).
    rewrite nd_map_node, dget_nd_map. destruct (dget m d) as [[v|e]|]; try reflexivity. rewrite nd_map_node, dget_nd_map. destruct (dget t e) as [[v|]|]; reflexivity.
  Qed.
  Lemma cpu_stored (s : lstate) st m t : stored (cpu_state s) st m t = stored s st m t.
  Proof. unfold stored. rewrite cpu_lookup. destruct (lookup2 s (stat_name st) m t) as [[[d x]| | |]|]; reflexivity. Qed.
  Lemma set_state_ok (s : lstate) n k v : set_state n k v s =
    if mem n (st_states s) then
      match dget n (attrs s) with
      | Some (Node d) => (with_attrs s (dset n (Node (dset k (Leaf v) d)) (attrs s)), Ok tt)
      | Some (Leaf _) => (s, Err TypeError)
      | None => (s, Err AttributeError)
      end
    else (s, Err ValueError).
  Proof.
    unfold set_state. cbv [sbind sget attr lift set_attr sfail]. destruct (mem n (st_states s)); [|reflexivity].
    destruct (dget n (attrs s)) as [[w|d]|]; reflexivity.
  Qed.
End Proofs.
