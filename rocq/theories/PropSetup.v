(** C28, continued: what setup() does to the caller's lists, and gradient phases of per-sample logging. *)
From Verif Require Import Py PyStr ModelLogger SpecLogger SpecSetup SetupProofs.
Local Open Scope string_scope.
Local Open Scope list_scope.

(** The dictionary keeps its keys. The lists of the phases that are reached are rewritten in place, up to the first unknown
    element; all other lists stay. *)
Theorem C28_lists kw o kw' r : opt_setup kw = (o, kw', r) ->
  dkeys kw' = dkeys kw /\
  (forall k l, dget k kw = Some l -> exists l', dget k kw' = Some l' /\ (reached kw k -> rewritten l l') /\ (~ reached kw k -> l' = l)).
Proof. exact (setup_lists kw o kw' r). Qed.
Print Assumptions C28_lists.
Example C28_lists_example : let kw := [("grad", [AStr "log"]); ("backward", [AStr "mean"; AStr "median"; AStr "log"]); ("forward", [AStr "log"]); ("x", [AOther])] in
  snd (fst (opt_setup kw)) = [("grad", [AStr "log"]); ("backward", [AClass PMean; AStr "median"; AStr "log"]); ("forward", [AClass PLog]); ("x", [AOther])] /\
  reached kw "backward" /\ ~ reached kw "grad" /\ ~ reached kw "x" /\ snd (opt_setup kw) = Err AssertionError.
Proof.
  cbv zeta. split; [reflexivity|]. split; [right; left; split; [reflexivity|]; intros a [<-|[]]; discriminate|]. split.
  - intros [E|[[E _]|(_ & _ & K)]]; [discriminate E|discriminate E|]. apply (K (AStr "median")); [right; left; reflexivity|reflexivity].
  - split; [|reflexivity]. intros [E|[[E _]|[E _]]]; discriminate E.
Qed.
(** _to_plugins with is_grad=True, which setup() never uses: Log is added to a non-empty list. *)
Theorem C28_is_grad l : all_known l ->
  exists ps, to_plugins l true = (map AClass (map_known l), Ok ps) /\
    ((l = [] /\ ps = []) \/ (l <> [] /\ hd_error ps = Some PLog /\ in_order ps /\ forall p, In p ps <-> p = PLog \/ exists a, In a l /\ known a = Some p)).
Proof. exact (to_plugins_grad l). Qed.
Print Assumptions C28_is_grad.
Example C28_is_grad_example : let l := [AStr "covariance"; AClass PMean] in
  all_known l /\ to_plugins l true = ([AClass PCovariance; AClass PMean], Ok [PLog; PMean; PCovariance]) /\ to_plugins l false = ([AClass PCovariance; AClass PMean], Ok [PMean; PCovariance]) /\
  to_plugins [] true = ([], Ok []).
Proof. cbv zeta. split; [intros a [<-|[<-|[]]]; discriminate|]. repeat split. Qed.
