(** Specification vocabulary for influence scores. *)
From Verif Require Import Py PyStr Field Tensor ModelGrad Monad ModelState ModelInfluence SpecGrad SpecState.
Local Open Scope nat_scope.

Section Spec.
  Context {F : Type} `{OField F}.
  Notation tensor := (tensor F).
  Notation sval := (@sval F).
  Notation lstate := (@lstate F).
  Notation dten := (@dten F).

  (** A log as plain data: module -> type -> tensor; and the Python object holding it. *)
  Definition tlog := dict string (dict string dten).
  Definition log_nd (L : tlog) : nd sval :=
    Node (map (fun p => (fst p, Node (map (fun q => (fst q, Leaf (VT (snd q)))) (snd p)))) L).
  Definition look (L : tlog) (m t : string) : option dten := match dget m L with Some e => dget t e | None => None end.
  Definition grad_of (L : tlog) (m : string) : option dten := look L m "grad".
  (** all (module, type) pairs in order *)
  Definition log_keys (L : tlog) : list (string * string) := concat (map (fun p => map (fun q => (fst p, fst q)) (snd p)) L).

  (** inner product of sample [i] of [A] and sample [j] of [B] in one module, and over several modules *)
  Definition gdot (A B : tlog) (i j : nat) (m : string) : F :=
    match grad_of A m, grad_of B m with Some a, Some b => dot (slice (snd a) i) (slice (snd b) j) | _, _ => f0 end.
  Definition score (A B : tlog) (ms : list string) (i j : nat) : F := lsum (map (gdot A B i j) ms).
  Definition score_matrix (A B : tlog) (ms : list string) (n k : nat) : tensor := mgen n k (score A B ms).

  (** Module [m] has gradients of [n] samples in [A] (on device [dv]) and of [k] samples in [B], of one shape. *)
  Definition paired_grads (dv : dev) (n k : nat) (A B : tlog) (m : string) : Prop :=
    exists a b e rest, grad_of A m = Some (dv, a) /\ grad_of B m = Some (e, b) /\
      shape a = n :: rest /\ shape b = k :: rest /\ twf a /\ twf b.
  (** the first tensor of [B] is logged in [A] as well, on device [dv] *)
  Definition head_on (dv : dev) (A B : tlog) : Prop :=
    match log_keys B with [] => True | (m, t) :: _ => exists x, look A m t = Some (dv, x) end.
  (** dictionary keys are distinct *)
  Definition ok_log (L : tlog) : Prop := NoDup (dkeys L) /\ Forall (fun p => NoDup (dkeys (snd p))) L.
  (** attribute [a] of the state is the nested dictionary [L] *)
  Definition holds (s : lstate) (a : string) (L : tlog) : Prop := dget a (attrs s) = Some (log_nd L) /\ ok_log L.

  (** [w], [v] is an eigendecomposition of the n x n matrix [c]: v is orthogonal, c = v diag(w) v^T *)
  Definition eigen (n : nat) (c w v : tensor) : Prop :=
    shape w = [n] /\ shape v = [n; n] /\ twf w /\ twf v /\
    (forall i j, i < n -> j < n -> sum n (fun p => fmul (mget v p i) (mget v p j)) = (if i =? j then f1 else f0)) /\
    (forall i j, i < n -> j < n -> sum n (fun p => fmul (mget v i p) (mget v j p)) = (if i =? j then f1 else f0)) /\
    (forall i j, i < n -> j < n -> mget c i j = sum n (fun p => fmul (mget v i p) (fmul (tget w [p]) (mget v j p)))).
  Definition symmetric (n : nat) (c : tensor) : Prop := shape c = [n; n] /\ forall i j, i < n -> j < n -> mget c i j = mget c j i.
  Definition psd (n : nat) (c : tensor) : Prop :=
    forall x : nat -> F, fle f0 (sum n (fun i => sum n (fun j => fmul (fmul (x i) (mget c i j)) (x j)))).
  (** what torch.linalg.eigh promises for symmetric matrices *)
  Definition eigh_contract (eigh : tensor -> res (tensor * tensor)) : Prop :=
    forall n c w v, symmetric n c -> eigh c = Ok (w, v) -> eigen n c w v.
  (** what torch.inverse promises: both products are the identity *)
  Definition inverse_of (n : nat) (a b : nat -> nat -> F) : Prop :=
    forall i j, i < n -> j < n -> sum n (fun p => fmul (a i p) (b p j)) = (if i =? j then f1 else f0) /\
                                sum n (fun p => fmul (b i p) (a p j)) = (if i =? j then f1 else f0).
  Definition inverse_contract (inverse : tensor -> res tensor) : Prop :=
    forall n a b, shape a = [n; n] -> twf a -> inverse a = Ok b -> shape b = [n; n] /\ twf b /\ inverse_of n (mget a) (mget b).

  (** every covariance of [C] decomposed, and nothing else *)
  Definition decomposed (eigh : tensor -> res (tensor * tensor)) (C EV EC : tlog) : Prop :=
    forall m t, match look C m t with
                | Some d => exists w v, eigh (snd d) = Ok (w, v) /\ look EV m t = Some (fst d, w) /\ look EC m t = Some (fst d, v)
                | None => look EV m t = None /\ look EC m t = None
                end.
  (** [eigh] succeeds on every covariance *)
  Definition solvable (eigh : tensor -> res (tensor * tensor)) (C : tlog) : Prop := forall m t d, look C m t = Some d -> exists wv, eigh (snd d) = Ok wv.
  (** The covariances are [C]; their eigendecompositions are not computed yet, or were computed (or loaded) for [C];
      there are no corrected eigenvalues. *)
  Definition kfac_ready (eigh : tensor -> res (tensor * tensor)) (s : lstate) (C : tlog) : Prop :=
    holds s "covariance_state" C /\ dget "ekfac_eigval_state"%string (attrs s) = None /\
    ((dget "covariance_eigval_state"%string (attrs s) = None /\ dget "covariance_eigvec_state"%string (attrs s) = None /\
      ~ In "covariance_eigval_state"%string (st_states s) /\ ~ In "covariance_eigvec_state"%string (st_states s)) \/
     (exists EV EC, holds s "covariance_eigval_state" EV /\ holds s "covariance_eigvec_state" EC /\ decomposed eigh C EV EC)).
  Definition ident (i j : nat) : F := if i =? j then f1 else f0.
  (** the damping used for a covariance when none is given *)
  Definition own_damping (c : tensor) (d : option F) : F :=
    let n := nth 0 (shape c) 0 in
    match d with Some x => x | None => fdiv (fmul (fdiv f1 (fnat 10)) (sum n (fun i => mget c i i))) (fnat n) end.
  Definition inverted (inverse : tensor -> res tensor) (d : option F) (C IV : tlog) : Prop :=
    forall m t, match look C m t with
                | Some c => exists a b, inverse a = Ok b /\ look IV m t = Some (fst c, b) /\
                    (forall n, shape (snd c) = [n; n] -> shape a = [n; n] /\ twf a /\
                       forall i j, i < n -> j < n -> mget a i j = fadd (mget (snd c) i j) (fmul (own_damping (snd c) d) (ident i j)))
                | None => look IV m t = None
                end.
  (** The covariances are [C]; the damped inverses are not computed yet, or were computed with [d]. *)
  Definition raw_ready (inverse : tensor -> res tensor) (s : lstate) (C : tlog) (d : option F) : Prop :=
    holds s "covariance_state" C /\
    ((dget "covariance_inverse_state"%string (attrs s) = None /\ ~ In "covariance_inverse_state"%string (st_states s)) \/
     (exists IV, holds s "covariance_inverse_state" IV /\ inverted inverse d C IV)).

  (** For every sample, C_b P C_f + d P = G. *)
  Definition kron_solution (d : F) (cb cf p g : tensor) : Prop :=
    exists n a b, shape g = [n; a; b] /\ shape p = [n; a; b] /\ twf p /\
      forall k i j, k < n -> i < a -> j < b ->
        fadd (sum a (fun r => fmul (mget cb i r) (sum b (fun q => fmul (tget p [k; r; q]) (mget cf q j))))) (fmul d (tget p [k; i; j])) = tget g [k; i; j].
  (** For every sample, the flattened gradients satisfy p (C + d I) = g. *)
  Definition raw_solution (d : F) (c p g : tensor) : Prop :=
    exists n rest, shape g = n :: rest /\ shape p = n :: rest /\ twf p /\
      forall k j, k < n -> j < prod rest ->
        sum (prod rest) (fun q => fmul (nth q (data (slice p k)) f0) (fadd (mget c q j) (fmul d (ident q j)))) = nth j (data (slice g k)) f0.
  (** [inverse] succeeds on every damped covariance *)
  Definition invertible (inverse : tensor -> res tensor) (d : option F) (C : tlog) : Prop :=
    forall m t c, look C m t = Some c -> exists n, shape (snd c) = [n; n] /\
      forall a, shape a = [n; n] -> twf a -> (forall i j, i < n -> j < n -> mget a i j = fadd (mget (snd c) i j) (fmul (own_damping (snd c) d) (ident i j))) ->
        exists b, inverse a = Ok b.
  (** the default damping of KFAC: a tenth of the mean of the products of eigenvalues, i.e. of mean diagonal entries *)
  Definition mean_diag (c : tensor) : F := let n := nth 0 (shape c) 0 in fdiv (sum n (fun i => mget c i i)) (fnat n).
  Definition kron_damping (cb cf : tensor) : F := fmul (fdiv f1 (fnat 10)) (fmul (mean_diag cb) (mean_diag cf)).
  (** For every sample and every pair of eigenvectors, the component of [p] times (e + d) is the component of [g]. *)
  Definition eig_solution (d : F) (vb vf e p g : tensor) : Prop :=
    exists n a b, shape g = [n; a; b] /\ shape p = [n; a; b] /\ twf p /\
      forall k i j, k < n -> i < a -> j < b ->
        fmul (project vb vf i j (slice p k)) (fadd (mget e i j) d) = project vb vf i j (slice g k).
  (** The state with corrected eigenvalues [E] (one matrix per module) and eigenvectors [EC]; eigenvalues are present too. *)
  Definition ekfac_state (s : lstate) (C EC : tlog) (E : dict string dten) : Prop :=
    holds s "covariance_state" C /\ holds s "covariance_eigvec_state" EC /\ dget "covariance_eigval_state"%string (attrs s) <> None /\
    dget "ekfac_eigval_state"%string (attrs s) = Some (Node (map (fun q => (fst q, Leaf (VT (snd q)))) E)) /\ NoDup (dkeys E).
  Definition orthogonal (n : nat) (v : tensor) : Prop := shape v = [n; n] /\ forall i j, i < n -> j < n ->
    sum n (fun p => fmul (mget v p i) (mget v p j)) = ident i j /\ sum n (fun p => fmul (mget v i p) (mget v j p)) = ident i j.
  (** what preconditioning with corrected eigenvalues needs of a module whose gradients are on [dv] *)
  Definition ekfac_data (dv : dev) (EC : tlog) (E : dict string dten) (L : tlog) (m : string) : Prop :=
    exists n a b g vf vb x, grad_of L m = Some (dv, g) /\ shape g = [n; a; b] /\ twf g /\
      look EC m "forward" = Some vf /\ orthogonal b (snd vf) /\ look EC m "backward" = Some vb /\ orthogonal a (snd vb) /\
      dget m E = Some x /\ shape (snd x) = [a; b] /\ twf (snd x) /\ forall i j, i < a -> j < b -> fle f0 (mget (snd x) i j).
  (** the eigenvalues of the modules of [L] that are on [dv], increased by [d] *)
  Definition increased (d : F) (dv : dev) (L : tlog) (E : dict string dten) : dict string dten :=
    map (fun q => (fst q, if dev_eqb (fst (snd q)) dv && mem (fst q) (dkeys L) then (fst (snd q), tmap (fun e => fadd e d) (snd (snd q))) else snd q)) E.
  (** Which preconditioner [hessian] selects: "auto" asks whether the first module has a covariance of gradients. *)
  Definition auto_raw (C L : tlog) : bool := match dkeys L with m :: _ => match look C m "grad"%string with Some _ => true | None => false end | [] => false end.
  Definition picks_kfac (h : string) (C L : tlog) : Prop := h = "kfac"%string \/ (h = "auto"%string /\ L <> [] /\ auto_raw C L = false).
  Definition picks_raw (h : string) (C L : tlog) : Prop := h = "raw"%string \/ (h = "auto"%string /\ L <> [] /\ auto_raw C L = true).
  Definition covered (C L : tlog) : Prop := forall m, In m (dkeys L) -> In m (dkeys C).
  (** what KFAC needs of a module: gradients, and covariances of the matching sizes on one device *)
  Definition kfac_data (C L : tlog) (m : string) : Prop :=
    exists dv n a b g e cf cb, grad_of L m = Some (dv, g) /\ shape g = [n; a; b] /\ twf g /\
      look C m "forward" = Some (e, cf) /\ look C m "backward" = Some (e, cb) /\ symmetric b cf /\ psd b cf /\ symmetric a cb /\ psd a cb.
  (** what the raw preconditioner needs *)
  Definition raw_data (C L : tlog) (m : string) : Prop :=
    exists dv n rest g e c, grad_of L m = Some (dv, g) /\ shape g = n :: rest /\ twf g /\ n <> 0 /\
      look C m "grad" = Some (e, c) /\ shape c = [prod rest; prod rest].
  (** modules whose name contains the group name *)
  Definition in_group (g : string) (ms : list string) : list string := filter (contains g) ms.
  (** group names are distinct and not "total" *)
  Definition groups_ok (groups : option (list string)) : Prop := match groups with Some gs => NoDup ("total"%string :: gs) | None => True end.
  (** the result: one tensor, or "total" and one per group, over the modules of the group *)
  Definition final (acc : list string -> tensor) (groups : option (list string)) (ms : list string) : ival :=
    match groups with
    | None => Mat (acc ms)
    | Some gs => Grp (("total"%string, acc ms) :: map (fun g => (g, acc (in_group g ms))) gs)
    end.
  Definition groups_hit (groups : option (list string)) (ms : list string) : Prop :=
    match groups with Some gs => forall g, In g gs -> in_group g ms <> [] | None => True end.
  (** every module has 3-dimensional gradients of [n] samples on device [dv] *)
  Definition plain_log (dv : dev) (n : nat) (L : tlog) : Prop :=
    NoDup (dkeys L) /\ forall m, In m (dkeys L) -> exists a i j, grad_of L m = Some (dv, a) /\ shape a = [n; i; j] /\ twf a.
  (** the first tensor logged is a gradient *)
  Definition grad_first (L : tlog) : Prop := match log_keys L with (_, t) :: _ => t = "grad"%string | [] => False end.
  (** diagonals *)
  Definition diag (t : tensor) : tensor := tgen [nth 0 (shape t) 0] (fun x => mget t (ix 0 x) (ix 0 x)).
  Definition diagonal (v : ival) : ival := match v with Mat t => Mat (diag t) | Grp d => Grp (map (fun q => (fst q, diag (snd q))) d) end.
  (** column-wise combination with one number per target *)
  Definition by_column (f : F -> F -> F) (t norm : tensor) : tensor :=
    mgen (nth 0 (shape t) 0) (nth 1 (shape t) 0) (fun i j => f (mget t i j) (tget norm [j])).
  Definition combine (f : F -> F -> F) (v norm : ival) : ival :=
    match v, norm with
    | Mat t, Mat u => Mat (by_column f t u)
    | Grp d, Grp e => Grp (map (fun q => (fst q, by_column f (snd q) (match dget (fst q) e with Some u => u | None => T [] [] end))) d)
    | _, _ => v
    end.
  (** the modules of [A] are modules of [B] with gradients of the same shape, up to the number of samples *)
  Definition within (A B : tlog) : Prop :=
    forall m a, grad_of A m = Some a -> exists b, grad_of B m = Some b /\ tl (shape (snd b)) = tl (shape (snd a)).
  (** gradients under the same name have the same shape in both logs; [f] run in state [s] gives a log of the shapes of [A].
      Without preconditioning this always holds; preconditioning can only change a shape where a gradient or a covariance
      has a dimension of size one. *)
  Definition same_sizes (A P : tlog) : Prop := forall m a p, grad_of A m = Some a -> grad_of P m = Some p -> shape (snd p) = shape (snd a).
  Definition keeps_shapes (f : SM lstate (@glog F)) (A : tlog) (s : lstate) : Prop :=
    forall s1 ids P, f s = (s1, Ok (ids, Nest (log_nd P))) -> same_sizes A P.
  Definition all_on (dv : dev) (L : tlog) : Prop := Forall (fun p => Forall (fun q => fst (snd q) = dv) (snd p)) L.
  (** sample [k] of module [m] has a zero gradient *)
  Definition zero_grad (L : tlog) (m : string) (k : nat) : Prop :=
    exists a, grad_of L m = Some a /\ forall x, In x (data (slice (snd a) k)) -> x = f0.
  (** self-influence of every sample over the modules of every group is >= 0, and 0 exactly for zero gradients *)
  Definition positive_form (L : tlog) (n : nat) (t : list string -> tensor) : Prop :=
    forall l k, incl l (dkeys L) -> k < n -> shape (t l) = [n] /\ fle f0 (tget (t l) [k]) /\ (tget (t l) [k] = f0 <-> forall m, In m l -> zero_grad L m k).
  (** every module name contains exactly one of the group names *)
  Definition one_group (gs ms : list string) : Prop :=
    forall m, In m ms -> exists g, In g gs /\ contains g m = true /\ forall g', In g' gs -> contains g' m = true -> g' = g.
  (** [k] samples from number [off] on, of a tensor and of a log; a loader that delivers batches of sizes [ks] *)
  Definition rows (off k : nat) (t : tensor) : tensor :=
    let w := prod (tl (shape t)) in T (k :: tl (shape t)) (firstn (k * w) (skipn (off * w) (data t))).
  Definition part (off k : nat) (L : tlog) : tlog :=
    map (fun p => (fst p, map (fun q => (fst q, (fst (snd q), rows off k (snd (snd q))))) (snd p))) L.
  Fixpoint batches (off : nat) (ks : list nat) (ids : list string) (L : tlog) : list (@glog F) :=
    match ks with
    | [] => []
    | k :: r => (firstn k (skipn off ids), Nest (log_nd (part off k L))) :: batches (off + k) r ids L
    end.
  (** batch sizes of a loader over [n] > 0 samples *)
  Definition splits (ks : list nat) (n : nat) : Prop := ks <> [] /\ Forall (fun k => k <> 0) ks /\ fold_right Nat.add 0 ks = n.
  (** [t] has, for each of [n] samples, the gradients of the modules [ms] one after the other *)
  Definition entries (L : tlog) (i : nat) (m : string) : list F := match grad_of L m with Some g => data (slice (snd g) i) | None => [] end.
  Definition entry_count (L : tlog) (m : string) : nat := match grad_of L m with Some g => prod (tl (shape (snd g))) | None => 0 end.
  Definition flattened (n : nat) (L : tlog) (ms : list string) (t : tensor) : Prop :=
    shape t = [n; list_sum (map (entry_count L) ms)] /\ twf t /\ forall i, i < n -> data (slice t i) = concat (map (entries L i) ms).
  (** the watched paths recorded in the state *)
  Definition watched (s : lstate) (path : list (string * string)) : Prop :=
    exists d, dget "model_module"%string (attrs s) = Some (Node d) /\ dget "path"%string d = Some (Leaf (VPath path)).
  (** what a caller sees in a result object *)
  Definition view (f : @ifn F) (o : @robj F) : @infres F :=
    InfRes (nth (o_src o) (h_lists f) []) (nth (o_tgt o) (h_lists f) [])
           (match o_val o with OMat t => Mat t | ODict l => Grp (nth l (h_dicts f) []) end).
  (** a result object all of whose parts are allocated *)
  Definition obj_ok (f : @ifn F) (o : @robj F) : Prop :=
    o_src o < length (h_lists f) /\ o_tgt o < length (h_lists f) /\ o_src o <> o_tgt o /\ match o_val o with OMat _ => True | ODict l => l < length (h_dicts f) end.
  (** tensors stacked along the first dimension *)
  Definition stack (ts : list tensor) : tensor :=
    T (list_sum (map (fun t => hd 0 (shape t)) ts) :: tl (shape (hd (T [] []) ts))) (concat (map data ts)).
  Definition entry (k : string) (d : dict string tensor) : tensor := match dget k d with Some t => t | None => T [] [] end.
  (** [v] has the rows of all the results [rs], for the total or for every group *)
  Definition stacked (rs : list (@infres F)) (v : @ival F) : Prop :=
    (exists ts, map i_val rs = map Mat ts /\ v = Mat (stack ts)) \/
    (exists d ds, map i_val rs = map Grp (d :: ds) /\ v = Grp (map (fun q => (fst q, stack (map (entry (fst q)) (d :: ds)))) d)).
  (** why the result [w] cannot be appended to the saved value [v] *)
  Definition clash (v w : @ival F) : option exn :=
    match v, w with
    | Mat u, Mat t => if same_shape (tl (shape u)) (tl (shape t)) then None else Some RuntimeError
    | Mat _, Grp _ => Some AttributeError
    | Grp _, Mat _ => Some TypeError
    | Grp _, Grp _ => None
    end.
End Spec.
(** calls of [compute_influence_all] *)
Record icall {F} := ICall { ic_src : @glog F; ic_loader : list (@glog F); ic_mode : string; ic_prec : bool; ic_hessian : string; ic_groups : option (list string); ic_damping : option F }.
Arguments icall : clear implicits.
Section Calls.
  Context {F : Type} `{OField F}.
  Variable eigh : tensor F -> res (tensor F * tensor F).
  Variable inverse : tensor F -> res (tensor F).
  Variable fsqrt : F -> F.
  Definition call_all (save : bool) (c : icall F) : SM (@ifn F) (option (@robj F)) :=
    compute_influence_all eigh inverse fsqrt (ic_src c) (ic_loader c) (ic_mode c) (ic_prec c) save (ic_hessian c) (ic_groups c) (ic_damping c).
  Definition call_value (c : icall F) : SM (@lstate F) (option (@infres F)) :=
    influence_all eigh inverse fsqrt (ic_src c) (ic_loader c) (ic_mode c) (ic_prec c) (ic_hessian c) (ic_groups c) (ic_damping c).
  Fixpoint calls_all (cs : list (icall F)) : SM (@ifn F) (list (option (@robj F))) :=
    match cs with [] => sret [] | c :: r => let! o := call_all true c in let! os := calls_all r in sret (o :: os) end.
  Fixpoint calls_value (cs : list (icall F)) : SM (@lstate F) (list (option (@infres F))) :=
    match cs with [] => sret [] | c :: r => let! o := call_value c in let! os := calls_value r in sret (o :: os) end.
  (** the state after [k] preconditionings of the log [L] *)
  Definition after (k : nat) ids (L : @tlog F) (d : F) h (s : @lstate F) : @lstate F := Nat.iter k (fun s => fst (precondition eigh inverse (ids, Nest (log_nd L)) (Some d) h s)) s.
End Calls.
