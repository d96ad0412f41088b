(** Results for some of the source samples. *)
From Verif Require Import Py PyStr Field Tensor ModelGrad Monad ModelState ModelInfluence SpecGrad SpecState SpecInfluence.
Local Open Scope string_scope.
Local Open Scope list_scope.
Local Open Scope nat_scope.

(** Parts of results: rows of every score matrix. *)
Section Rows.
  Context {F : Type} `{OField F}.
  Definition rows_val (off k : nat) (v : @ival F) : @ival F :=
    match v with Mat t => Mat (rows off k t) | Grp d => Grp (map (fun q => (fst q, rows off k (snd q))) d) end.
  Definition rows_of (off k : nat) (r : @infres F) : @infres F := InfRes (firstn k (skipn off (i_src r))) (i_tgt r) (rows_val off k (i_val r)).
  (** all tensors of the log have [n] samples *)
  Definition uniform (n : nat) (L : @tlog F) : Prop := forall m t x, look L m t = Some x -> exists r, shape (snd x) = n :: r /\ twf (snd x).
End Rows.
(** States without corrected eigenvalues, and what influence calls do to them. *)
Section Plain.
  Context {F : Type} `{OField F}.
  Record plain_state (s : @lstate F) : Prop := {
    pl_noek : hasattr "ekfac_eigval_state" s = false;
    pl_pair : hasattr "covariance_eigval_state" s = hasattr "covariance_eigvec_state" s;
    pl_reg : forall a, mem a (st_states s) = true -> hasattr a s = true;
    pl_two : forall ev m t, dget "covariance_eigval_state" (attrs s) = Some ev -> nd_item ev m <> Ok (Leaf (VT t)) }.
  (** attributes are kept; only the caches may be new *)
  Definition extends (s s1 : @lstate F) : Prop :=
    forall a, (hasattr a s = true -> dget a (attrs s1) = dget a (attrs s)) /\
              (mem a ["covariance_inverse_state"; "covariance_eigval_state"; "covariance_eigvec_state"] = false -> dget a (attrs s1) = dget a (attrs s)).
  (** the same result whenever it is asked for again *)
  Definition stable {A} (m : SM (@lstate F) A) : Prop :=
    forall s s1 r, plain_state s -> m s = (s1, r) ->
      plain_state s1 /\ extends s s1 /\ forall y, r = Ok y -> forall s2, extends s1 s2 -> m s2 = (s2, Ok y).
End Plain.
(** the saved scores, as a caller sees them *)
Definition saved {F} `{OField F} (f : @ifn F) (w : @infres F) : Prop := exists a, if_scores f = Some a /\ obj_ok f a /\ view f a = w.
(** Everything one can ask about influence, and the answers; a question may fail. *)
Section Queries.
  Context {F : Type} `{OField F}.
  Inductive query :=
  | QPre (log : @glog F) (d : option F) (h : string)
  | QInf (src tgt : @glog F) (mode : string) (prec : bool) (h : string) (groups : option (list string)) (d : option F)
  | QSelf (log : @glog F) (prec : bool) (h : string) (groups : option (list string)) (d : option F)
  | QAll (src : @glog F) (loader : list (@glog F)) (mode : string) (prec : bool) (h : string) (groups : option (list string)) (d : option F).
  Inductive answer := APre (log : @glog F) | AInf (r : @infres F) | ASelf (r : list string * @ival F) | AAll (r : option (@infres F)).
  Variable eigh : tensor F -> res (tensor F * tensor F).
  Variable inverse : tensor F -> res (tensor F).
  Variable fsqrt : F -> F.
  Definition ask (q : query) : SM (@lstate F) answer :=
    match q with
    | QPre log d h => let! r := precondition eigh inverse log d h in sret (APre r)
    | QInf src tgt mode prec h groups d => let! r := compute_influence eigh inverse fsqrt src tgt mode prec h groups d in sret (AInf r)
    | QSelf log prec h groups d => let! r := compute_self_influence eigh inverse log prec h groups d in sret (ASelf r)
    | QAll src loader mode prec h groups d => let! r := influence_all eigh inverse fsqrt src loader mode prec h groups d in sret (AAll r)
    end.
  (** the state after some questions, answered or not *)
  Definition asked (qs : list query) (s : @lstate F) : @lstate F := fold_left (fun s q => fst (ask q s)) qs s.
End Queries.
