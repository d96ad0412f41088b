(** Specification vocabulary for gradients with a dimension of size one, which tensor operations repeat. *)
From Verif Require Import Py PyStr Field Tensor ModelGrad Monad ModelState ModelInfluence SpecGrad SpecState SpecInfluence.
Local Open Scope nat_scope.

Section Spec.
  Context {F : Type} `{OField F}.
  Notation tensor := (tensor F).
  Notation tlog := (@tlog F).

  (** the position read in a dimension of size [n] at position [i] of the repeated dimension *)
  Definition spot (n i : nat) : nat := if n =? 1 then 0 else i.
  (** a dimension of size [a] can be repeated to size [b] *)
  Definition grows (a b : nat) : Prop := a = b \/ a = 1.
  (** two sizes can be brought to one size, which is the larger unless one of them is 0 *)
  Definition meets (a b : nat) : Prop := a = b \/ a = 1 \/ b = 1.
  Definition joint (a b : nat) : nat := if a =? 1 then b else a.
  (** module [m] has gradients of [rn m] samples in [A] and [rk m] samples in [B] *)
  Definition spread_pairs (dv : dev) (rn rk : string -> nat) (A B : tlog) : Prop := forall m, In m (dkeys A) -> paired_grads dv (rn m) (rk m) A B m.
  (** the score of source [i] and target [j] with one-row modules repeated *)
  Definition spread_score (rn rk : string -> nat) (A B : tlog) (ms : list string) (i j : nat) : F :=
    lsum (map (fun m => gdot A B (spot (rn m) i) (spot (rk m) j) m) ms).
  (** module [m] has 3-dimensional gradients of [rn m] samples, in [P] of possibly other sizes *)
  Definition spread_twin (dv : dev) (n : nat) (L P : tlog) (m : string) : Prop :=
    exists a p i j i' j', grad_of L m = Some (dv, a) /\ grad_of P m = Some (dv, p) /\ shape a = [n; i; j] /\ shape p = [n; i'; j'] /\ meets i i' /\ meets j j'.
  (** the product of a sample in [L] with the same sample in [P], the smaller repeated to the larger *)
  Definition spread_dot (L P : tlog) (x : nat) (m : string) : F :=
    match grad_of L m, grad_of P m with
    | Some a, Some p =>
        match shape (snd a), shape (snd p) with
        | [_; i; j], [_; i'; j'] => sum (joint i i') (fun u => sum (joint j j') (fun v =>
            fmul (tget (snd a) [x; spot i u; spot j v]) (tget (snd p) [x; spot i' u; spot j' v])))
        | _, _ => f0
        end
    | _, _ => f0
    end.
  (** a gradient brought to the sizes of the covariances: size one is repeated, and a dimension is summed up where the
      covariance has size one *)
  Definition lines (a b i : nat) : list nat := if b =? 1 then seq 0 a else [spot a i].
  Definition fitted (b b' : nat) (g : tensor) : tensor :=
    match shape g with
    | [n; a; a'] => tgen [n; b; b'] (fun x => lsum (map (fun u => lsum (map (fun v => tget g [ix 0 x; u; v]) (lines a' b' (ix 2 x)))) (lines a b (ix 1 x))))
    | _ => g
    end.
  Definition fitted_log (C L : tlog) : tlog :=
    map (fun p => (fst p, map (fun q => (fst q, match look C (fst p) "backward"%string, look C (fst p) "forward"%string with
      | Some cb, Some cf => (fst (snd q), fitted (nth 0 (shape (snd cb)) 0) (nth 0 (shape (snd cf)) 0) (snd (snd q)))
      | _, _ => snd q
      end)) (snd p))) L.
  (** what KFAC needs of a module, up to dimensions of size one *)
  Definition kfac_spread (C L : tlog) (m : string) : Prop :=
    exists dv n a b a' b' g e cf cb, grad_of L m = Some (dv, g) /\ shape g = [n; a'; b'] /\ meets a' a /\ meets b' b /\
      look C m "forward"%string = Some (e, cf) /\ look C m "backward"%string = Some (e, cb) /\ symmetric b cf /\ symmetric a cb.
End Spec.
