(** What the statements about reads of logs refer to. *)
From Verif Require Import Py PyStr Field Tensor ModelGrad Monad ModelState ModelInfluence ModelReads SpecInfluence.
Local Open Scope nat_scope.

Section SpecReads.
  Context {F : Type} `{OField F}.
  Notation sval := (@sval F).
  Notation dten := (@dten F).
  Notation world := (@world F).

  (** the log [r] of the world has the tensors [L]; [live]: as a default dictionary *)
  Definition stands (w : world) (r : nat) (live : bool) (L : @tlog F) : Prop := nth_error (w_logs w) r = Some (live, log_nd L).
  (** the log with every tensor on one device *)
  Definition placed (dv : dev) (L : @tlog F) : @tlog F := map (fun p => (fst p, map (fun q => (fst q, (dv, snd (snd q)))) (snd p))) L.
  (** every other log is as it was *)
  Definition others_kept (w w' : world) (rs : list nat) : Prop :=
    forall r x, ~ In r rs -> nth_error (w_logs w) r = Some x -> nth_error (w_logs w') r = Some x.
  (** log [r] is a dictionary with a module whose gradient is no tensor, and in which some entry is an empty dictionary *)
  Definition spoiled (w : world) (r : nat) : Prop :=
    exists b d m e k, nth_error (w_logs w) r = Some (b, Node d) /\ dget m d = Some (Node e) /\
      (forall t, dget "grad" e <> Some (Leaf t)) /\ dget k e = Some (Node []).
  (** the dictionary [L] after [L[m][t]] has been read and was missing *)
  Definition with_hole (L : @tlog F) (m t : string) : nd sval :=
    Node (dset m (Node (map (fun q => (fst q, Leaf (VT (snd q)))) (match dget m L with Some e => e | None => [] end) ++ [(t, Node [])]))
            (map (fun p => (fst p, Node (map (fun q => (fst q, Leaf (VT (snd q)))) (snd p)))) L)).
  (** no preconditioning takes place: it was not asked for, or some layer of the log has no covariance *)
  Definition skips (prec : bool) (h : string) (s : @lstate F) (A : @tlog F) : Prop :=
    prec = false \/ (In h ["auto"; "kfac"; "raw"]%string /\ exists C, dget "covariance_state" (attrs s) = Some (log_nd C) /\ ~ covered C A).
End SpecReads.
