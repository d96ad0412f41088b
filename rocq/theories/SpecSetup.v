(** Specification vocabulary for the lists in the option dictionary. *)
From Verif Require Import Py PyStr ModelLogger SpecLogger.
Local Open Scope string_scope.
Local Open Scope list_scope.

(** the elements before the first unknown one became classes *)
Definition rewritten (l l' : list parg) : Prop :=
  exists pre pre' post, l = pre ++ post /\ l' = pre' ++ post /\
    Forall2 (fun a b => exists p, known a = Some p /\ b = AClass p) pre pre' /\
    (post = [] \/ exists a r, post = a :: r /\ known a = None).
(** the phases that setup() reaches *)
Definition reached (kw : okwargs) (k : string) : Prop :=
  k = "forward" \/ (k = "backward" /\ all_known (kw_get "forward" kw)) \/
  (k = "grad" /\ all_known (kw_get "forward" kw) /\ all_known (kw_get "backward" kw)).
