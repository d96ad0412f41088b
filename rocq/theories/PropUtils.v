(** C58 and C59: data ids (logix/utils.py). *)
From Verif Require Import Py PyStr Monad ModelUtils SpecUtils UtilsProofs.
Local Open Scope string_scope.
Local Open Scope list_scope.
Local Open Scope nat_scope.

(** C58. Index ids over the lifetime of a generator, failing calls included. *)
Theorem C58_index_consecutive hash ro l e : called hash "index" ro l e ->
  handed l = map dec (seq 0 (length (handed l))) /\ NoDup (handed l) /\ snd e = ro.
Proof. exact (index_consecutive hash ro l e). Qed.
Print Assumptions C58_index_consecutive.
Theorem C58_index_call hash ro l e d : called hash "index" ro l e ->
  (forall n, d_len d = Some n -> exists e', gen_call hash d e = (e', Ok (map dec (seq (length (handed l)) n)))) /\
  (d_len d = None -> gen_call hash d e = (e, Err TypeError)).
Proof. exact (index_call hash ro l e d). Qed.
Print Assumptions C58_index_call.
Theorem C58_other_mode hash mode ro l e d : called hash mode ro l e -> mode <> "hash" -> mode <> "index" -> gen_call hash d e = (e, Err ValueError).
Proof. exact (other_mode hash mode ro l e d). Qed.
Print Assumptions C58_other_mode.
Example C58_example :
  let hash := fun b => b in
  let d2 := Data None (Some 2) in let none := Data (Some [DOther]) None in let d3 := Data (Some [DOther; DOther; DOther]) (Some 3) in
  exists l e, called hash "index" [7] l e /\ length l = 3 /\ handed l = ["0"; "1"; "2"; "3"; "4"] /\ e = (Gen "index" (Some 5), [7]) /\ gen_call hash none e = (e, Err TypeError).
Proof.
  cbv zeta. eexists _, _. split.
  - eapply called_next with (d := Data (Some [DOther; DOther; DOther]) (Some 3)); [eapply called_next with (d := Data (Some [DOther]) None); [eapply called_next with (d := Data None (Some 2)); [apply called_new|]|]|]; reflexivity.
  - repeat split.
Qed.

(** C59. Hash ids: any hash function. NumPy arrays that were hashed are read-only afterwards. *)
Theorem C59_hash_good hash ro l e d it : called hash "hash" ro l e -> d_items d = Some it -> (forall x, In x it -> exists b, content x b) ->
  exists bs e', Forall2 content it bs /\ gen_call hash d e = (e', Ok (map hash bs)) /\ (forall o, In o (snd e') <-> In o (snd e) \/ numpy_in o it).
Proof. exact (hash_good hash ro l e d it). Qed.
Print Assumptions C59_hash_good.
Theorem C59_hash_content hash ro l e d ids e1 ro' l' e' d' ids' e1' it it' i j x y b b' :
  called hash "hash" ro l e -> called hash "hash" ro' l' e' -> gen_call hash d e = (e1, Ok ids) -> gen_call hash d' e' = (e1', Ok ids') ->
  d_items d = Some it -> d_items d' = Some it' -> nth_error it i = Some x -> nth_error it' j = Some y -> content x b -> content y b' ->
  exists a a', nth_error ids i = Some a /\ nth_error ids' j = Some a' /\ (a = a' <-> hash b = hash b').
Proof. exact (hash_content hash ro l e d ids e1 ro' l' e' d' ids' e1' it it' i j x y b b'). Qed.
Print Assumptions C59_hash_content.
Theorem C59_hash_bad hash ro l e d l1 x l2 : called hash "hash" ro l e -> d_items d = Some (l1 ++ x :: l2) -> (forall x, In x l1 -> exists b, content x b) -> (forall b, ~ content x b) ->
  exists e', gen_call hash d e = (e', Err (match x with DOther => ValueError | _ => TypeError end)) /\ (forall o, In o (snd e') <-> In o (snd e) \/ numpy_in o l1).
Proof. exact (hash_bad hash ro l e d l1 x l2). Qed.
Print Assumptions C59_hash_bad.
Theorem C59_hash_no_iter hash ro l e d : called hash "hash" ro l e -> d_items d = None -> gen_call hash d e = (e, Err TypeError).
Proof. exact (hash_no_iter hash ro l e d). Qed.
Print Assumptions C59_hash_no_iter.
(** an array and a tensor with the same bytes get the same id; a bfloat16 tensor raises after the array before it was frozen *)
Example C59_example :
  let hash := fun b : string => ("h" ++ b)%string in
  let e := (new_gen "hash", [] : list nat) in
  let d := Data (Some [DNumpy 4 "ab"; DTorch (Some "ab"); DTorch (Some "c")]) (Some 3) in
  let bad := Data (Some [DNumpy 5 "x"; DTorch None; DNumpy 6 "y"]) (Some 3) in
  called hash "hash" [] [] e /\ gen_call hash d e = ((new_gen "hash", [4]), Ok ["hab"; "hab"; "hc"]) /\ (forall x, In x [DNumpy 4 "ab"; DTorch (Some "ab"); DTorch (Some "c")] -> exists b, content x b) /\
  gen_call hash bad e = ((new_gen "hash", [5]), Err TypeError) /\ (forall b, ~ content (DTorch None) b) /\
  gen_call hash (Data (Some [DOther]) (Some 1)) e = (e, Err ValueError).
Proof.
  cbv zeta. split; [constructor|]. split; [reflexivity|]. split; [intros x [<-|[<-|[<-|[]]]]; eexists; constructor|]. split; [reflexivity|]. split; [intros b C; inversion C|reflexivity].
Qed.
