(** Specification vocabulary: logs of tensors that are written to disk and read back. *)
From Coq Require Import ZArith.
From Verif Require Import Py PyStr Field Tensor ModelGrad ModelState ModelMmap ModelSaver ModelLogger ModelInfluence SpecGrad SpecState SpecInfluence SpecRows.
Local Open Scope string_scope.
Local Open Scope list_scope.
Local Open Scope nat_scope.

Section Spec.
  Context {F : Type} `{OField F}.
  (** An element type: every number has a representation of fixed size, and the numbers in [exact] are read back as they
      were. Tensors read from disk are on the CPU. *)
  Record codec (dt : dtype) (e : F -> list byte) (exact : F -> Prop) (enc : @dten F -> array) (dec : array -> @dten F) : Prop := {
    cd_size : forall x, length (e x) = itemsize dt;
    cd_real : dt <> BF16;
    cd_enc : forall d, enc d = Arr (shape (snd d)) dt (concat (map e (data (snd d))));
    cd_dec : forall sh l, Forall exact l -> dec (Arr sh dt (concat (map e l))) = (Cpu, T sh l) }.
  (** every module of [ms] has a gradient of [n] samples that is read back exactly; other entries may be present *)
  Definition storable (exact : F -> Prop) (ms : list string) (n : nat) (M : @tlog F) : Prop :=
    uniform n M /\ ok_log M /\
    forall m, In m ms -> exists d t k rest, look M m "grad" = Some (d, t) /\ shape t = n :: k :: rest /\ 0 < prod (k :: rest) /\ Forall exact (data t).
  (** what is read back: the gradients of [ms] *)
  Definition regrad (ms : list string) (M : @tlog F) : @tlog F :=
    map (fun m => (m, [("grad", (Cpu, match look M m "grad" with Some x => snd x | None => T [] [] end))])) ms.
End Spec.
