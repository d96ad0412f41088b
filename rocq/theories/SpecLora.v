(** Specification vocabulary for module trees and LoRA. *)
From Verif Require Import Py PyStr Field Tensor ModelGrad Monad ModelState ModelMmap ModelSaver ModelLogger ModelModules ModelLora.
Local Open Scope nat_scope.

(** [u] is [t] or one of its descendants. *)
Inductive below (u : mtree) : mtree -> Prop :=
| below_refl : below u u
| below_kid t key c : In (key, c) (t_kids t) -> below u c -> below u t.

(** Module trees: attribute names are distinct and not empty, one object has one content, numbers below [n] are used. *)
Record tree_ok (root : mtree) (n : nat) : Prop := {
  ok_keys : forall u, below u root -> NoDup (map fst (t_kids u)) /\ ~ In ""%string (map fst (t_kids u));
  ok_same : forall u v, below u root -> below v root -> t_id u = t_id v -> u = v;
  ok_ids : forall u, below u root -> t_id u < n /\ forall p, In p (t_params u) -> p < n
}.

(** The tree with the children at some (parent, attribute) slots replaced. *)
Fixpoint replace_kids (f : mid -> string -> option mtree) (t : mtree) : mtree :=
  match t with
  | MT id k cls ps kids =>
      MT id k cls ps (map (fun nc => (fst nc, match f id (fst nc) with Some l => l | None => replace_kids f (snd nc) end)) kids)
  end.

(** A leaf that passes the filters: a layer of a supported class, of one of the classes of the type filter if there is
    one, with one of the keywords of the name filter in its name if there is one. *)
Definition substring (k s : string) : Prop := exists a b, s = (a ++ k ++ b)%string.
Definition layer (t : mtree) : Prop :=
  t_kids t = [] /\ match t_kind t with KLinear _ _ | KConv1d | KConv2d _ => True | _ => False end.
Definition instance (t : mtree) (c : fclass) : Prop :=
  match c with
  | FLinear => exists i o, t_kind t = KLinear i o
  | FConv1d => t_kind t = KConv1d
  | FConv2d => exists g, t_kind t = KConv2d g
  | FEmbedding => t_kind t = KEmbedding
  | FUser n => In n (t_cls t)
  end.
Definition passes (tf : option (list fclass)) (nf : option (list string)) (name : string) (t : mtree) : Prop :=
  layer t /\
  (match tf with Some (c :: l) => exists c', In c' (c :: l) /\ instance t c' | _ => True end) /\
  (match nf with Some (k :: l) => exists k', In k' (k :: l) /\ substring k' name | _ => True end).

(** [path t l u]: following the attribute names [l] from [t] leads to [u]. *)
Inductive path : mtree -> list string -> mtree -> Prop :=
| path_here t : path t [] t
| path_step t k c l u : In (k, c) (t_kids t) -> path c l u -> path t (k :: l) u.
(** the dotted name *)
Definition dots (l : list string) : string := String.concat "." l.

(** The LoRA module around layer [t] with bottleneck [b]; new objects are [n], [a], [c]. *)
Definition lora_around (rank : nat) (t b : mtree) (n a c : mid) : mtree :=
  match t_kind t with
  | KConv2d g =>
      let r := min rank (min (c_in g) (c_out g)) in
      MT n KOther [] []
        [("logix_lora_A", MT a (KConv2d (Conv (c_in g) r (c_kh g) (c_kw g) (c_sh g) (c_sw g) (c_ph g) (c_pw g) 1 1 1)) [] [a] []);
         ("logix_lora_B", b);
         ("logix_lora_C", MT c (KConv2d (Conv r (c_out g) 1 1 1 1 0 0 1 1 1)) [] [c] []); ("_conv", t)]%string
  | KLinear i o =>
      let r := min rank (min i o) in
      MT n KOther [] []
        [("logix_lora_A", MT a (KLinear i r) [] [a] []); ("logix_lora_B", b);
         ("logix_lora_C", MT c (KLinear r o) [] [c] []); ("_linear", t)]%string
  | _ => t
  end.
(** the layers share a bottleneck: no groups, or a group keyword that occurs in both names *)
Definition same_group (groups : option (list string)) (n1 n2 : string) : Prop :=
  match groups with None => True | Some gs => exists g, In g gs /\ substring g n1 /\ substring g n2 end.
Definition same_class (t u : mtree) : Prop :=
  match t_kind t, t_kind u with KLinear _ _, KLinear _ _ | KConv2d _, KConv2d _ => True | _, _ => False end.
(** exactly one group keyword occurs in the name *)
Definition one_group (groups : option (list string)) (name : string) : Prop :=
  match groups with
  | None => True
  | Some gs => exists l g r, gs = l ++ g :: r /\ substring g name /\ forall g', In g' (l ++ r) -> ~ substring g' name
  end.
(** the layer can be wrapped *)
Definition wrappable (groups : option (list string)) (i : item) : Prop :=
  t_kind (i_mod i) <> KConv1d /\ one_group groups (i_name i).
(** no attribute name looks like a bottleneck *)
Definition plain (root : mtree) : Prop := forall u k c, below u root -> In (k, c) (t_kids u) -> ~ substring "logix_lora_B" k.
(** attribute names contain no dots *)
Definition undotted (root : mtree) : Prop := forall u k c, below u root -> In (k, c) (t_kids u) -> ~ substring "." k.
(** the path runs through an attribute named like LoRA's *)
Definition lora_named (ks : list string) : Prop := exists k, In k ks /\ substring "logix_lora" k.
(** the second model has modules at the same places and shares them at most where the first one does *)
Definition alike (r1 r2 : mtree) : Prop :=
  (forall ks, (exists u, path r1 ks u) <-> (exists v, path r2 ks v)) /\
  (forall ks ks' u u' v v', path r1 ks u -> path r1 ks' u' -> path r2 ks v -> path r2 ks' v' -> t_id v = t_id v' -> t_id u = t_id u').
(** A square bottleneck of a layer like [t]. *)
Definition bottleneck (t : mtree) (r : nat) (b : mid) : mtree :=
  match t_kind t with
  | KConv2d _ => MT b (KConv2d (Conv r r 1 1 1 1 0 0 1 1 1)) [] [b] []
  | _ => MT b (KLinear r r) [] [b] []
  end.
Definition width (t : mtree) : nat :=
  match t_kind t with KLinear i o => min i o | KConv2d g => min (c_in g) (c_out g) | _ => 0 end.

(** a filter argument counts only if it is not missing and not empty *)
Definition chosen {A} (arg stored : option (list A)) : option (list A) :=
  match arg with Some (_ :: _) => arg | _ => stored end.
(** the LoRA configuration in force: the first one the handler saw *)
Definition in_use (handler cfg : option lora_cfg) (dflt : lora_cfg) : lora_cfg :=
  match handler with Some h => h | None => match cfg with Some c => c | None => dflt end end.
(** the root's modules by name, selected by the filters *)
Definition selected (tf : option (list fclass)) (nf : option (list string)) (root : mtree) (i : item) : Prop :=
  In i (named_modules root) /\ passes tf nf (i_name i) (i_mod i).
(** sharing is harmless: no selected layer is narrower than the rank and groups do not mix classes *)
Definition shareable (h : lora_cfg) (tf : option (list fclass)) (nf : option (list string)) (root : mtree) : Prop :=
  lc_share h = true -> forall i j, selected tf nf root i -> selected tf nf root j ->
  lc_rank h <= width (i_mod i) /\ (same_group (lc_groups h) (i_name i) (i_name j) -> same_class (i_mod i) (i_mod j)).

Section Spec.
  Context {F : Type} `{OField F}.
  Notation tensor := (tensor F).
  Notation weights := (dict mid (tensor * option tensor)).
  (** shape of a layer's weight *)
  Definition weight_shape (t : mtree) : list nat :=
    match t_kind t with
    | KLinear i o => [o; i]
    | KConv2d g => [c_out g; c_in g / c_groups g; c_kh g; c_kw g]
    | _ => []
    end.
  (** the weights of the linear and two-dimensional convolution layers have the shapes the layers say *)
  Definition layer_weights (w : weights) (root : mtree) : Prop :=
    forall u, below u root -> t_kids u = [] ->
    match t_kind u with
    | KLinear _ _ | KConv2d _ => exists v b, dget (t_id u) w = Some (v, b) /\ shape v = weight_shape u
    | _ => True
    end.
  (** the user's forward methods use the children only by calling them *)
  Definition calls_only (usr : mid -> list (string * (tensor -> res tensor)) -> tensor -> res tensor) : Prop :=
    forall id l l', Forall2 (fun p q => fst p = fst q /\ forall x, snd p x = snd q x) l l' -> forall x, usr id l x = usr id l' x.
  (** convolutions without dilation *)
  Definition undilated (t : mtree) : Prop := match t_kind t with KConv2d g => c_dh g = 1 /\ c_dw g = 1 | _ => True end.
  (** [f] gives the LoRA modules of exactly the selected layers: new, different objects numbered from [n0] to [n1], with
      a zero square bottleneck, the layer's own one or that of its group. *)
  Record wrapped (h : lora_cfg) (tf : option (list fclass)) (nf : option (list string)) (root : mtree) (n0 n1 : nat)
    (w : weights) (f : mid -> string -> option mtree) : Prop := {
    wp_layer : forall i, selected tf nf root i -> exists b n a c,
      f (i_parent i) (i_key i) = Some (lora_around (lc_rank h) (i_mod i) b n a c) /\
      NoDup [n; a; c; t_id b] /\ (forall x, In x [n; a; c; t_id b] -> n0 <= x < n1) /\
      dget (t_id b) w = Some (tzeros (weight_shape b), None) /\
      (lc_share h = false -> b = bottleneck (i_mod i) (min (lc_rank h) (width (i_mod i))) (t_id b)) /\
      (lc_share h = true -> exists j, selected tf nf root j /\ same_group (lc_groups h) (i_name i) (i_name j) /\
                                      b = bottleneck (i_mod j) (lc_rank h) (t_id b));
    wp_only : forall p k l, f p k = Some l -> exists i, selected tf nf root i /\ i_parent i = p /\ i_key i = k;
    wp_apart : forall i j b n a c b' n' a' c', selected tf nf root i -> selected tf nf root j -> i <> j ->
      f (i_parent i) (i_key i) = Some (lora_around (lc_rank h) (i_mod i) b n a c) ->
      f (i_parent j) (i_key j) = Some (lora_around (lc_rank h) (i_mod j) b' n' a' c') ->
      (forall x, In x [n; a; c] -> ~ In x [n'; a'; c']) /\
      (t_id b = t_id b' <-> lc_share h = true /\ same_group (lc_groups h) (i_name i) (i_name j))
  }.
  (** parameters of the same shapes *)
  Definition same_form (p q : option (tensor * option tensor)) : Prop :=
    match p, q with
    | Some (v, b), Some (v', b') =>
        shape v = shape v' /\ match b, b' with Some x, Some y => shape x = shape y | None, None => True | _, _ => False end
    | None, None => True
    | _, _ => False
    end.
  (** one of several calls of add_lora: watch, clear, filters and configuration *)
  Definition lora_call : Type := bool * bool * option (list fclass) * option (list string) * option lora_cfg.
  Definition run_lora (rnd : mid -> list nat -> F) (svd : tensor -> res tensor) (a : lora_call) : SM (@lm F) unit :=
    let '(w, c, tf, nf, cfg) := a in lm_add_lora rnd svd w c tf nf None cfg.
End Spec.
