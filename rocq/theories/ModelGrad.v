(** Model of /repo/logix/logging/utils.py and /repo/logix/statistic/utils.py over exact scalars.
    einops and torch errors are RuntimeError. *)
From Verif Require Import Py Field Tensor.
Local Open Scope nat_scope.

(** Geometry of an nn.Conv2d with integer padding; zero padding unless [psg_padded] or [forward_padded] says otherwise. *)
Record conv := Conv {
  c_in : nat; c_out : nat; c_kh : nat; c_kw : nat; c_sh : nat; c_sw : nat;
  c_ph : nat; c_pw : nat; c_dh : nat; c_dw : nat; c_groups : nat
}.
(** Other paddings of an nn.Conv2d: given as a string ("same" or "valid"), or with a padding_mode other than "zeros". *)
Inductive padding := PadString | PadMode.
(** The module classes the code distinguishes with isinstance. *)
Inductive mkind := KLinear (n_in n_out : nat) | KConv1d | KConv2d (c : conv) | KEmbedding | KOther.

(** last size of a shape *)
Definition split_last (sh : list nat) : option (list nat * nat) :=
  match rev sh with [] => None | x :: r => Some (rev r, x) end.

(** number of window positions along one axis; torch rejects windows larger than the padded input *)
Definition out_size (n p d k s : nat) : res nat :=
  if (s =? 0) || (n + 2 * p <? d * (k - 1) + 1) then Err RuntimeError
  else Ok ((n + 2 * p - (d * (k - 1) + 1)) / s + 1).

(** torch's broadcasting: sizes of 1 are expanded; first for equal ranks, then aligned at the right *)
Fixpoint bshape (a m : list nat) : res (list nat) :=
  match a, m with
  | [], [] => Ok []
  | x :: a', y :: m' =>
      let* r := bshape a' m' in
      if x =? y then Ok (x :: r) else if x =? 1 then Ok (y :: r) else if y =? 1 then Ok (x :: r) else Err RuntimeError
  | _, _ => Err RuntimeError
  end.
Definition pad_left (k : nat) (sh : list nat) : list nat := repeat 1 (k - length sh) ++ sh.
Definition bcast (a b : list nat) : res (list nat) := bshape (pad_left (length b) a) (pad_left (length a) b).
(** the index an entry is read from *)
Fixpoint bclip (sh i : list nat) : list nat :=
  match sh, i with
  | n :: sh', j :: i' => (if n =? 1 then 0 else j) :: bclip sh' i'
  | _, _ => []
  end.

Section Grad.
  Context {F : Type} `{OField F}.
  Notation tensor := (tensor F).
  Local Open Scope nat_scope.

  Definition ix (k : nat) (idx : list nat) : nat := nth k idx 0.

  (** logging/utils.py:35 einsum(bwd, fwd, "... i, ... j -> ... i j"), after broadcasting the leading sizes *)
  Definition expand_lead (t : tensor) (lead l : list nat) (n : nat) : tensor :=
    if same_shape lead l then t
    else tgen (l ++ [n]) (fun i => tget t (bclip (lead ++ [n]) (skipn (length l - length lead) i))).
  Definition einsum_outer (bwd fwd : tensor) : res tensor :=
    match split_last (shape bwd), split_last (shape fwd) with
    | Some (lb, NI), Some (lf, J) =>
        let* l := bcast lb lf in
        let b := T [prod l; NI] (data (expand_lead bwd lb l NI)) in
        let f := T [prod l; J] (data (expand_lead fwd lf l J)) in
        Ok (T (l ++ [NI; J])
              (data (tgen [prod l; NI; J]
                       (fun x => fmul (tget b [ix 0 x; ix 1 x]) (tget f [ix 0 x; ix 2 x])))))
    | _, _ => Err RuntimeError
    end.
  (** logging/utils.py:36 reduce(outer_product, "n ... i j -> n i j", "sum") *)
  Definition reduce_mid (t : tensor) : res tensor :=
    match shape t with
    | n :: r =>
        match rev r with
        | J :: NI :: rmid =>
            let M := prod rmid in
            let t4 := T [n; M; NI; J] (data t) in
            Ok (tgen [n; NI; J] (fun x => sum M (fun p => tget t4 [ix 0 x; p; ix 1 x; ix 2 x])))
        | _ => Err RuntimeError
        end
    | [] => Err RuntimeError
    end.
  (** logging/utils.py:32-36 *)
  Definition psg_linear (fwd bwd : tensor) : res tensor :=
    let* outer := einsum_outer bwd fwd in reduce_mid outer.

  (** entry of the zero-padded input at padded coordinates *)
  Definition padded (x : tensor) (n c ph pw r q : nat) : F :=
    match shape x with
    | [_; _; H; W] =>
        if (ph <=? r) && (r - ph <? H) && ((pw <=? q) && (q - pw <? W))
        then tget x [n; c; r - ph; q - pw] else f0
    | _ => f0
    end.
  (** torch.nn.functional.unfold: rows are (channel, kernel row, kernel column), columns are output
      positions, both row-major. An input without batch dimension gives a result without one. *)
  Definition unfold_rows (x : tensor) (g : conv) (B C H W : nat) : res (tensor * nat) :=
    let* OH := out_size H (c_ph g) (c_dh g) (c_kh g) (c_sh g) in
    let* OW := out_size W (c_pw g) (c_dw g) (c_kw g) (c_sw g) in
    Ok (tgen [B; C; c_kh g; c_kw g; OH; OW] (fun i =>
          padded x (ix 0 i) (ix 1 i) (c_ph g) (c_pw g)
            (ix 4 i * c_sh g + ix 2 i * c_dh g) (ix 5 i * c_sw g + ix 3 i * c_dw g)), OH * OW).
  Definition f_unfold (x : tensor) (g : conv) : res tensor :=
    match shape x with
    | [B; C; H; W] =>
        let* u := unfold_rows x g B C H W in
        Ok (T [B; C * (c_kh g * c_kw g); snd u] (data (fst u)))
    | [C; H; W] =>
        let* u := unfold_rows (T [1; C; H; W] (data x)) g 1 C H W in
        Ok (T [C * (c_kh g * c_kw g); snd u] (data (fst u)))
    | _ => Err RuntimeError
    end.
  (** einsum(a, b, "i j k, i l k -> i j l"); the caller has made the sizes agree (torch would broadcast sizes of 1) *)
  Definition einsum_ijk_ilk (a b : tensor) : res tensor :=
    match shape a, shape b with
    | [NI; J; K], [NI'; L; K'] =>
        if (NI =? NI') && (K =? K')
        then Ok (tgen [NI; J; L] (fun x => sum K (fun k => fmul (tget a [ix 0 x; ix 1 x; k]) (tget b [ix 0 x; ix 2 x; k]))))
        else Err RuntimeError
    | _, _ => Err RuntimeError
    end.
  (** logging/utils.py:37-55 *)
  Definition psg_conv2d (g : conv) (fwd bwd : tensor) : res tensor :=
    match shape fwd with
    | bsz :: _ =>
        let* u := f_unfold fwd g in
        let* u := reshape_infer u [bsz; nth 1 (shape u) 0] [] in
        let* b := reshape_infer bwd [bsz] [nth 2 (shape u) 0] in
        let* grad := einsum_ijk_ilk b u in
        reshape_infer grad [bsz; c_out g] []
    | [] => Err IndexError
    end.
  (** logging/utils.py:20-59 [compute_per_sample_gradient] *)
  Definition compute_per_sample_gradient (fwd bwd : tensor) (m : mkind) : res tensor :=
    match m with
    | KLinear _ _ => psg_linear fwd bwd
    | KConv2d g => psg_conv2d g fwd bwd
    | KConv1d => Err NotImplementedError
    | KEmbedding | KOther => Err ValueError
    end.

  (** logging/utils.py:37-55 for other paddings: F.unfold rejects a string, and pads with zeros whatever
      module.padding_mode says *)
  Definition psg_padded (p : padding) (g : conv) (fwd bwd : tensor) : res tensor :=
    match p with
    | PadString => match shape fwd with _ :: _ => Err TypeError | [] => Err IndexError end
    | PadMode => psg_conv2d g fwd bwd
    end.

  (** statistic/utils.py:30-61 [extract_patches]. Tensor.unfold has no dilation, and the module's
      dilation is not an argument. An input without batch dimension: the rows are taken for channels, the
      columns for rows and the windows for columns, until a dimension is missing. nn.Conv2d accepts no input
      of other ranks. *)
  Definition extract_patches (x : tensor) (kh kw sh sw ph pw : nat) : res tensor :=
    match shape x with
    | [B; C; H; W] =>
        let* OH := out_size H ph 1 kh sh in
        let* OW := out_size W pw 1 kw sw in
        Ok (T [B; OH; OW; C * kh * kw]
              (data (tgen [B; OH; OW; C; kh; kw] (fun i =>
                 padded x (ix 0 i) (ix 3 i) ph pw (ix 1 i * sh + ix 4 i) (ix 2 i * sw + ix 5 i)))))
    | [_; _; W] =>
        let* _ := out_size W pw 1 kh sh in
        let* _ := out_size kh 0 1 kw sw in
        Err IndexError
    | _ => Err RuntimeError
    end.
  (** statistic/utils.py:64-85 [make_forward_2d]; [view(-1, k)] of no elements raises for k = 0. *)
  Definition make_forward_2d (t : tensor) (m : mkind) : res tensor :=
    match m with
    | KLinear _ _ =>
        match split_last (shape t) with Some (_, k) => reshape_infer t [] [k] | None => Err IndexError end
    | KConv2d g =>
        let* p := extract_patches t (c_kh g) (c_kw g) (c_sh g) (c_sw g) (c_ph g) (c_pw g) in
        reshape_infer p [] [nth 3 (shape p) 0]
    | _ => Err InvalidModuleError
    end.
  (** statistic/utils.py:78-82 for other paddings: the letters of a string are not compared with 0, and
      padding_mode is not an argument *)
  Definition forward_padded (p : padding) (t : tensor) (g : conv) : res tensor :=
    match p with PadString => Err TypeError | PadMode => make_forward_2d t (KConv2d g) end.
  (** statistic/utils.py:88-109 [make_backward_2d] *)
  Definition make_backward_2d (t : tensor) (m : mkind) : res tensor :=
    match m with
    | KLinear _ _ =>
        match split_last (shape t) with Some (_, k) => reshape_infer t [] [k] | None => Err IndexError end
    | KConv2d _ =>
        match shape t with
        | [B; C; OH; OW] =>
            reshape_infer (tgen [B; OH; OW; C] (fun i => tget t [ix 0 i; ix 3 i; ix 1 i; ix 2 i])) [] [C]
        | _ => Err RuntimeError
        end
    | _ => Err InvalidModuleError
    end.
  (** statistic/utils.py:112-130 [make_2d]; [log_type] is compared with the two literals. *)
  Definition make_2d (t : tensor) (m : option mkind) (log_type : string) : res tensor :=
    match m with
    | None => match shape t with n :: _ => reshape_infer t [n] [] | [] => Err IndexError end
    | Some k =>
        if String.eqb log_type "forward" then make_forward_2d t k
        else if String.eqb log_type "backward" then make_backward_2d t k
        else Err ValueError
    end.
End Grad.
