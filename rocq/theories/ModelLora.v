(** Model of /repo/logix/lora/modules.py, lora.py and compute_top_k_singular_vectors of lora/utils.py, and of
    LogIX.add_lora, save_lora and the LoRA part of initialize_from_log in /repo/logix/logix.py. *)
From Verif Require Import Py PyStr Field Tensor ModelGrad Monad ModelState ModelMmap ModelSaver ModelLogger ModelModules.
Local Open Scope nat_scope.

Section Lora.
  Context {F : Type} `{OField F}.
  Notation tensor := (tensor F).
  Notation lm := (@lm F).
  Notation weights := (dict mid (tensor * option tensor)).
  (** initial random weights of a new layer (kaiming_uniform_), by identity and index *)
  Context (rnd : mid -> list nat -> F).
  (** left singular vectors (torch.linalg.svd(m)[0]) *)
  Context (svd : tensor -> res tensor).

  (** entry of an optional bias *)
  Definition bias_at (b : option tensor) (o : nat) : F := match b with Some v => tget v [o] | None => f0 end.
  (** torch.nn.functional.linear *)
  Definition f_linear (w : tensor) (b : option tensor) (x : tensor) : res tensor :=
    match shape w, split_last (shape x) with
    | [NO; J], Some (lead, J') =>
        if J =? J' then
          Ok (T (lead ++ [NO]) (data (mgen (prod lead) NO (fun q o =>
                fadd (sum J (fun j => fmul (mget w o j) (mget (T [prod lead; J] (data x)) q j))) (bias_at b o)))))
        else Err RuntimeError
    | _, _ => Err RuntimeError
    end.
  (** torch.nn.functional.conv2d of a batched input (unbatched, three-dimensional inputs are not modelled) *)
  Definition f_conv2d (g : conv) (w : tensor) (b : option tensor) (x : tensor) : res tensor :=
    match shape x with
    | [B; C; H; Wd] =>
        if C =? c_in g then
          let* OH := out_size H (c_ph g) (c_dh g) (c_kh g) (c_sh g) in
          let* OW := out_size Wd (c_pw g) (c_dw g) (c_kw g) (c_sw g) in
          let ci := c_in g / c_groups g in
          let co := c_out g / c_groups g in
          Ok (tgen [B; c_out g; OH; OW] (fun i =>
                fadd (sum ci (fun c => sum (c_kh g) (fun kh => sum (c_kw g) (fun kw =>
                  fmul (tget w [ix 1 i; c; kh; kw])
                       (padded x (ix 0 i) (c + ix 1 i / co * ci) (c_ph g) (c_pw g)
                          (ix 2 i * c_sh g + kh * c_dh g) (ix 3 i * c_sw g + kw * c_dw g))))))
                     (bias_at b (ix 1 i))))
        else Err RuntimeError
    | _ => Err RuntimeError
    end.
  (** [src] expanded to the shape of the tensor it is written to: [dst += src], [dst.copy_(src)] *)
  Definition expand_to (src : tensor) (sh : list nat) : res tensor :=
    if same_shape (shape src) sh then Ok src
    else
      let* l := bcast (shape src) sh in
      if same_shape l sh
      then Ok (tgen sh (fun i => tget src (bclip (shape src) (skipn (length sh - length (shape src)) i))))
      else Err RuntimeError.
  (** Calling a module: a Linear or Conv2d leaf, or a LoraLinear / LoraConv2d (modules.py:48-52, 105-109), whose
      children are encoder, bottleneck, decoder and the wrapped layer. Every other module computes some function of
      the functions of its children: [usr] is the user's code, by identity of the module. *)
  Context (usr : mid -> list (string * (tensor -> res tensor)) -> tensor -> res tensor).
  Fixpoint call (w : weights) (t : mtree) : tensor -> res tensor :=
    match t with
    | MT id k _ _ kids =>
        let other := usr id (map (fun nc => (fst nc, call w (snd nc))) kids) in
        match k, kids with
        | KOther, [(ka, a); (kb, b); (kc, c); (_, base)] =>
            if String.eqb ka "logix_lora_A" && String.eqb kb "logix_lora_B" && String.eqb kc "logix_lora_C" then
              fun x =>
                let* r := call w base x in
                let* xa := call w a x in
                let* xb := call w b xa in
                let* xc := call w c xb in
                let* d := expand_to xc (shape r) in
                tadd r d
            else other
        | KLinear _ _, [] => fun x => match dget id w with Some (m, b) => f_linear m b x | None => Err AttributeError end
        | KConv2d g, [] => fun x => match dget id w with Some (m, b) => f_conv2d g m b x | None => Err AttributeError end
        | _, _ => other
        end
    end.

  (** a new nn.Linear or nn.Conv2d without bias; its parameter gets the number of the module *)
  Definition new_layer (k : mkind) (wsh : list nat) : SM lm mtree := fun s =>
    let n := lm_next s in
    (lm_set_model s (lm_root s) (S n) (dset n (tgen wsh (rnd n), None) (lm_w s)), Ok (MT n k [] [n] [])).
  Definition set_weight (m : mtree) (f : tensor -> res tensor) : SM lm unit := fun s =>
    match dget (t_id m) (lm_w s) with
    | Some (v, b) =>
        match f v with
        | Ok v' => (lm_set_model s (lm_root s) (lm_next s) (dset (t_id m) (v', b) (lm_w s)), Ok tt)
        | Err e => (s, Err e)
        end
    | None => (s, Err AttributeError)
    end.
  (** nn.Conv2d with kernel size 1 *)
  Definition conv1x1 (i o : nat) : conv := Conv i o 1 1 1 1 0 0 1 1 1.
  (** the layers of a LoRA module *)
  Definition linear_layer (i o : nat) := new_layer (KLinear i o) [o; i].
  Definition conv_layer (g : conv) := new_layer (KConv2d g) [c_out g; c_in g / c_groups g; c_kh g; c_kw g].
  (** modules.py:82-92: kernel size, stride and padding of the wrapped convolution, neither dilation nor groups *)
  Definition enc_geom (g : conv) (r : nat) : conv := Conv (c_in g) r (c_kh g) (c_kw g) (c_sh g) (c_sw g) (c_ph g) (c_pw g) 1 1 1.
  (** lora.py:81-92 *)
  Definition new_shared (rank : nat) (t : mtree) : SM lm mtree :=
    match t_kind t with
    | KLinear _ _ => linear_layer rank rank
    | KConv2d _ => conv_layer (conv1x1 rank rank)
    | _ => sfail UnboundLocalError
    end.
  Definition zero_weight (m : mtree) : SM lm unit := set_weight m (fun v => Ok (tzeros (shape v))).
  (** the LoRA module itself: encoder, bottleneck, decoder, wrapped layer *)
  Definition lora_node (key : string) (a b c t : mtree) : SM lm mtree := fun s =>
    (lm_set_model s (lm_root s) (S (lm_next s)) (lm_w s),
     Ok (MT (lm_next s) KOther [] []
           [("logix_lora_A", a); ("logix_lora_B", b); ("logix_lora_C", c); (key, t)]%string)).
  (** modules.py:24-46 and 74-103 *)
  Definition new_lora (rank : nat) (t : mtree) (shared : option mtree) : SM lm mtree :=
    match t_kind t with
    | KLinear i o =>
        let r := min rank (min i o) in
        let! a := linear_layer i r in
        let! b := match shared with Some b => sret b | None => linear_layer r r end in
        let! c := linear_layer r o in
        zero_weight b ;;
        lora_node "_linear" a b c t
    | KConv2d g =>
        let r := min rank (min (c_in g) (c_out g)) in
        let! a := conv_layer (enc_geom g r) in
        let! b := match shared with Some b => sret b | None => conv_layer (conv1x1 r r) end in
        let! c := conv_layer (conv1x1 r (c_out g)) in
        zero_weight b ;;
        lora_node "_conv" a b c t
    | _ => sfail TypeError
    end.

  (** lora/utils.py:27-34; [U[:, :k]] *)
  Definition top_k (m : nd sval) (k : nat) : res tensor :=
    match m with
    | Leaf (VT d) =>
        let* u := svd (snd d) in
        match shape u with
        | [n; q] => Ok (mgen n (min k q) (fun i j => mget u i j))
        | _ => Err RuntimeError
        end
    | _ => Err TypeError
    end.
  Definition transpose (t : tensor) : res tensor :=
    match shape t with [n; q] => Ok (mgen q n (fun i j => mget t j i)) | _ => Err RuntimeError end.
  (** modules.py:54-70, 111-133. The empty entries that a failing look-up adds to covariance_state are not modelled. *)
  Definition pca_init (rank : nat) (t lora : mtree) (cov : nd sval) : SM lm unit :=
    match lora with
    | MT _ _ _ _ [(_, a); _; (_, c); _] =>
        match t_kind t with
        | KLinear i o =>
            let r := min rank (min i o) in
            let! uf := lift (let* f := nd_item cov "forward" in top_k f r) in
            let! ub := lift (let* b := nd_item cov "backward" in top_k b r) in
            set_weight a (fun v => let* u := transpose uf in expand_to u (shape v)) ;;
            set_weight c (fun v => expand_to ub (shape v))
        | KConv2d g =>
            let r := min rank (min (c_in g) (c_out g)) in
            let! uf := lift (let* f := nd_item cov "forward" in top_k f r) in
            let! ub := lift (let* b := nd_item cov "backward" in top_k b r) in
            set_weight a (fun v => let* u := transpose uf in reshape u (shape v)) ;;
            set_weight c (fun v => reshape ub (shape v))
        | _ => sfail TypeError
        end
    | _ => sfail TypeError
    end.

  (** [setattr(parent, key, new)] for the module with identity [p] *)
  Fixpoint set_kid (p : mid) (key : string) (new : mtree) (t : mtree) : mtree :=
    match t with
    | MT id k cls ps kids =>
        let kids' := map (fun nc => (fst nc, set_kid p key new (snd nc))) kids in
        MT id k cls ps (if id =? p then dset key new kids' else kids')
    end.
  (** lora.py:59-100, one module that passed module_check. [reach]: the dotted name leads to the module. *)
  Definition lora_item (c : lora_cfg) (reach : bool) (i : item) (shared : dict string mtree) : SM lm (dict string mtree * mtree) :=
    let t := i_mod i in
    (match t_kind t with KConv1d => sfail NotImplementedError | _ => sret tt end) ;;
    let! psg := lift (find_group (i_name i) (lc_groups c)) in
    let! shared' := (if lc_share c && negb (dmem psg shared)
                     then let! m := new_shared (lc_rank c) t in sret (dset psg m shared)
                     else sret shared) in
    let! l := new_lora (lc_rank c) t (dget psg shared') in
    (if String.eqb (lc_init c) "pca" then
       let! s := sget in
       let! cov := lift (let* cs := (match dget "covariance_state" (attrs (x_state (lm_x s))) with
                                     | Some d => Ok d | None => Err AttributeError end) in
                         nd_item cs (i_name i)) in
       pca_init (lc_rank c) t l cov
     else sret tt) ;;
    if reach then
      fun s => (lm_set_model s (option_map (set_kid (i_parent i) (i_key i) l) (lm_root s)) (lm_next s) (lm_w s), Ok (shared', l))
    else sfail AttributeError.
  (** lora.py:59-100, the loop *)
  Fixpoint lora_loop (c : lora_cfg) (tf : option (list fclass)) (nf : option (list string)) (reach : bool)
    (l : list item) (shared : dict string mtree) : SM lm (dict string mtree) :=
    match l with
    | [] => sret shared
    | i :: l' =>
        if module_check i tf nf false then
          let! r := lora_item c reach i shared in lora_loop c tf nf reach l' (fst r)
        else lora_loop c tf nf reach l' shared
    end.
  (** every parameter, in the order of model.parameters() *)
  Fixpoint all_params (t : mtree) : list pid := match t with MT _ _ _ ps kids => ps ++ concat (map (fun nc => all_params (snd nc)) kids) end.
  (** lora.py:41-100. The generator of named_modules runs while the tree is changed: this matters only for a root that
      is itself a selected leaf. It gets its LoRA module as a child with the empty name, which the generator then visits;
      the names of that child's layers lead nowhere. *)
  Definition handler_add_lora (tf : option (list fclass)) (nf : option (list string)) : SM lm unit := fun s =>
    match lm_handler s with
    | None => (s, Err AttributeError)
    | Some h =>
        match dget "covariance_state" (attrs (x_state (lm_x s))) with
        | None => (s, Err AttributeError)
        | Some cs =>
            let h' := if String.eqb (lc_init h) "pca" && match cs with Node [] => true | _ => false end
                      then LoraCfg "random" (lc_rank h) (lc_share h) (lc_groups h) else h in
            let s := lm_set_lora s (lm_cfg s) (Some h') in
            match lm_root s with
            | None => (s, Err AttributeError)
            | Some root =>
                if is_nil (all_params root) then (s, Err StopIteration)
                else
                  match root with
                  | MT id _ _ _ [] =>
                      let i := Item "" id "" root in
                      if module_check i tf nf false then
                        (let! r := lora_item h' true i [] in
                         lora_loop h' tf nf false (fst (named "" id "" (snd r) [id])) (fst r) ;; sret tt) s
                      else (s, Ok tt)
                  | _ => (lora_loop h' tf nf true (named_modules root) [] ;; sret tt) s
                  end
            end
        end
    end.

  (** model.state_dict() restricted to layers: key, module, whether it is the bias *)
  Fixpoint state_keys (w : weights) (prefix : string) (t : mtree) : list (string * (mid * bool)) :=
    match t with
    | MT id _ _ _ kids =>
        match dget id w with
        | Some (_, b) => (dotted prefix "weight", (id, false)) :: match b with Some _ => [(dotted prefix "bias", (id, true))] | None => [] end
        | None => []
        end ++ concat (map (fun nc => state_keys w (dotted prefix (fst nc)) (snd nc)) kids)
    end.
  Definition param_of (w : weights) (p : mid * bool) : tensor :=
    match dget (fst p) w with Some (v, Some b) => if snd p then b else v | Some (v, None) => v | None => T [] [] end.
  Definition set_param (w : weights) (p : mid * bool) (v : tensor) : weights :=
    match dget (fst p) w with
    | Some (v0, b) => dset (fst p) (if snd p then (v0, Some v) else (v, b)) w
    | None => w
    end.
  Fixpoint all_ids (t : mtree) : list mid := match t with MT id _ _ _ kids => id :: concat (map (fun nc => all_ids (snd nc)) kids) end.
  (** logix.py:480-492. A root that was wrapped itself is its own descendant: state_dict() recurses without end. *)
  Definition save_lora : SM lm unit := fun s =>
    match lm_root s with
    | None => (s, Err AttributeError)
    | Some root =>
        if mem (t_id root) (tl (all_ids root)) then (s, Err RuntimeError) else
        let l := filter (fun k => contains "logix_lora" (fst k)) (state_keys (lm_w s) "" root) in
        if is_nil l then (s, Ok tt)
        else (lm_set_file s (Some (map (fun k => (fst k, param_of (lm_w s) (snd k))) l)), Ok tt)
    end.
  (** logix.py:209-215, 513-517: every name must exist; load_state_dict(strict=False) copies every tensor whose shape
      fits and raises afterwards if some did not *)
  Definition load_lora (file : dict string tensor) : SM lm unit := fun s =>
    match lm_root s with
    | None => (s, Err AttributeError)
    | Some root =>
        let ks := state_keys (lm_w s) "" root in
        if forallb (fun e => dmem (fst e) ks) file then
          let w' := fold_left (fun w k => match dget (fst k) file with
                                          | Some v => if same_shape (shape v) (shape (param_of w (snd k))) then set_param w (snd k) v else w
                                          | None => w end) ks (lm_w s) in
          let bad := existsb (fun k => match dget (fst k) file with
                                       | Some v => negb (same_shape (shape v) (shape (param_of (lm_w s) (snd k))))
                                       | None => false end) ks in
          (lm_set_model s (Some root) (lm_next s) w', if bad then Err RuntimeError else Ok tt)
        else (s, Err AssertionError)
    end.

  (** logix.py:162-230, one process. [path]: what torch.load gives for lora_path. *)
  Definition lm_add_lora (watch clear : bool) (tf : option (list fclass)) (nf : option (list string))
    (path : option (res (dict string tensor))) (cfg : option lora_cfg) : SM lm unit :=
    (fun s =>
       let c := match cfg with Some c => c | None => lm_cfg s end in
       (lm_set_lora s c (match lm_handler s with Some h => Some h | None => Some c end), Ok tt)) ;;
    let! s := sget in
    handler_add_lora (or_filter tf (lm_tf s)) (or_filter nf (lm_nf s)) ;;
    (match path with
     | None => sret tt
     | Some file => let! d := lift file in load_lora d
     end) ;;
    save_lora ;;
    (if clear || watch then on_x lx_clear else sret tt) ;;
    (if watch then
       let! s := sget in
       match lm_root s with Some root => lm_watch root None None | None => sfail AttributeError end
     else sret tt).

  (** logix.py:509-517: the LoRA part of initialize_from_log. [path]: None without lora_path (or with the run's own
      directory), otherwise what torch.load gives for the file below lora_path, if its lora directory exists. The run's own
      file is read after add_lora has written it. A directory is taken to hold the file. *)
  Definition stored_lora (path : option (option (res (dict string tensor)))) (s : lm) : option (res (dict string tensor)) :=
    match path with Some f => f | None => option_map Ok (lm_file s) end.
  Definition lora_from_log (path : option (option (res (dict string tensor)))) : SM lm unit :=
    let! s := sget in
    match stored_lora path s, lm_root s with
    | Some _, Some root =>
        (if is_lora root then sret tt else lm_add_lora true true None None None None) ;;
        let! s := sget in
        match stored_lora path s with
        | Some f => let! d := lift f in load_lora d
        | None => sfail FileNotFoundError
        end
    | _, _ => sret tt
    end.
  (** logix.py:494-520. [state]: the state directory below state_path, if it is given. The log directory exists, since the
      constructor makes it (config.py:168-176); its config.yaml is one that finalize wrote, of which only the LoRA section
      matters (the others were read by the constructors; see ModelConfig.v). *)
  Definition initialize_from_log (path : option (option (res (dict string tensor)))) (state : option (@sdisk F)) : SM lm unit :=
    let! s := sget in
    match lm_conf s with
    | None => sfail AssertionError
    | Some c =>
        (fun s => (lm_set_lora s c (lm_handler s), Ok tt)) ;;
        lora_from_log path ;;
        match state with None => on_x lx_load | Some dk => on_x (lx_load_from dk) end
    end.
  (** logix.py:522-535 *)
  Definition lm_finalize : SM lm unit :=
    on_x lx_finalize ;;
    (fun s => (lm_set_conf s (Some (lm_cfg s)), Ok tt)).
End Lora.
