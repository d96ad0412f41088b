(** Model of /repo/logix/state.py and /repo/logix/statistic/*.py over exact scalars. *)
From Verif Require Import Py Field Tensor ModelGrad Monad.
Local Open Scope nat_scope.

Inductive dev := Cpu | Gpu.
Definition dev_eqb (a b : dev) : bool := match a, b with Cpu, Cpu | Gpu, Gpu => true | _, _ => false end.

Section State.
  Context {F : Type} `{OField F}.
  Notation tensor := (tensor F).

  (** A torch tensor with its device; dtypes are not modelled here (all scalars are exact). *)
  Definition dten := (dev * tensor)%type.
  (** Leaves of the nested state dictionaries: tensors, counters (Python numbers; after [synchronize] 0-dim
      tensors, which behave the same), and the two lists of [model_module]. *)
  Inductive sval := VT (t : dten) | VN (c : F) | VPath (l : list (string * string)) | VDims (l : list nat).

  (** state.py:32-37: attributes, and the registries *)
  Record lstate := LState {
    attrs : dict string (nd sval);
    st_states : list string;            (* _states, a set *)
    st_sync : list string;
    st_save : list string;
    st_norm : list (string * string);
    st_noclear : list string            (* _states_to_not_clear, a set *)
  }.
  Definition with_attrs (s : lstate) a := LState a (st_states s) (st_sync s) (st_save s) (st_norm s) (st_noclear s).

  (** [nested_dict()] access: missing keys give an empty dictionary (utils.py:159-163). Reading does not insert
      the empty dictionary here: reads are followed by a write of that key or an exception; for the latter see
      ModelReads.v. *)
  Definition nd_item (x : nd sval) (k : string) : res (nd sval) :=
    match x with Node d => Ok (match dget k d with Some y => y | None => Node [] end) | Leaf _ => Err TypeError end.
  Definition nd_has (x : nd sval) (k : string) : bool := match x with Node d => dmem k d | Leaf _ => false end.
  Definition nd_set1 (x : nd sval) (k : string) (v : sval) : res (nd sval) :=
    match x with Node d => Ok (Node (dset k (Leaf v) d)) | Leaf _ => Err TypeError end.
  Definition nd_set2 (x : nd sval) (m k : string) (v : sval) : res (nd sval) :=
    match x with
    | Node d => let* y := nd_item x m in let* y' := nd_set1 y k v in Ok (Node (dset m y' d))
    | Leaf _ => Err TypeError
    end.
  (** attribute access *)
  Definition attr (a : string) : SM lstate (nd sval) :=
    fun s => (s, match dget a (attrs s) with Some x => Ok x | None => Err AttributeError end).
  Definition set_attr (a : string) (x : nd sval) : SM lstate unit :=
    fun s => (with_attrs s (dset a x (attrs s)), Ok tt).
  Definition hasattr (a : string) (s : lstate) : bool := dmem a (attrs s).

  (** state.py:50-77 *)
  Definition register_state (name : string) (sync save noclear : bool) : SM lstate unit := fun s =>
    if mem name (st_states s) then (s, Ok tt)
    else (LState (dset name (Node []) (attrs s)) (name :: st_states s)
            (if sync then st_sync s ++ [name] else st_sync s)
            (if save then st_save s ++ [name] else st_save s)
            (st_norm s)
            (if noclear then name :: st_noclear s else st_noclear s), Ok tt).
  (** state.py:79-90 *)
  Definition register_normalize_pair (sn cn : string) : SM lstate unit := fun s =>
    if mem (sn, cn) (st_norm s) then (s, Ok tt)
    else (LState (attrs s) (st_states s) (st_sync s) (st_save s) (st_norm s ++ [(sn, cn)]) (st_noclear s), Ok tt).
  (** state.py:32-48 *)
  Definition state_init : lstate :=
    fst ((register_state "mean_state" true true false ;; register_state "mean_counter" true false false ;;
          register_state "covariance_state" true true false ;; register_state "covariance_counter" true false false ;;
          register_state "model_module" false true true ;;
          register_normalize_pair "mean_state" "mean_counter" ;;
          register_normalize_pair "covariance_state" "covariance_counter")
         (LState [] [] [] [] [] [])).

  (** tensor operands *)
  Definition as_dten (x : nd sval) : res dten := match x with Leaf (VT t) => Ok t | _ => Err AttributeError end.
  (** [a.add_(b)] and [a += b] on tensors outside autograd: in place, one device, [b] broadcast to the shape of [a] *)
  Definition add_wide (a b : tensor) : res tensor :=
    let* sh := bcast (shape a) (shape b) in
    if same_shape sh (shape a)
    then Ok (tgen (shape a) (fun i => fadd (tget a i) (tget b (bclip (shape b) (skipn (length (shape a) - length (shape b)) i)))))
    else Err RuntimeError.
  Definition iadd_ (a b : dten) : res dten :=
    if dev_eqb (fst a) (fst b)
    then let* c := (if same_shape (shape (snd a)) (shape (snd b)) then tadd (snd a) (snd b) else add_wide (snd a) (snd b)) in Ok (fst a, c)
    else Err RuntimeError.
  (** [a.addmm_(..)] with the product [b]: one device, one shape *)
  Definition add_ (a b : dten) : res dten :=
    if dev_eqb (fst a) (fst b) then let* c := tadd (snd a) (snd b) in Ok (fst a, c) else Err RuntimeError.
  (** [x += v] on a counter *)
  Definition count_add (x : nd sval) (v : F) : res sval :=
    match x with Leaf (VN c) => Ok (VN (fadd c v)) | _ => Err TypeError end.

  Definition col_sum (d : tensor) : tensor :=
    tgen [nth 1 (shape d) 0] (fun i => sum (nth 0 (shape d) 0) (fun r => mget d r (ix 0 i))).
  Definition gram (d : tensor) : tensor :=
    mgen (nth 1 (shape d) 0) (nth 1 (shape d) 0) (fun i j => sum (nth 0 (shape d) 0) (fun r => fmul (mget d r i) (mget d r j))).
  Definition last_size (t : tensor) : nat := last (shape t) 0.
  Definition size0 (t : tensor) : res nat := match shape t with n :: _ => Ok n | [] => Err IndexError end.

  (** What [update] sees of the batch: mask and log (batch_info.py:22-31). *)
  Record binfo := BInfo { b_mask : option tensor; b_log : nd sval }.

  (** [data = binfo.log[module_name][log_type]] when no data is passed *)
  Definition get_data (b : binfo) (m t : string) (data : option dten) : res dten :=
    match data with
    | Some d => Ok d
    | None => let* x := nd_item (b_log b) m in let* y := nd_item x t in as_dten y
    end.
  (** what is added to the counter: samples, or unmasked positions (mean.py:73-76) *)
  Definition count_of (b : binfo) (t : string) (n : nat) : F :=
    match b_mask b with None => fnat n | Some m => if String.eqb t "grad" then fnat n else tsum m end.

  (** The common body of Mean.update and Covariance.update (mean.py:40-76, covariance.py:40-78);
      [add] is the in-place addition, [zero] the initial accumulator, [contrib] what one batch adds. *)
  Definition accumulate (add : dten -> dten -> res dten) (sn cn : string) (zero : nat -> tensor) (contrib : tensor -> tensor)
      (b : binfo) (module : option mkind) (m t : string) (data : option dten) (offload : bool) : SM lstate unit :=
    let! _ := attr sn in
    let! _ := attr cn in
    let! d := lift (get_data b m t data) in
    let! n := lift (size0 (snd d)) in
    let! x := lift (make_2d (snd d) module t) in
    let! ms := attr sn in
    let! y := lift (nd_item ms m) in
    (if nd_has y t then sret tt
     else
       let device := if offload then Cpu else fst d in
       let! ms' := lift (nd_set2 ms m t (VT (device, zero (last_size x)))) in
       set_attr sn ms' ;;
       let! mc := attr cn in
       let! mc' := lift (nd_set2 mc m t (VN f0)) in
       set_attr cn mc') ;;
    let! ms := attr sn in
    let! y := lift (nd_item ms m) in
    let! old := lift (let* z := nd_item y t in as_dten z) in
    (if offload then
       let! new := lift (add (fst d, snd old) (fst d, contrib x)) in
       let! ms' := lift (nd_set2 ms m t (VT (Cpu, snd new))) in
       set_attr sn ms'
     else
       let! new := lift (add old (fst d, contrib x)) in
       let! ms' := lift (nd_set2 ms m t (VT new)) in
       set_attr sn ms') ;;
    let! mc := attr cn in
    let! c := lift (let* y := nd_item mc m in nd_item y t) in
    let! c' := lift (count_add c (count_of b t n)) in
    let! mc' := lift (nd_set2 mc m t c') in
    set_attr cn mc'.
  (** mean.py:25-76 *)
  Definition mean_update := accumulate iadd_ "mean_state" "mean_counter" (fun k => tzeros [k]) col_sum.
  (** covariance.py:25-78 *)
  Definition covariance_update := accumulate add_ "covariance_state" "covariance_counter" (fun k => tzeros [k; k]) gram.
  (** variance.py:25-78: nothing registers [variance_state], so line 40 decides *)
  Definition variance_update := accumulate iadd_ "variance_state" "variance_counter" (fun k => tzeros [k]) col_sum.


  (** External linear algebra. *)
  Variable eigh : tensor -> res (tensor * tensor).
  Variable inverse : tensor -> res tensor.

  (** iteration over [covariance_state.items()] and [module_state.items()] *)
  Definition nd_items (x : nd sval) : res (list (string * nd sval)) :=
    match x with Node d => Ok d | Leaf _ => Err AttributeError end.
  Definition items2 (x : nd sval) : res (list (string * string * dten)) :=
    let* ms := nd_items x in
    let* rows := mapM (fun p => let* ts := nd_items (snd p) in
                                mapM (fun q => let* d := as_dten (snd q) in Ok ((fst p, fst q), d)) ts) ms in
    Ok (concat rows).
  (** state.py:92-109 *)
  Definition covariance_svd : SM lstate unit :=
    register_state "covariance_eigval_state" false true false ;;
    register_state "covariance_eigvec_state" false true false ;;
    let! cs := attr "covariance_state" in
    let! l := lift (items2 cs) in
    seach (fun p => let '((m, k), d) := p in
      let! vw := lift (eigh (snd d)) in
      let! ev := attr "covariance_eigval_state" in
      let! ev' := lift (nd_set2 ev m k (VT (fst d, fst vw))) in
      set_attr "covariance_eigval_state" ev' ;;
      let! ec := attr "covariance_eigvec_state" in
      let! ec' := lift (nd_set2 ec m k (VT (fst d, snd vw))) in
      set_attr "covariance_eigvec_state" ec') l.

  Definition trace (t : tensor) : F := sum (nth 0 (shape t) 0) (fun i => mget t i i).
  Definition tenth : F := fdiv f1 (fnat 10).
  (** state.py:123-128 *)
  Definition damped (cov : tensor) (damping : option F) : tensor :=
    let n := nth 0 (shape cov) 0 in
    let l := match damping with None => fdiv (fmul tenth (trace cov)) (fnat n) | Some x => x end in
    mgen n n (fun i j => fadd (mget cov i j) (fmul l (if Nat.eqb i j then f1 else f0))).
  (** state.py:111-128 *)
  Definition covariance_inverse (damping : option F) : SM lstate unit :=
    register_state "covariance_inverse_state" false true false ;;
    let! cs := attr "covariance_state" in
    let! l := lift (items2 cs) in
    seach (fun p => let '((m, k), d) := p in
      let! iv := lift (inverse (damped (snd d) damping)) in
      let! s := attr "covariance_inverse_state" in
      let! s' := lift (nd_set2 s m k (VT (fst d, iv))) in
      set_attr "covariance_inverse_state" s') l.
  (** state.py:136-145 *)
  Definition get_covariance_inverse_state (damping : option F) : SM lstate (nd sval) :=
    let! s := sget in
    (if hasattr "covariance_inverse_state" s then sret tt else covariance_inverse damping) ;;
    attr "covariance_inverse_state".
  (** state.py:147-160 *)
  Definition get_covariance_svd_state : SM lstate (nd sval * nd sval) :=
    let! s := sget in
    (if hasattr "covariance_eigval_state" s && hasattr "covariance_eigvec_state" s then sret tt else covariance_svd) ;;
    let! s := sget in
    let! v := attr (if hasattr "ekfac_eigval_state" s then "ekfac_eigval_state" else "covariance_eigval_state") in
    let! w := attr "covariance_eigvec_state" in
    sret (v, w).

  (** corrected_eigval.py:60-91: rotate each sample's gradient and add the squares; [data] has shape [n; i; j] *)
  Definition rotate_square (g fwd bwd : tensor) : res tensor :=
    match shape g, shape fwd, shape bwd with
    | [n; i; j], [j1; j2], [i1; i2] =>
        if (j =? j1) && (i =? i1) then
          Ok (mgen i2 j2 (fun a c => sum n (fun s =>
            let w := sum i (fun p => fmul (mget bwd p a) (sum j (fun q => fmul (tget g [s; p; q]) (mget fwd q c)))) in
            fmul w w)))
        else Err RuntimeError
    | _, _, _ => Err RuntimeError
    end.
  (** the eigenvector operand of matmul: a missing entry is an empty dictionary. Without offloading the code reads the
      backward operand only once the forward one fits, and for every sample; here it is read once, in any case. *)
  Definition eig_operand (ec : nd sval) (m k : string) (e : exn) : res dten :=
    let* y := nd_item ec m in
    let* z := nd_item y k in
    match z with Leaf (VT t) => Ok t | _ => Err e end.
  (** corrected_eigval.py:24-93 *)
  Definition corrected_eigval_update (b : binfo) (m : string) (data : option dten) (offload : bool) : SM lstate unit :=
    let! s := sget in
    (if hasattr "covariance_eigvec_state" s then sret tt
     else covariance_svd ;; register_state "ekfac_eigval_state" true true false ;;
          register_state "ekfac_counter" true false false ;;
          register_normalize_pair "ekfac_eigval_state" "ekfac_counter") ;;
    let! ec := attr "covariance_eigvec_state" in
    let! _ := attr "covariance_eigval_state" in
    let! ks := attr "ekfac_eigval_state" in
    let! kc := attr "ekfac_counter" in
    (match data with Some _ => sfail AssertionError | None => sret tt end) ;;
    let! d := lift (get_data b m "grad" None) in
    (if nd_has ks m then sret tt
     else
       let device := if offload then Cpu else fst d in
       let! ks' := lift (nd_set1 ks m (VT (device, tzeros [nth 1 (shape (snd d)) 0; nth 2 (shape (snd d)) 0]))) in
       set_attr "ekfac_eigval_state" ks' ;;
       let! kc' := lift (nd_set1 kc m (VN f0)) in
       set_attr "ekfac_counter" kc') ;;
    let! fwd := lift (eig_operand ec m "forward" (if offload then AttributeError else TypeError)) in
    let! bwd := lift (eig_operand ec m "backward" AttributeError) in
    let! ks := attr "ekfac_eigval_state" in
    let! old := lift (let* z := nd_item ks m in as_dten z) in
    let! sq := lift (rotate_square (snd d) (snd fwd) (snd bwd)) in
    (if offload then
       let! new := lift (add_ (fst d, snd old) (fst d, sq)) in
       let! ks' := lift (nd_set1 ks m (VT (Cpu, snd new))) in
       set_attr "ekfac_eigval_state" ks'
     else
       let! new := lift (if dev_eqb (fst d) (fst fwd) && dev_eqb (fst d) (fst bwd) then add_ old (fst d, sq) else Err RuntimeError) in
       let! ks' := lift (nd_set1 ks m (VT new)) in
       set_attr "ekfac_eigval_state" ks') ;;
    let! n := lift (size0 (snd d)) in
    let! kc := attr "ekfac_counter" in
    let! c := lift (nd_item kc m) in
    let! c' := lift (count_add c (fnat n)) in
    let! kc' := lift (nd_set1 kc m c') in
    set_attr "ekfac_counter" kc'.

  (** state.py:193-199: divide every tensor in place by the counter under the same keys; what was divided before
      an exception stays divided. Division by a zero counter is unspecified. *)
  Fixpoint normalize_nd (x c : nd sval) {struct x} : nd sval * res unit :=
    match x with
    | Node d =>
        let fix go (l : list (string * nd sval)) : list (string * nd sval) * res unit :=
          match l with
          | [] => ([], Ok tt)
          | (k, y) :: r =>
              match nd_item c k with
              | Err e => (l, Err e)
              | Ok ck =>
                  match normalize_nd y ck with
                  | (y', Err e) => ((k, y') :: r, Err e)
                  | (y', Ok _) => let (r', o) := go r in ((k, y') :: r', o)
                  end
              end
          end in
        let (d', o) := go d in (Node d', o)
    | Leaf (VT (dv, t)) =>
        match c with
        | Leaf (VN v) => (Leaf (VT (dv, tmap (fun e => fdiv e v) t)), Ok tt)
        | _ => (x, Err TypeError)
        end
    | Leaf _ => (x, Err TypeError)
    end.
  (** state.py:188-204 *)
  Definition normalize : SM lstate unit :=
    let! s := sget in
    seach (fun p =>
      let! x := attr (fst p) in
      let! c := attr (snd p) in
      let (x', o) := normalize_nd x c in
      set_attr (fst p) x' ;; lift o) (st_norm s).

  (** The files under [log_dir/state]: one per saved state, and the registries (state.py:224-241). *)
  Record sdisk := SDisk { d_states : dict string (nd sval); d_others : option (list string * list string * list (string * string)) }.
  (** state.py:224-241 *)
  Definition save_state (dk : sdisk) : SM lstate sdisk :=
    let! s := sget in
    let! dk' := lift (foldM (fun dk a => match dget a (attrs s) with
                                         | Some x => Ok (SDisk (dset a x (d_states dk)) (d_others dk))
                                         | None => Err AttributeError end) (st_save s) dk) in
    sret (SDisk (d_states dk') (Some (st_sync s, st_save s, st_norm s))).
  (** state.py:243-255. The registries are set before the files are read; [_states] is not restored. *)
  Definition load_state (dk : sdisk) : SM lstate unit :=
    match d_others dk with
    | None => sfail FileNotFoundError
    | Some (sy, sv, no) =>
        (fun s => (LState (attrs s) (st_states s) sy sv no (st_noclear s), Ok tt)) ;;
        seach (fun a => match dget a (d_states dk) with
                        | Some x => set_attr a x
                        | None => sfail FileNotFoundError end) sv
    end.
  (** state.py:257-265, one keyword argument *)
  Definition set_state (name key : string) (v : sval) : SM lstate unit :=
    let! s := sget in
    if mem name (st_states s) then
      let! x := attr name in
      let! x' := lift (nd_set1 x key v) in
      set_attr name x'
    else sfail ValueError.
  (** state.py:270-278 *)
  Definition state_clear : SM lstate unit :=
    let! s := sget in
    seach (fun a => if mem a (st_noclear s) then sret tt
                    else let! _ := attr a in set_attr a (Node [])) (st_states s).
  (** state.py:206-222 in a single process of rank 0: no synchronisation *)
  Definition finalize (dk : sdisk) : SM lstate sdisk := normalize ;; save_state dk.

  (** state.py:162-186 seen from all processes at once: process i contributes its tensors in its own
      dictionary order; the k-th all_reduce of every process is matched with the k-th of the others. Different
      numbers of collectives or different shapes are [CollectiveMismatch] (a hang or a crash in practice). *)
  Fixpoint leaves (x : nd sval) : list sval :=
    match x with
    | Leaf v => [v]
    | Node d => (fix go (l : list (string * nd sval)) := match l with [] => [] | (_, y) :: r => leaves y ++ go r end) d
    end.
  Fixpoint refill (x : nd sval) (vs : list sval) {struct x} : nd sval * list sval :=
    match x with
    | Leaf v => match vs with [] => (Leaf v, []) | w :: r => (Leaf w, r) end
    | Node d =>
        let fix go (l : list (string * nd sval)) (vs : list sval) :=
          match l with
          | [] => ([], vs)
          | (k, y) :: r => let (y', vs1) := refill y vs in let (r', vs2) := go r vs1 in ((k, y') :: r', vs2)
          end in
        let (d', vs') := go d vs in (Node d', vs')
    end.
  Definition sync_leaves (s : lstate) : res (list sval) :=
    let* xs := mapM (fun a => match dget a (attrs s) with Some x => Ok (leaves x) | None => Err AttributeError end) (st_sync s) in
    Ok (concat xs).
  (** one all_reduce: the value written back keeps the contributor's own device *)
  Definition reduce2 (a b : sval) : res sval :=
    match a, b with
    | VT (da, ta), VT (_, tb) => match tadd ta tb with Ok t => Ok (VT (da, t)) | Err _ => Err CollectiveMismatch end
    | VN x, VN y => Ok (VN (fadd x y))
    | _, _ => Err CollectiveMismatch
    end.
  Definition refill_state (s : lstate) (vs : list sval) : lstate :=
    fst (fold_left (fun (acc : lstate * list sval) a =>
           match dget a (attrs (fst acc)) with
           | Some x => let (x', r) := refill x (snd acc) in (with_attrs (fst acc) (dset a x' (attrs (fst acc))), r)
           | None => acc
           end) (st_sync s) (s, vs)).
  Fixpoint zip_reduce (a b : list sval) : res (list sval) :=
    match a, b with
    | [], [] => Ok []
    | x :: a', y :: b' => let* z := reduce2 x y in let* r := zip_reduce a' b' in Ok (z :: r)
    | _, _ => Err CollectiveMismatch
    end.
  Definition sync_all (ss : list lstate) : res (list lstate) :=
    let* ls := mapM sync_leaves ss in
    mapM (fun i =>
      let* tot := foldM zip_reduce (firstn i ls ++ skipn (S i) ls) (nth i ls []) in
      Ok (refill_state (nth i ss state_init) tot)) (seq 0 (length ss)).
  (** state.py:206-222 for all processes; only rank 0 saves *)
  Definition finalize_ranks (dk : sdisk) (ss : list lstate) : res (list lstate * sdisk) :=
    let* ss1 := if 1 <? length ss then sync_all ss else Ok ss in
    let* ss2 := mapM (fun s => match normalize s with (s', Ok _) => Ok s' | (_, Err e) => Err e end) ss1 in
    match ss2 with
    | [] => Ok ([], dk)
    | s0 :: _ => match save_state dk s0 with (_, Ok dk') => Ok (ss2, dk') | (_, Err e) => Err e end
    end.
End State.
