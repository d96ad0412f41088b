(** Model of /repo/logix/analysis/influence_function.py and influence_function_utils.py, and of the log helpers of
    /repo/logix/utils.py, over exact scalars. Reading a missing key of a nested default dictionary gives an empty
    dictionary; that it is also inserted (such reads are followed by an exception) is modelled in ModelReads.v. *)
From Verif Require Import Py PyStr Field Tensor ModelGrad Monad ModelState.
Local Open Scope nat_scope.

Section Influence.
  Context {F : Type} `{OField F}.
  Notation tensor := (tensor F).
  Notation sval := (@sval F).
  Notation lstate := (@lstate F).
  Notation dten := (@dten F).
  (** External linear algebra and square root. *)
  Variable eigh : tensor -> res (tensor * tensor).
  Variable inverse : tensor -> res tensor.
  Variable fsqrt : F -> F.

  (** A log is a nested dictionary, or one matrix (flattened log). With it come the data ids. *)
  Inductive lg := Nest (x : nd sval) | Flat (t : dten).
  Definition glog := (list string * lg)%type.

  (** [log[m][t]] used as a tensor *)
  Definition log_item (x : nd sval) (m t : string) : res dten :=
    let* y := nd_item x m in let* z := nd_item y t in as_dten z.
  Definition nd_keys (x : nd sval) : res (list string) :=
    match x with Node d => Ok (dkeys d) | Leaf _ => Err AttributeError end.

  Definition transpose (u : tensor) : tensor := mgen (nth 1 (shape u) 0) (nth 0 (shape u) 0) (fun i j => mget u j i).
  (** the size of a dimension named in two operands: equal sizes, or one of them is 1 and is expanded to the other;
      [at1 n i] is the index used in an operand that has size [n] *)
  Definition esize (b b' : nat) : res nat := if b =? b' then Ok b else if b =? 1 then Ok b' else if b' =? 1 then Ok b else Err RuntimeError.
  Definition at1 (n i : nat) : nat := if n =? 1 then 0 else i.
  (** einsum(u, g, v, "a b, batch b c, c d -> batch a d") *)
  Definition sandwich (u g v : tensor) : res tensor :=
    match shape u, shape g, shape v with
    | [a; b], [n; b'; c], [c'; d] =>
        let* B := esize b b' in
        let* C := esize c c' in
        Ok (tgen [n; a; d] (fun x => sum B (fun p => fmul (mget u (ix 1 x) (at1 b p))
              (sum C (fun q => fmul (tget g [ix 0 x; at1 b' p; at1 c q]) (mget v (at1 c' q) (ix 2 x)))))))
    | _, _, _ => Err RuntimeError
    end.
  (** [rotated_grad / full_eigval]: the matrix divides every sample. The two have the same sizes, those of the
      eigenvector matrices, so no other broadcast occurs. *)
  Definition div_each (g e : tensor) : res tensor :=
    match shape g, shape e with
    | [n; a; b], [a'; b'] =>
        if (a =? a') && (b =? b') then Ok (tgen [n; a; b] (fun x => fdiv (tget g x) (mget e (ix 1 x) (ix 2 x)))) else Err RuntimeError
    | _, _ => Err RuntimeError
    end.
  (** torch.outer of vectors *)
  Definition outer (u v : dten) : res tensor :=
    match shape (snd u), shape (snd v) with
    | [n], [m] => if dev_eqb (fst u) (fst v) then Ok (mgen n m (fun i j => fmul (tget (snd u) [i]) (tget (snd v) [j]))) else Err RuntimeError
    | _, _ => Err RuntimeError
    end.
  Definition tmean (t : tensor) : F := fdiv (tsum t) (fnat (numel t)).

  (** influence_function_utils.py:32-66, one module; [evn] is the attribute the eigenvalues come from. [.to(device)]
      returns the stored tensor itself when the devices agree, so [full_eigval += damping] changes it. The result
      includes the damping used, which the loop keeps. *)
  Definition kfac_module (evn : string) (ec src : nd sval) (m : string) (damping : option F) : SM lstate (dten * F) :=
    let! g := lift (log_item src m "grad") in
    let! fwd := lift (log_item ec m "forward") in
    let! bwd := lift (log_item ec m "backward") in
    let! ev := attr evn in
    let! y := lift (nd_item ev m) in
    let! full := lift (match y with
                       | Leaf (VT t) => Ok (snd t)
                       | Node _ =>
                           if nd_has y "forward" && nd_has y "backward" then
                             let* f := (let* z := nd_item y "forward" in as_dten z) in
                             let* b := (let* z := nd_item y "backward" in as_dten z) in
                             outer b f
                           else Err AssertionError
                       | _ => Err TypeError
                       end) in
    let l := match damping with None => fmul tenth (tmean full) | Some x => x end in
    let full' := tmap (fun e => fadd e l) full in
    (match y with
     | Leaf (VT t) => if dev_eqb (fst t) (fst g) then let! ev' := lift (nd_set1 ev m (VT (fst t, full'))) in set_attr evn ev' else sret tt
     | _ => sret tt
     end) ;;
    let! rot := lift (sandwich (transpose (snd bwd)) (snd g) (snd fwd)) in
    let! prec := lift (div_each rot full') in
    let! out := lift (sandwich (snd bwd) prec (transpose (snd fwd))) in
    sret ((fst g, out), l).
  Fixpoint kfac_loop (evn : string) (ec src : nd sval) (ms : list string) (damping : option F) (out : nd sval) : SM lstate (nd sval) :=
    match ms with
    | [] => sret out
    | m :: r =>
        let! pl := kfac_module evn ec src m damping in
        let! out' := lift (nd_set2 out m "grad" (VT (fst pl))) in
        kfac_loop evn ec src r (Some (snd pl)) out'
    end.
  (** influence_function_utils.py:25-68 *)
  Definition precondition_kfac (src : nd sval) (damping : option F) : SM lstate (nd sval) :=
    let! vw := get_covariance_svd_state eigh in
    let! s := sget in
    let evn := (if hasattr "ekfac_eigval_state" s then "ekfac_eigval_state" else "covariance_eigval_state")%string in
    let! ms := lift (nd_keys src) in
    kfac_loop evn (snd vw) src ms damping (Node []).

  Definition matmul (a b : tensor) : res tensor :=
    match shape a, shape b with
    | [n; k], [k'; l] => if k =? k' then Ok (mgen n l (fun i j => sum k (fun p => fmul (mget a i p) (mget b p j)))) else Err RuntimeError
    | _, _ => Err RuntimeError
    end.
  (** influence_function_utils.py:78-84, one module *)
  Definition raw_module (ci src : nd sval) (m : string) : res dten :=
    let* g := log_item src m "grad" in
    let* iv := log_item ci m "grad" in
    let* g2 := make_2d (snd g) None "grad" in
    let* p := matmul g2 (snd iv) in
    let* p := reshape p (shape (snd g)) in
    Ok (fst g, p).
  (** influence_function_utils.py:71-86 *)
  Definition precondition_raw (src : nd sval) (damping : option F) : SM lstate (nd sval) :=
    let! ci := get_covariance_inverse_state inverse damping in
    let! ms := lift (nd_keys src) in
    lift (foldM (fun out m => let* p := raw_module ci src m in nd_set2 out m "grad" (VT p)) ms (Node [])).

  (** influence_function.py:45-78 *)
  Definition precondition (log : glog) (damping : option F) (hessian : string) : SM lstate glog :=
    if mem hessian ["auto"; "kfac"; "raw"]%string then
      let! cs := attr "covariance_state" in
      match snd log with
      | Flat _ => sfail AttributeError
      | Nest src =>
          let! ms := lift (nd_keys src) in
          let! cms := lift (nd_keys cs) in
          if forallb (fun m => mem m cms) ms then
            let! raw := (if String.eqb hessian "raw" then sret true
                         else if String.eqb hessian "auto" then
                           match ms with
                           | [] => sfail IndexError
                           | m :: _ => let! y := lift (nd_item cs m) in sret (nd_has y "grad")
                           end
                         else sret false) in
            let! p := (if (raw : bool) then precondition_raw src damping else precondition_kfac src damping) in
            sret (fst log, Nest p)
          else sret log
      end
    else sfail AssertionError.

  (** influence_function_utils.py:89-99: all pairs of samples, features in row-major order *)
  Definition cross_dot_product (src tgt : dten) : res dten :=
    if same_shape (tl (shape (snd src))) (tl (shape (snd tgt))) then
      match shape (snd src), shape (snd tgt) with
      | n :: rest, m :: _ =>
          if dev_eqb (fst src) (fst tgt) then
            let k := prod rest in
            let a := T [n; k] (data (snd src)) in
            let b := T [m; k] (data (snd tgt)) in
            Ok (fst src, mgen n m (fun i j => sum k (fun p => fmul (mget a i p) (mget b j p))))
          else Err RuntimeError
      | _, _ => Err RuntimeError
      end
    else Err AssertionError.

  (** utils.py:187-195; one device *)
  Definition tcat1 (a b : tensor) : res tensor :=
    match shape a, shape b with
    | [n; k], [n'; l] => if n =? n' then Ok (mgen n (k + l) (fun i j => if j <? k then mget a i j else mget b i (j - k))) else Err RuntimeError
    | _, _ => Err RuntimeError
    end.
  (** utils.py:187-195 *)
  Definition flatten_log (log : nd sval) (path : list (string * string)) : res dten :=
    let* parts := mapM (fun p => let* d := log_item log (fst p) (snd p) in
                                 let* n := size0 (snd d) in
                                 let* r := reshape_infer (snd d) [n] [] in Ok (fst d, r)) path in
    match parts with
    | [] => Err RuntimeError
    | a :: r => foldM (fun acc x => if dev_eqb (fst acc) (fst x) then let* c := tcat1 (snd acc) (snd x) in Ok (fst acc, c) else Err RuntimeError) r a
    end.
  (** utils.py:202-220: the first tensor of [tgt] decides on the device [src] has under the same keys *)
  Definition first_item (x : nd sval) : option (string * string) :=
    match x with
    | Node d => hd_error (concat (map (fun p => match snd p with Node e => map (pair (fst p)) (dkeys e) | Leaf _ => [] end) d))
    | Leaf _ => None
    end.
  Definition move_to (dv : dev) (x : nd sval) : res (nd sval) :=
    match x with
    | Node d =>
        let* d' := mapM (fun p => match snd p with
          | Node e => let* e' := mapM (fun q => let* t := as_dten (snd q) in Ok (fst q, Leaf (VT (dv, snd t)))) e in Ok (fst p, Node e')
          | Leaf _ => Err AttributeError
          end) d in
        Ok (Node d')
    | Leaf _ => Err AttributeError
    end.
  (** utils.py:202-220 *)
  Definition synchronize_device (src tgt : nd sval) : res (nd sval) :=
    match first_item tgt with
    | None => Ok tgt
    | Some (m, t) => let* d := log_item src m t in move_to (fst d) tgt
    end.

  (** The score dictionary under construction: [None] is the integer 0. *)
  Definition scores := dict string (option dten).
  Definition init_scores (groups : option (list string)) : scores :=
    fold_left (fun d g => dset g None d) (match groups with Some l => l | None => [] end) [("total"%string, None)].
  Definition add_score (x : dten) (d : scores) (k : string) : res scores :=
    let* o := dgetM k d in
    let* o' := match o with None => Ok x | Some a => iadd_ a x end in
    Ok (dset k (Some o') d).
  (** influence_function.py:135-139 and 222-226: the total and every group whose name occurs in the module name *)
  Definition add_module (groups : option (list string)) (m : string) (x : dten) (d : scores) : res scores :=
    let* d := add_score x d "total" in
    foldM (add_score x) (match groups with Some l => filter (fun g => contains g m) l | None => [] end) d.
  (** [total_influence.pop("total")], or the dictionary *)
  Inductive ival := Mat (t : tensor) | Grp (d : dict string tensor).
  Definition pick (groups : option (list string)) (d : dict string tensor) : res ival :=
    match groups with None => let* t := dgetM "total"%string d in Ok (Mat t) | Some _ => Ok (Grp d) end.

  (** the entry of [t] used at an index of a larger tensor of rank three *)
  Definition pick_at (t : tensor) (i : list nat) : list nat := bclip (shape t) (skipn (3 - length (shape t)) i).
  (** a factor of the product: what is no tensor cannot be multiplied *)
  Definition factor (x : nd sval) (m : string) : res dten :=
    let* y := nd_item x m in let* z := nd_item y "grad" in match z with Leaf (VT t) => Ok t | _ => Err TypeError end.
  (** influence_function.py:211-220: the product, broadcast, summed over all but the first dimension *)
  Definition self_module (src tgt : nd sval) (m : string) : res dten :=
    let* a := factor src m in
    let* b := factor tgt m in
    if dev_eqb (fst a) (fst b) then
      let* sh := bcast (shape (snd a)) (shape (snd b)) in
      match sh with
      | [n; i; j] => Ok (fst a, tgen [n] (fun x => sum i (fun p => sum j (fun q =>
                        fmul (tget (snd a) (pick_at (snd a) [ix 0 x; p; q])) (tget (snd b) (pick_at (snd b) [ix 0 x; p; q]))))))
      | _ => Err RuntimeError
      end
    else Err RuntimeError.
  (** influence_function.py:180-240 *)
  Definition compute_self_influence (log : glog) (prec : bool) (hessian : string) (groups : option (list string))
      (damping : option F) : SM lstate (list string * ival) :=
    match snd log with
    | Flat _ => sfail NotImplementedError
    | Nest src =>
        let! tl := (if prec then precondition log damping hessian else sret log) in
        let! tgt := lift (match snd tl with Nest x => Ok x | Flat _ => Err TypeError end) in
        let! ms := lift (nd_keys src) in
        let! tot := lift (foldM (fun d m => let* x := self_module src tgt m in add_module groups m x d) ms (init_scores groups)) in
        let! vals := lift (mapM (fun p => match snd p with
                                          | None => Err TypeError
                                          | Some x => let* n := size0 (snd x) in
                                                      if n =? length (fst log) then Ok (fst p, snd x) else Err AssertionError
                                          end) tot) in
        let! v := lift (pick groups vals) in
        sret (fst log, v)
    end.

  (** influence_function.py:141-162: adjust by the norms of the targets, which compute_self_influence has moved to
      the CPU. [f value norm] is what happens to one entry. *)
  Definition adjust (f : F -> F -> F) (o : option dten) (norm : tensor) : res dten :=
    match shape norm with
    | [k] =>
        match o with
        | None => Ok (Cpu, mgen 1 k (fun _ j => f f0 (tget norm [j])))
        | Some (dv, t) =>
            match dv, shape t with
            | Cpu, [n; k'] => if (k =? k') || (k =? 1) then Ok (dv, mgen n k' (fun i j => f (mget t i j) (tget norm [at1 k j]))) else Err RuntimeError
            | _, _ => Err RuntimeError
            end
        end
    | _ => Err RuntimeError
    end.
  Definition half : F := fdiv f1 (fadd f1 f1).
  Definition adjust_all (f : F -> F -> F) (norm : ival) (tot : scores) : res scores :=
    mapM (fun p => let* nk := match norm with Mat t => Ok t | Grp d => dgetM (fst p) d end in
                   let* v := adjust f (snd p) nk in Ok (fst p, Some v)) tot.

  Record infres := InfRes { i_src : list string; i_tgt : list string; i_val : ival }.
  (** influence_function.py:80-178 *)
  Definition compute_influence (src_log tgt_log : glog) (mode : string) (prec : bool) (hessian : string)
      (groups : option (list string)) (damping : option F) : SM lstate infres :=
    if mem mode ["dot"; "l2"; "cosine"]%string then
      let! sl := (if prec then precondition src_log damping hessian else sret src_log) in
      let init := init_scores groups in
      let! pr := (match snd tgt_log with
        | Flat t =>
            let! mm := attr "model_module" in
            let! src := lift (match snd sl with Nest x => Ok x | Flat _ => Err IndexError end) in
            let path := match mm with Node d => match dget "path"%string d with Some (Leaf (VPath l)) => l | _ => [] end | Leaf _ => [] end in
            let! fs := lift (flatten_log src path) in
            let! x := lift (cross_dot_product fs (fst fs, snd t)) in
            let! tot := lift (add_score x init "total") in
            sret (tot, tgt_log)
        | Nest tgt =>
            let! src := lift (match snd sl with
                              | Nest x => Ok x
                              | Flat _ => match first_item tgt with Some _ => Err IndexError | None => Err AttributeError end
                              end) in
            let! tgt' := lift (synchronize_device src tgt) in
            let! ms := lift (nd_keys src) in
            let! tot := lift (foldM (fun d m =>
                let* a := log_item src m "grad" in
                let* b := log_item tgt' m "grad" in
                let* x := cross_dot_product a b in
                add_module groups m x d) ms init) in
            sret (tot, (fst tgt_log, Nest tgt'))
        end) in
      let! tot :=
        (if String.eqb mode "cosine" then
           let! nv := compute_self_influence (snd pr) true hessian groups damping in
           lift (adjust_all (fun v n => fdiv v (fsqrt n)) (snd nv) (fst pr))
         else if String.eqb mode "l2" then
           let! nv := compute_self_influence (snd pr) true hessian groups damping in
           lift (adjust_all (fun v n => fsub v (fmul half n)) (snd nv) (fst pr))
         else sret (fst pr)) in
      let! vals := lift (mapM (fun p => match snd p with
                                        | None => Err AttributeError
                                        | Some x =>
                                            match shape (snd x) with
                                            | [n; k] => if (n =? length (fst sl)) && (k =? length (fst tgt_log)) then Ok (fst p, snd x) else Err AssertionError
                                            | _ => Err IndexError
                                            end
                                        end) tot) in
      let! v := lift (pick groups vals) in
      sret (InfRes (fst sl) (fst tgt_log) v)
    else sfail AssertionError.

  (** influence_function_utils.py:102-127 on values: [None] is the empty result dictionary. [axis_src] selects the
      axis: rows for "src", columns for "tgt". *)
  Definition cat_axis (axis_src : bool) (a b : tensor) : res tensor :=
    if axis_src then tcat0 a b else tcat1 a b.
  Definition cat_groups (axis_src : bool) (d e : dict string tensor) : res (dict string tensor) :=
    mapM (fun p => let* t := dgetM (fst p) e in let* c := cat_axis axis_src (snd p) t in Ok (fst p, c)) d.
  Definition merge_val (axis_src : bool) (a b : ival) : res ival :=
    match b, a with
    | Grp e, Grp d => let* c := cat_groups axis_src d e in Ok (Grp c)
    | Grp _, Mat _ => Err AttributeError
    | Mat t, Mat u => let* c := cat_axis axis_src u t in Ok (Mat c)
    | Mat _, Grp _ => Err TypeError
    end.
  (** influence_function_utils.py:102-127 *)
  Definition merge_tgt (acc : option infres) (r : infres) : res (option infres) :=
    match acc with
    | None => Ok (Some r)
    | Some a => let* v := merge_val false (i_val a) (i_val r) in Ok (Some (InfRes (i_src a) (i_tgt a ++ i_tgt r) v))
    end.
  (** influence_function.py:267-278: the loop over the loader *)
  Fixpoint influence_loop (sl : glog) (loader : list glog) (mode hessian : string) (groups : option (list string))
      (damping : option F) (acc : option infres) : SM lstate (option infres) :=
    match loader with
    | [] => sret acc
    | b :: r =>
        let! x := compute_influence sl b mode false hessian groups damping in
        let! acc' := lift (merge_tgt acc x) in
        influence_loop sl r mode hessian groups damping acc'
    end.
  Definition influence_all (src_log : glog) (loader : list glog) (mode : string) (prec : bool) (hessian : string)
      (groups : option (list string)) (damping : option F) : SM lstate (option infres) :=
    let! sl := (if prec then precondition src_log damping hessian else sret src_log) in
    influence_loop sl loader mode hessian groups damping None.

  (** Result dictionaries as Python objects: the id lists and the dictionary of groups are shared by reference. *)
  Inductive oval := OMat (t : tensor) | ODict (l : nat).
  Record robj := RObj { o_src : nat; o_tgt : nat; o_val : oval }.
  Record ifn := IFn {
    if_state : lstate;
    h_lists : list (list string);
    h_dicts : list (dict string tensor);
    if_scores : option robj            (* self.influence_scores; None is {} *)
  }.
  Definition upd {A} (l : list A) (k : nat) (a : A) : list A := firstn k l ++ a :: skipn (S k) l.
  (** the fresh lists and dictionary of a result *)
  Definition alloc (r : infres) (f : ifn) : ifn * robj :=
    let n := length (h_lists f) in
    let ls := h_lists f ++ [i_src r; i_tgt r] in
    match i_val r with
    | Mat t => (IFn (if_state f) ls (h_dicts f) (if_scores f), RObj n (S n) (OMat t))
    | Grp d => (IFn (if_state f) ls (h_dicts f ++ [d]) (if_scores f), RObj n (S n) (ODict (length (h_dicts f))))
    end.
  (** one entry of the shared dictionary after the other; earlier ones stay replaced when a later one raises *)
  Fixpoint cat_in_place (ks : list string) (e d : dict string tensor) : dict string tensor * res unit :=
    match ks with
    | [] => (d, Ok tt)
    | k :: r =>
        match (let* a := dgetM k d in let* b := dgetM k e in tcat0 a b) with
        | Ok c => cat_in_place r e (dset k c d)
        | Err x => (d, Err x)
        end
    end.
  (** influence_function_utils.py:102-127 with axis="src" on the saved scores *)
  Definition merge_saved (o : robj) : SM ifn unit := fun f =>
    match if_scores f with
    | None => (IFn (if_state f) (h_lists f) (h_dicts f) (Some o), Ok tt)
    | Some a =>
        let ls := upd (h_lists f) (o_src a) (nth (o_src a) (h_lists f) [] ++ nth (o_src o) (h_lists f) []) in
        match o_val o, o_val a with
        | ODict l, ODict k =>
            let (d, r) := cat_in_place (dkeys (nth k (h_dicts f) [])) (nth l (h_dicts f) []) (nth k (h_dicts f) []) in
            (IFn (if_state f) ls (upd (h_dicts f) k d) (Some a), r)
        | ODict _, OMat _ => (IFn (if_state f) ls (h_dicts f) (Some a), Err AttributeError)
        | OMat t, OMat u =>
            match tcat0 u t with
            | Ok c => (IFn (if_state f) ls (h_dicts f) (Some (RObj (o_src a) (o_tgt a) (OMat c))), Ok tt)
            | Err e => (IFn (if_state f) ls (h_dicts f) (Some a), Err e)
            end
        | OMat _, ODict _ => (IFn (if_state f) ls (h_dicts f) (Some a), Err TypeError)
        end
    end.
  (** influence_function.py:242-283; the result [None] is the empty dictionary (no batch) *)
  Definition compute_influence_all (src_log : glog) (loader : list glog) (mode : string) (prec save : bool) (hessian : string)
      (groups : option (list string)) (damping : option F) : SM ifn (option robj) :=
    let! r := (fun f => match influence_all src_log loader mode prec hessian groups damping (if_state f) with
                        | (s, r) => (IFn s (h_lists f) (h_dicts f) (if_scores f), r) end) in
    match r with
    | None =>
        let! f := sget in
        (if save then match if_scores f with None => sret tt | Some _ => sfail KeyError end else sret tt) ;; sret None
    | Some x =>
        let! o := (fun f => let (f', o) := alloc x f in (f', Ok o)) in
        (if save then merge_saved o else sret tt) ;; sret (Some o)
    end.

  (** utils.py:166-184 [merge_log_dict], [merge_logs] *)
  Fixpoint merge_log_dict (merged : nd sval) (d : nd sval) {struct d} : res (nd sval) :=
    match d with
    | Leaf _ => Err AttributeError
    | Node l =>
        (fix go (l : list (string * nd sval)) (acc : nd sval) : res (nd sval) :=
           match l with
           | [] => Ok acc
           | (k, v) :: r =>
               match acc with
               | Leaf _ => Err TypeError
               | Node a =>
                   match v with
                   | Node _ =>
                       let* sub := merge_log_dict (match dget k a with Some y => y | None => Node [] end) v in
                       go r (Node (dset k sub a))
                   | Leaf x =>
                       match dget k a with
                       | None => go r (Node (dset k v a))
                       | Some (Leaf (VT t)) =>
                           match x with
                           | VT u => if dev_eqb (fst t) (fst u) then let* c := tcat0 (snd t) (snd u) in go r (Node (dset k (Leaf (VT (fst t, c))) a)) else Err RuntimeError
                           | _ => Err TypeError
                           end
                       | Some _ => Err TypeError
                       end
                   end
               end
           end) l merged
    end.
  (** utils.py:177-184 *)
  Definition merge_logs (logs : list (list string * nd sval)) : res (list string * nd sval) :=
    foldM (fun acc l => let* d := merge_log_dict (snd acc) (snd l) in Ok (fst acc ++ fst l, d)) logs ([], Node []).
End Influence.
