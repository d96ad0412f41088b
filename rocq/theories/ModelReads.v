(** Second model of the influence functions, with the dictionaries as objects: what a read leaves behind. Live logs
    (batch_info.py:26), merged logs (utils.py:179), preconditioned gradients (influence_function_utils.py:30, 76) and
    the state attributes (state.py:70) are default dictionaries, in which reading a missing key inserts an empty
    dictionary (utils.py:159-163); the batches of the log loader (log_loader.py:60-82, log_loader_utils.py:90-108) are
    ordinary dictionaries, in which it raises KeyError. [synchronize_device] moves the tensors of the target in place. *)
From Verif Require Import Py PyStr Field Tensor ModelGrad Monad ModelState ModelInfluence.
Local Open Scope nat_scope.

Section Reads.
  Context {F : Type} `{OField F}.
  Notation tensor := (tensor F).
  Notation sval := (@sval F).
  Notation lstate := (@lstate F).
  Notation dten := (@dten F).
  Variable eigh : tensor -> res (tensor * tensor).
  Variable inverse : tensor -> res tensor.
  Variable fsqrt : F -> F.

  (** The state and the log dictionaries that exist; [true] marks a default dictionary (at every level). *)
  Record world := World { w_st : lstate; w_logs : list (bool * nd sval) }.
  (** A log passed to a function: a reference to a dictionary, or one matrix. With it come the data ids. *)
  Inductive lref := At (r : nat) | One (t : dten).
  Definition rlog := (list string * lref)%type.

  Definition on_st {A} (f : SM lstate A) : SM world A := fun w => let (s, r) := f (w_st w) in (World s (w_logs w), r).
  (** the dictionary behind a reference; every reference passed around is valid *)
  Definition logs_at (r : nat) : SM world (bool * nd sval) := fun w =>
    (w, match nth_error (w_logs w) r with Some x => Ok x | None => Err IndexError end).
  Definition write_log (r : nat) (x : bool * nd sval) : SM world unit := fun w => (World (w_st w) (upd (w_logs w) r x), Ok tt).

  (** utils.py:159-163: [x[k]]: the dictionary afterwards, and the value *)
  Definition getitem (dflt : bool) (x : nd sval) (k : string) : nd sval * res (nd sval) :=
    match x with
    | Leaf _ => (x, Err TypeError)
    | Node d =>
        match dget k d with
        | Some y => (x, Ok y)
        | None => if dflt then (Node (dset k (Node []) d), Ok (Node [])) else (x, Err KeyError)
        end
    end.
  (** [x[m][t]] *)
  Definition getitem2 (dflt : bool) (x : nd sval) (m t : string) : nd sval * res (nd sval) :=
    match getitem dflt x m with
    | (x', Ok y) =>
        let (y', r) := getitem dflt y t in
        (match x' with Node d => Node (dset m y' d) | Leaf _ => x' end, r)
    | (x', Err e) => (x', Err e)
    end.
  (** [log[m][t]] *)
  Definition read (r : nat) (m t : string) : SM world (nd sval) :=
    let! x := logs_at r in
    let (y, o) := getitem2 (fst x) (snd x) m t in
    write_log r (fst x, y) ;; lift o.
  (** [state.a[m]], [state.a[m][t]] *)
  Definition item (a m : string) : SM lstate (nd sval) :=
    let! x := attr a in
    let (y, o) := getitem true x m in
    set_attr a y ;; lift o.
  Definition item2 (a m t : string) : SM lstate (nd sval) :=
    let! x := attr a in
    let (y, o) := getitem2 true x m t in
    set_attr a y ;; lift o.

  (** a read whose result is used as a tensor right away ([.device], [.to], [.shape]) *)
  Definition read_t (r : nat) (m t : string) : SM world dten := let! x := read r m t in lift (as_dten x).
  Definition item2_t (a m t : string) : SM lstate dten := let! x := item2 a m t in lift (as_dten x).

  (** influence_function_utils.py:44-66: what [kfac_module] does once its operands are read; [y] is [cov_eigval[m]] *)
  Definition kfac_rest (evn : string) (g fwd bwd : dten) (y : nd sval) (m : string) (damping : option F) : SM lstate (dten * F) :=
    let! ev := attr evn in
    let! full := lift (match y with
                       | Leaf (VT t) => Ok (snd t)
                       | Node _ =>
                           if nd_has y "forward" && nd_has y "backward" then
                             let* f := (let* z := nd_item y "forward" in as_dten z) in
                             let* b := (let* z := nd_item y "backward" in as_dten z) in
                             outer b f
                           else Err AssertionError
                       | _ => Err TypeError
                       end) in
    let l := match damping with None => fmul tenth (tmean full) | Some x => x end in
    let full' := tmap (fun e => fadd e l) full in
    (match y with
     | Leaf (VT t) => if dev_eqb (fst t) (fst g) then let! ev' := lift (nd_set1 ev m (VT (fst t, full'))) in set_attr evn ev' else sret tt
     | _ => sret tt
     end) ;;
    let! rot := lift (sandwich (transpose (snd bwd)) (snd g) (snd fwd)) in
    let! prec := lift (div_each rot full') in
    let! out := lift (sandwich (snd bwd) prec (transpose (snd fwd))) in
    sret ((fst g, out), l).
  (** influence_function_utils.py:32-66 *)
  Definition kfac_module_r (evn : string) (r : nat) (m : string) (damping : option F) : SM world (dten * F) :=
    let! g := read_t r m "grad" in
    let! fwd := on_st (item2_t "covariance_eigvec_state" m "forward") in
    let! bwd := on_st (item2_t "covariance_eigvec_state" m "backward") in
    let! y := on_st (item evn m) in
    on_st (kfac_rest evn g fwd bwd y m damping).
  Fixpoint kfac_loop_r (evn : string) (r : nat) (ms : list string) (damping : option F) (out : nd sval) : SM world (nd sval) :=
    match ms with
    | [] => sret out
    | m :: l =>
        let! pl := kfac_module_r evn r m damping in
        let! out' := lift (nd_set2 out m "grad" (VT (fst pl))) in
        kfac_loop_r evn r l (Some (snd pl)) out'
    end.
  (** influence_function_utils.py:25-68 *)
  Definition precondition_kfac_r (r : nat) (damping : option F) : SM world (nd sval) :=
    on_st (get_covariance_svd_state eigh) ;;
    let! s := on_st sget in
    let evn := (if hasattr "ekfac_eigval_state" s then "ekfac_eigval_state" else "covariance_eigval_state")%string in
    let! x := logs_at r in
    let! ms := lift (nd_keys (snd x)) in
    kfac_loop_r evn r ms damping (Node []).
  (** influence_function_utils.py:78-84 *)
  Definition raw_module_r (r : nat) (m : string) : SM world dten :=
    let! g := read_t r m "grad" in
    let! iv := on_st (item2_t "covariance_inverse_state" m "grad") in
    let! g2 := lift (make_2d (snd g) None "grad") in
    let! p := lift (matmul g2 (snd iv)) in
    let! p := lift (reshape p (shape (snd g))) in
    sret (fst g, p).
  Fixpoint raw_loop_r (r : nat) (ms : list string) (out : nd sval) : SM world (nd sval) :=
    match ms with
    | [] => sret out
    | m :: l =>
        let! p := raw_module_r r m in
        let! out' := lift (nd_set2 out m "grad" (VT p)) in
        raw_loop_r r l out'
    end.
  (** influence_function_utils.py:71-86 *)
  Definition precondition_raw_r (r : nat) (damping : option F) : SM world (nd sval) :=
    on_st (get_covariance_inverse_state inverse damping) ;;
    let! x := logs_at r in
    let! ms := lift (nd_keys (snd x)) in
    raw_loop_r r ms (Node []).
  (** the new dictionary of the preconditioned gradients *)
  Definition new_log (x : nd sval) : SM world nat := fun w => (World (w_st w) (w_logs w ++ [(true, x)]), Ok (length (w_logs w))).
  (** influence_function.py:45-78 *)
  Definition precondition_r (log : rlog) (damping : option F) (hessian : string) : SM world rlog :=
    if mem hessian ["auto"; "kfac"; "raw"]%string then
      let! cs := on_st (attr "covariance_state") in
      match snd log with
      | One _ => sfail AttributeError
      | At r =>
          let! x := logs_at r in
          let! ms := lift (nd_keys (snd x)) in
          let! cms := lift (nd_keys cs) in
          if forallb (fun m => mem m cms) ms then
            let! raw := (if String.eqb hessian "raw" then sret true
                         else if String.eqb hessian "auto" then
                           match ms with
                           | [] => sfail IndexError
                           | m :: _ => let! y := on_st (item "covariance_state" m) in sret (nd_has y "grad")
                           end
                         else sret false) in
            let! p := (if (raw : bool) then precondition_raw_r r damping else precondition_kfac_r r damping) in
            let! n := new_log p in
            sret (fst log, At n)
          else sret log
      end
    else sfail AssertionError.

  (** utils.py:187-195 *)
  Fixpoint flat_parts (r : nat) (path : list (string * string)) : SM world (list dten) :=
    match path with
    | [] => sret []
    | (m, t) :: l =>
        let! d := read_t r m t in
        let! n := lift (size0 (snd d)) in
        let! p := lift (reshape_infer (snd d) [n] []) in
        let! ps := flat_parts r l in
        sret ((fst d, p) :: ps)
    end.
  Definition flatten_log_r (r : nat) (path : list (string * string)) : SM world dten :=
    let! parts := flat_parts r path in
    lift (match parts with
          | [] => Err RuntimeError
          | a :: l => foldM (fun acc x => if dev_eqb (fst acc) (fst x) then let* c := tcat1 (snd acc) (snd x) in Ok (fst acc, c) else Err RuntimeError) l a
          end).

  (** utils.py:216-220: one tensor after the other is replaced; those before one that cannot be moved stay moved *)
  Fixpoint move_entries (dv : dev) (e : list (string * nd sval)) : list (string * nd sval) * res unit :=
    match e with
    | [] => ([], Ok tt)
    | (k, y) :: r =>
        match as_dten y with
        | Ok t => let (r', o) := move_entries dv r in ((k, Leaf (VT (dv, snd t))) :: r', o)
        | Err x => (e, Err x)
        end
    end.
  Fixpoint move_modules (dv : dev) (d : list (string * nd sval)) : list (string * nd sval) * res unit :=
    match d with
    | [] => ([], Ok tt)
    | (m, Node e) :: r =>
        match move_entries dv e with
        | (e', Ok _) => let (r', o) := move_modules dv r in ((m, Node e') :: r', o)
        | (e', Err x) => ((m, Node e') :: r, Err x)
        end
    | (m, Leaf _) :: r => (d, Err AttributeError)
    end.
  Definition move_log (dv : dev) (x : nd sval) : nd sval * res unit :=
    match x with Node d => let (d', o) := move_modules dv d in (Node d', o) | Leaf _ => (x, Err AttributeError) end.
  (** utils.py:202-220 *)
  Definition synchronize_device_r (src tgt : nat) : SM world unit :=
    let! x := logs_at tgt in
    match first_item (snd x) with
    | None => sret tt
    | Some (m, t) =>
        let! d := read_t src m t in
        let! x := logs_at tgt in
        let (z, o) := move_log (fst d) (snd x) in
        write_log tgt (fst x, z) ;; lift o
    end.

  (** influence_function.py:205-226: the loop of compute_self_influence *)
  Definition as_factor (x : nd sval) : res dten := match x with Leaf (VT t) => Ok t | _ => Err TypeError end.
  Definition multiply (a b : dten) : res dten :=
    if dev_eqb (fst a) (fst b) then
      let* sh := bcast (shape (snd a)) (shape (snd b)) in
      match sh with
      | [n; i; j] => Ok (fst a, tgen [n] (fun x => sum i (fun p => sum j (fun q =>
                        fmul (tget (snd a) (pick_at (snd a) [ix 0 x; p; q])) (tget (snd b) (pick_at (snd b) [ix 0 x; p; q]))))))
      | _ => Err RuntimeError
      end
    else Err RuntimeError.
  Fixpoint self_loop_r (groups : option (list string)) (src tgt : nat) (ms : list string) (d : scores) : SM world scores :=
    match ms with
    | [] => sret d
    | m :: l =>
        let! x := read src m "grad" in
        let! y := read tgt m "grad" in
        let! a := lift (as_factor x) in
        let! b := lift (as_factor y) in
        let! z := lift (multiply a b) in
        let! d' := lift (add_module groups m z d) in
        self_loop_r groups src tgt l d'
    end.
  (** influence_function.py:180-240 *)
  Definition compute_self_influence_r (log : rlog) (prec : bool) (hessian : string) (groups : option (list string))
      (damping : option F) : SM world (list string * ival) :=
    match snd log with
    | One _ => sfail NotImplementedError
    | At src =>
        let! tl := (if prec then precondition_r log damping hessian else sret log) in
        let! tgt := lift (match snd tl with At r => Ok r | One _ => Err TypeError end) in
        let! x := logs_at src in
        let! ms := lift (nd_keys (snd x)) in
        let! tot := self_loop_r groups src tgt ms (init_scores groups) in
        let! vals := lift (mapM (fun p => match snd p with
                                          | None => Err TypeError
                                          | Some x => let* n := size0 (snd x) in
                                                      if n =? length (fst log) then Ok (fst p, snd x) else Err AssertionError
                                          end) tot) in
        let! v := lift (pick groups vals) in
        sret (fst log, v)
    end.

  (** influence_function.py:130-139: the loop of compute_influence *)
  Fixpoint dot_loop_r (groups : option (list string)) (src tgt : nat) (ms : list string) (d : scores) : SM world scores :=
    match ms with
    | [] => sret d
    | m :: l =>
        let! x := read src m "grad" in
        let! y := read tgt m "grad" in
        let! a := lift (as_dten x) in
        let! b := lift (as_dten y) in
        let! z := lift (cross_dot_product a b) in
        let! d' := lift (add_module groups m z d) in
        dot_loop_r groups src tgt l d'
    end.
  (** influence_function.py:80-178 *)
  Definition compute_influence_r (src_log tgt_log : rlog) (mode : string) (prec : bool) (hessian : string)
      (groups : option (list string)) (damping : option F) : SM world infres :=
    if mem mode ["dot"; "l2"; "cosine"]%string then
      let! sl := (if prec then precondition_r src_log damping hessian else sret src_log) in
      let init := init_scores groups in
      let! tot := (match snd tgt_log with
        | One t =>
            let! mm := on_st (attr "model_module") in
            let! src := lift (match snd sl with At r => Ok r | One _ => Err IndexError end) in
            let path := match mm with Node d => match dget "path"%string d with Some (Leaf (VPath l)) => l | _ => [] end | Leaf _ => [] end in
            let! fs := flatten_log_r src path in
            let! x := lift (cross_dot_product fs (fst fs, snd t)) in
            lift (add_score x init "total")
        | At tgt =>
            let! x := logs_at tgt in
            let! src := lift (match snd sl with
                              | At r => Ok r
                              | One _ => match first_item (snd x) with Some _ => Err IndexError | None => Err AttributeError end
                              end) in
            synchronize_device_r src tgt ;;
            let! x := logs_at src in
            let! ms := lift (nd_keys (snd x)) in
            dot_loop_r groups src tgt ms init
        end) in
      let! tot :=
        (if String.eqb mode "cosine" then
           let! nv := compute_self_influence_r tgt_log true hessian groups damping in
           lift (adjust_all (fun v n => fdiv v (fsqrt n)) (snd nv) tot)
         else if String.eqb mode "l2" then
           let! nv := compute_self_influence_r tgt_log true hessian groups damping in
           lift (adjust_all (fun v n => fsub v (fmul half n)) (snd nv) tot)
         else sret tot) in
      let! vals := lift (mapM (fun p => match snd p with
                                        | None => Err AttributeError
                                        | Some x =>
                                            match shape (snd x) with
                                            | [n; k] => if (n =? length (fst sl)) && (k =? length (fst tgt_log)) then Ok (fst p, snd x) else Err AssertionError
                                            | _ => Err IndexError
                                            end
                                        end) tot) in
      let! v := lift (pick groups vals) in
      sret (InfRes (fst sl) (fst tgt_log) v)
    else sfail AssertionError.

  (** The calls a user can make on an InfluenceFunction, and a program of them; exceptions are caught. *)
  Inductive icall :=
  | CPrec (log : rlog) (damping : option F) (hessian : string)
  | CInf (src tgt : rlog) (mode : string) (prec : bool) (hessian : string) (groups : option (list string)) (damping : option F)
  | CSelf (log : rlog) (prec : bool) (hessian : string) (groups : option (list string)) (damping : option F).
  Definition run_call (c : icall) (w : world) : world :=
    match c with
    | CPrec l d h => fst (precondition_r l d h w)
    | CInf s t m p h g d => fst (compute_influence_r s t m p h g d w)
    | CSelf l p h g d => fst (compute_self_influence_r l p h g d w)
    end.
  Definition run_calls (cs : list icall) (w : world) : world := fold_left (fun w c => run_call c w) cs w.
End Reads.
