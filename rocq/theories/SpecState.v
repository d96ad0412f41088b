(** Specification vocabulary for statistics: what the rows of a batch are, and what a history of updates contains. *)
From Coq Require Import ZArith.
From Verif Require Import Py Field Tensor ModelGrad Monad ModelState SpecGrad.
Local Open Scope nat_scope.

Section Spec.
  Context {F : Type} `{OField F}.
  Notation tensor := (tensor F).
  Notation sval := (@sval F).
  Notation lstate := (@lstate F).
  Notation dten := (@dten F).
  Notation binfo := (@binfo F).

  (** the samples of a batch tensor *)
  Definition batch_size (t : tensor) : nat := hd 0 (shape t).
  Definition samples (t : tensor) : list tensor := map (slice t) (seq 0 (batch_size t)).
  (** vectors of a matrix *)
  Definition vectors (r k : nat) (f : nat -> nat -> F) : list (list F) :=
    map (fun a => map (f a) (seq 0 k)) (seq 0 r).
  (** The rows one sample contributes: the whole flattened sample for gradients; one feature vector per
      position for a linear layer; for a convolution one padded patch (forward) or one channel vector
      (backward) per output position. *)
  Definition sample_rows (module : option mkind) (log_type : string) (s : tensor) : list (list F) :=
    match module with
    | None => [data s]
    | Some (KLinear _ _) =>
        let k := last (shape s) 0 in
        vectors (prod (removelast (shape s))) k (fun p j => nth (p * k + j) (data s) f0)
    | Some (KConv2d g) =>
        if String.eqb log_type "forward" then
          match shape s with
          | [C; Hh; Ww] =>
              let OH := (Hh + 2 * c_ph g - c_kh g) / c_sh g + 1 in
              let OW := (Ww + 2 * c_pw g - c_kw g) / c_sw g + 1 in
              concat (map (fun oh => map (fun ow =>
                concat (map (fun c => concat (map (fun kh => map (fun kw =>
                  pixel (T [1; C; Hh; Ww] (data s)) Hh Ww 0 c
                    (Z.of_nat (oh * c_sh g + kh) - Z.of_nat (c_ph g)) (Z.of_nat (ow * c_sw g + kw) - Z.of_nat (c_pw g)))
                (seq 0 (c_kw g))) (seq 0 (c_kh g)))) (seq 0 C)))
              (seq 0 OW)) (seq 0 OH))
          | _ => []
          end
        else
          match shape s with
          | [C; OH; OW] => concat (map (fun oh => map (fun ow => map (fun c => tget s [c; oh; ow]) (seq 0 C)) (seq 0 OW)) (seq 0 OH))
          | _ => []
          end
    | _ => []
    end.

  (** Sums over a list of rows. *)
  (** a row of one entry counts for every column of a mean *)
  Definition row_entry (r : list F) (i : nat) : F := nth (if length r =? 1 then 0 else i) r f0.
  Definition row_sum (rows : list (list F)) (i : nat) : F := lsum (map (fun r => row_entry r i) rows).
  Definition row_prod (rows : list (list F)) (i j : nat) : F := lsum (map (fun r => fmul (nth i r f0) (nth j r f0)) rows).

  (** One call of Mean.update or Covariance.update. *)
  Inductive stat := SMean | SCov.
  Record call := Call {
    k_stat : stat; k_b : binfo; k_mod : option mkind; k_m : string; k_t : string; k_data : option dten; k_off : bool
  }.
  Definition do_call (c : call) : SM lstate unit :=
    match k_stat c with
    | SMean => mean_update (k_b c) (k_mod c) (k_m c) (k_t c) (k_data c) (k_off c)
    | SCov => covariance_update (k_b c) (k_mod c) (k_m c) (k_t c) (k_data c) (k_off c)
    end.
  Definition run_calls (cs : list call) : SM lstate unit := seach do_call cs.
  (** the calls for one statistic, module and log type *)
  Definition stat_eqb (a b : stat) : bool := match a, b with SMean, SMean | SCov, SCov => true | _, _ => false end.
  Definition calls_for (st : stat) (m t : string) (cs : list call) : list call :=
    filter (fun c => stat_eqb (k_stat c) st && (String.eqb (k_m c) m && String.eqb (k_t c) t)) cs.
  (** the tensor a call works on: the argument, or the batch log *)
  Definition call_tensor (c : call) : option tensor :=
    match k_data c with
    | Some d => Some (snd d)
    | None => match b_log (k_b c) with
              | Node d => match dget (k_m c) d with
                          | Some (Node e) => match dget (k_t c) e with Some (Leaf (VT x)) => Some (snd x) | _ => None end
                          | _ => None
                          end
              | Leaf _ => None
              end
    end.
  Definition call_samples (c : call) : list tensor := match call_tensor c with Some t => samples t | None => [] end.
  Definition call_rows (c : call) : list (list F) := concat (map (sample_rows (k_mod c) (k_t c)) (call_samples c)).
  (** what a call counts: samples, or unmasked positions *)
  Definition call_count (c : call) : F :=
    match b_mask (k_b c) with
    | Some mk => if String.eqb (k_t c) "grad" then fnat (length (call_samples c)) else tsum mk
    | None => fnat (length (call_samples c))
    end.
  Definition all_rows (cs : list call) : list (list F) := concat (map call_rows cs).
  Definition all_count (cs : list call) : F := lsum (map call_count cs).

  (** a linear layer's data has a batch dimension besides the features *)
  Definition batched (module : option mkind) (t : tensor) : Prop :=
    match module with Some (KLinear _ _) => 2 <= length (shape t) | _ => True end.
  (** a call on a well-formed non-empty batch *)
  Definition call_ok (c : call) : Prop :=
    exists t, call_tensor c = Some t /\ twf t /\ prod (shape t) <> 0 /\ batched (k_mod c) t.

  (** the tensor and the counter stored for a key *)
  Definition stat_name (st : stat) : string := match st with SMean => "mean_state" | SCov => "covariance_state" end.
  Definition counter_name (st : stat) : string := match st with SMean => "mean_counter" | SCov => "covariance_counter" end.
  Definition lookup2 (s : lstate) (a m t : string) : option sval :=
    match dget a (attrs s) with
    | Some (Node d) => match dget m d with Some (Node e) => match dget t e with Some (Leaf v) => Some v | _ => None end | _ => None end
    | _ => None
    end.
  Definition stored (s : lstate) (st : stat) (m t : string) : option tensor :=
    match lookup2 s (stat_name st) m t with Some (VT d) => Some (snd d) | _ => None end.
  (** mean and second moment over rows *)
  Definition moment (st : stat) (k : nat) (rows : list (list F)) (n : F) : tensor :=
    match st with
    | SMean => tgen [k] (fun i => fdiv (row_sum rows (nth 0 i 0)) n)
    | SCov => mgen k k (fun i j => fdiv (row_prod rows i j) n)
    end.
  (** the shape of a statistic over rows of length [k], and its undivided entries *)
  Definition zsh (st : stat) (k : nat) : list nat := match st with SMean => [k] | SCov => [k; k] end.
  Definition rowstat (st : stat) (rows : list (list F)) (idx : list nat) : F :=
    match st with SMean => row_sum rows (nth 0 idx 0) | SCov => row_prod rows (nth 0 idx 0) (nth 1 idx 0) end.
  Definition width (rows : list (list F)) : nat := length (hd [] rows).
  (** rows that can be added to a statistic over rows of length [k] *)
  Definition rows_fit (st : stat) (k : nat) (rows : list (list F)) : Prop := Forall (fun r => length r = k \/ st = SMean /\ length r = 1) rows.
  (** the operations of the library on the state and its files *)
  Inductive sop :=
  | OCall (c : call) | OVariance (b : binfo) (module : option mkind) (m t : string) (data : option dten) (off : bool)
  | OEigval (b : binfo) (m : string) (data : option dten) (off : bool)
  | OSvd | OInverse (damping : option F) | OGetInverse (damping : option F) | OGetSvd
  | OSet (name key : string) (v : sval) | OSave | OLoad | OFinalize | OClear.
  Section Ops.
    Variable eigh : tensor -> res (tensor * tensor).
    Variable inverse : tensor -> res tensor.
    (** one operation; exceptions are caught by the caller and the changes made before them stay *)
    Definition run_sop (o : sop) (p : lstate * @sdisk F) : lstate * @sdisk F :=
      let (s, dk) := p in
      match o with
      | OCall c => (fst (do_call c s), dk)
      | OVariance b mo m t d off => (fst (variance_update b mo m t d off s), dk)
      | OEigval b m d off => (fst (corrected_eigval_update eigh b m d off s), dk)
      | OSvd => (fst (covariance_svd eigh s), dk)
      | OInverse d => (fst (covariance_inverse inverse d s), dk)
      | OGetInverse d => (fst (get_covariance_inverse_state inverse d s), dk)
      | OGetSvd => (fst (get_covariance_svd_state eigh s), dk)
      | OSet n k v => (fst (set_state n k v s), dk)
      | OSave => match save_state dk s with (s', Ok dk') => (s', dk') | (s', Err _) => (s', dk) end
      | OLoad => (fst (load_state dk s), dk)
      | OFinalize => match finalize dk s with (s', Ok dk') => (s', dk') | (s', Err _) => (s', dk) end
      | OClear => (fst (state_clear s), dk)
      end.
    Definition run_sops (os : list sop) : lstate * @sdisk F := fold_left (fun p o => run_sop o p) os (state_init, SDisk [] None).
  End Ops.
  (** One call of CorrectedEigval.update. *)
  Record ecall := ECall { e_b : binfo; e_m : string; e_off : bool }.
  Definition run_ecalls (eigh : tensor -> res (tensor * tensor)) (es : list ecall) : SM lstate unit :=
    seach (fun e => corrected_eigval_update eigh (e_b e) (e_m e) None (e_off e)) es.
  (** the samples of the logged gradients of a module *)
  Definition logged_grads (e : ecall) : list tensor :=
    match b_log (e_b e) with
    | Node d => match dget (e_m e) d with
                | Some (Node l) => match dget "grad"%string l with Some (Leaf (VT x)) => samples (snd x) | _ => [] end
                | _ => []
                end
    | Leaf _ => []
    end.
  Definition grads_for (m : string) (es : list ecall) : list tensor :=
    concat (map logged_grads (filter (fun e => String.eqb (e_m e) m) es)).
  Definition grad_wf (e : ecall) : Prop := forall d, get_data (e_b e) (e_m e) "grad" None = Ok d -> twf (snd d).
  (** the corrected eigenvalues of a module *)
  Definition eig_entry (s : lstate) (m : string) : option tensor :=
    match dget "ekfac_eigval_state"%string (attrs s) with
    | Some (Node d) => match dget m d with Some (Leaf (VT x)) => Some (snd x) | _ => None end
    | _ => None
    end.
  (** inner product of a matrix with the outer product of column [a] of [u] and column [c] of [v] *)
  Definition project (u v : tensor) (a c : nat) (g : tensor) : F :=
    sum (nth 0 (shape g) 0) (fun p => sum (nth 1 (shape g) 0) (fun q => fmul (mget g p q) (fmul (mget u p a) (mget v q c)))).
  (** The order in which the keys of a statistic are first touched. *)
  Fixpoint firsts {A} `{Eqb A} (l : list A) : list A :=
    match l with [] => [] | a :: r => a :: filter (fun b => negb (eqb a b)) (firsts r) end.
  Definition touched (st : stat) (cs : list call) : list (string * string) :=
    firsts (map (fun c => (k_m c, k_t c)) (filter (fun c => stat_eqb (k_stat c) st) cs)).
  (** the same values, all on the CPU *)
  Definition on_cpu (v : sval) : sval := match v with VT (_, x) => VT (Cpu, x) | _ => v end.
  Fixpoint nd_map (f : sval -> sval) (x : nd sval) : nd sval :=
    match x with
    | Leaf v => Leaf (f v)
    | Node d => Node ((fix go (l : list (string * nd sval)) := match l with [] => [] | (k, y) :: r => (k, nd_map f y) :: go r end) d)
    end.
  Definition cpu_state (s : lstate) : lstate := with_attrs s (map (fun p => (fst p, nd_map on_cpu (snd p))) (attrs s)).
  Definition with_offload (o : bool) (c : call) : call := Call (k_stat c) (k_b c) (k_mod c) (k_m c) (k_t c) (k_data c) o.
  (** the (module, sample) pairs a list of calls works on *)
  Definition entries (cs : list call) : list (option mkind * tensor) :=
    concat (map (fun c => map (pair (k_mod c)) (call_samples c)) cs).
  (** calls whose count is their number of samples *)
  Definition unmasked (c : call) : Prop := b_mask (k_b c) = None \/ k_t c = "grad"%string.
  (** several phases of logging, each ended by finalize *)
  Fixpoint run_phases (dk : @sdisk F) (ps : list (list call)) : SM lstate unit :=
    match ps with
    | [] => sret tt
    | cs :: r => run_calls cs ;; let! dk' := finalize dk in run_phases dk' r
    end.
  (** one entry of a statistic and its count after one more phase in which the calls [ccs] concerned it: nothing
      if it was never touched, else the old, already divided entry plus the new rows, divided by the total count *)
  Definition refinalized (st : stat) (idx : list nat) (acc : option (F * F)) (ccs : list call) : option (F * F) :=
    match acc, ccs with
    | None, [] => None
    | None, _ => Some (fdiv (rowstat st (all_rows ccs) idx) (all_count ccs), all_count ccs)
    | Some (v, n), _ => Some (fdiv (fadd v (rowstat st (all_rows ccs) idx)) (fadd n (all_count ccs)), fadd n (all_count ccs))
    end.
  (** the registries *)
  Definition registries (s : lstate) := (st_states s, st_sync s, st_save s, st_norm s, st_noclear s).
  (** all rows have one length *)
  Definition same_width (rows : list (list F)) : Prop := forall r r', In r rows -> In r' rows -> length r = length r'.
  (** no counter has an entry, as in a fresh or cleared state *)
  Definition no_counts (s : lstate) : Prop := dget "mean_counter"%string (attrs s) = Some (Node []) /\ dget "covariance_counter"%string (attrs s) = Some (Node []).
End Spec.
