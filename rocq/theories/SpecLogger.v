(** Specification vocabulary for the logger: reachable objects, gradient contributions of a list of events. *)
From Coq Require Import ZArith Permutation Sorting.Sorted.
From Verif Require Import Py Field Tensor ModelGrad Monad ModelState ModelMmap ModelSaver ModelLogger SpecGrad SpecState.
Local Open Scope nat_scope.

(** ---- plugin lists ---- *)
(** the plugin a user's list element denotes *)
Definition known_name (s : string) : option plugin :=
  if String.eqb s "log" then Some PLog else if String.eqb s "mean" then Some PMean
  else if String.eqb s "variance" then Some PVariance else if String.eqb s "covariance" then Some PCovariance
  else if String.eqb s "corrected_eigval" then Some PCorrectedEigval else None.
Definition known (a : parg) : option plugin :=
  match a with AStr s => known_name s | AClass p => Some p | AOther => None end.
(** the fixed order *)
Definition rank (p : plugin) : nat :=
  match p with PLog => 0 | PMean => 1 | PVariance => 2 | PCovariance => 3 | PCorrectedEigval => 4 end.
Definition in_order : list plugin -> Prop := Sorted.StronglySorted (fun p q => rank p < rank q).
(** [ps] is the normal form of the request [l] *)
Definition requested (l : list parg) (ps : list plugin) : Prop :=
  in_order ps /\ forall p, In p ps <-> exists a, In a l /\ known a = Some p.
Definition map_known (l : list parg) : list plugin :=
  concat (map (fun a => match known a with Some p => [p] | None => [] end) l).
Definition all_known (l : list parg) : Prop := forall a, In a l -> known a <> None.

(** the row of one sample, module and kind in a buffer *)
Definition sub_cell (b : nd array) (m t : string) : option array :=
  match b with
  | Node l => match dget m l with Some (Node q) => match dget t q with Some (Leaf a) => Some a | _ => None end | _ => None end
  | Leaf _ => None
  end.
Definition cell (buf : dict did (nd array)) (i : did) (m t : string) : option array :=
  match dget i buf with Some b => sub_cell b m t | None => None end.

Section Spec.
  Context {F : Type} `{OField F}.
  Notation tensor := (tensor F).
  Notation dten := (@dten F).
  Notation uten := (@uten F).
  Notation lx := (@lx F).
  Notation ev := (@ev F).
  Notation op := (@op F).

  Section Ext.
    Variable kind : mid -> mkind.
    Variable wsize : mid -> nat.
    Variable eigh : tensor -> res (tensor * tensor).
    Variable enc : dten -> array.
    (** a LogIX object after any sequence of public operations and program events *)
    Definition reachable (x : lx) : Prop :=
      exists w t off (os : list op), x = run_ops kind wsize eigh enc os (lx_init w t off).
  End Ext.

  (** the three hooks of every watched module, once per watch *)
  Definition hook_triple (p : mid * string) : list hook := [HPre (fst p) (snd p); HBack (fst p) (snd p); HFwd (fst p) (snd p)].
  Definition name_of (ns : dict mid string) (m : mid) : string := match dget m ns with Some n => n | None => ""%string end.
  Definition installed (x : lx) : list hook :=
    concat (map (fun m => hook_triple (m, name_of (x_names x) m)) (x_mods x)).

  (** how often a module has been watched *)
  Definition times (m : mid) (ms : list mid) : nat := length (filter (Nat.eqb m) ms).

  (** backward passes only of calls made in the same list of events (or of the calls [cs]) *)
  Fixpoint own_backward (cs : list nat) (es : list ev) : Prop :=
    match es with
    | [] => True
    | MCall c _ _ _ _ :: r => own_backward (c :: cs) r
    | MBack c _ :: r => In c cs /\ own_backward cs r
    | _ :: r => own_backward cs r
    end.
  (** operations that do not ask for saving *)
  Definition unsaved (o : op) : Prop :=
    match o with
    | XCall _ _ save => save = false | XEnd save => save = false | XSave enable => enable = false
    | XFinalize | XClear => False
    | _ => True
    end.

  (** buffer, log directory and state files are untouched; the buffered rows too, unless some are memory of the batch
      log (see C92) *)
  Definition same_store (x x' : lx) : Prop :=
    dkeys (s_buffer (x_saver x')) = dkeys (s_buffer (x_saver x)) /\
    (x_views x = [] -> s_buffer (x_saver x') = s_buffer (x_saver x) /\ x_views x' = []) /\
    s_size (x_saver x') = s_size (x_saver x) /\
    s_count (x_saver x') = s_count (x_saver x) /\ x_dir x' = x_dir x /\ x_disk x' = x_disk x.

  (** a batch begins: start(), or entering [with logix(...)] *)
  Definition begins (ids : list did) (mask : option dten) (x x1 : lx) : Prop :=
    lx_start ids mask x = (x1, Ok tt) \/ exists save, (lx_call ids mask save ;; lx_enter) x = (x1, Ok tt).

  (** a batch ends: end(), or leaving the block; [asked]: saving is asked for *)
  Definition ends (eigh : tensor -> res (tensor * tensor)) (enc : dten -> array) (asked : bool) (x x' : lx) (r : res unit) : Prop :=
    (exists save, asked = (save || x_save x)%bool /\ lx_end eigh enc save x = (x', r)) \/
    (asked = (x_save_batch x || x_save x)%bool /\ lx_exit eigh enc x = (x', r)).

  (** ---- the gradients a list of events delivers ---- *)
  (** memory of the program, and the calls of this batch: (output, (module, input)) *)
  Definition mem_get (h : list (tid * uten)) (t : tid) : dten := u_d (uget h t).
  (** (module, its input, the gradient of its output), in order of arrival *)
  Fixpoint deliveries (h : list (tid * uten)) (outs : list (tid * (mid * tid))) (es : list ev) : list (mid * (dten * dten)) :=
    match es with
    | [] => []
    | MTensor t u :: r => deliveries (dset t u h) outs r
    | MCall _ m [i] (OutTensor o u) _ :: r => deliveries (dset o u h) (outs ++ [(o, (m, i))]) r
    | MCall _ m _ (OutTensor o u) _ :: r => deliveries (dset o u h) outs r
    | MCall _ _ _ _ _ :: r => deliveries h outs r
    | MGrad t g :: r =>
        map (fun p => (fst (snd p), (mem_get h (snd (snd p)), mem_get h g))) (filter (fun p => t =? fst p) outs)
        ++ deliveries h outs r
    | _ :: r => deliveries h outs r
    end.
  (** the output tensors of the calls, with module and input *)
  Definition outputs (es : list ev) : list (tid * (mid * tid)) :=
    concat (map (fun e => match e with MCall _ m [i] (OutTensor t _) _ => [(t, (m, i))] | _ => [] end) es).
  (** [t] is the sum of the tensors [ts] *)
  Definition sum_of (ts : list tensor) (t : tensor) : Prop :=
    twf t /\ Forall (fun u => shape u = shape t) ts /\
    forall idx, valid (shape t) idx -> tget t idx = lsum (map (fun u => tget u idx) ts).
  (** [t] is the sum of the tensors [ts], in the shape of the first one: the entry of each tensor that counts at
      [idx] is the one at [idx], aligned at the last dimension, with 0 for the dimensions of size 1 *)
  Definition fits (a b : list nat) : Prop := length a <= length b /\ forall k, size_at k a = size_at k b \/ size_at k a = 1.
  Definition entry_at (sh idx : list nat) : list nat :=
    rev (map (fun k => if size_at k sh =? 1 then 0 else nth k (rev idx) 0) (seq 0 (length sh))).
  Definition sum_onto (ts : list tensor) (t : tensor) : Prop :=
    twf t /\ shape t = shape (hd t ts) /\ Forall (fun u => fits (shape u) (shape t)) ts /\
    forall idx, valid (shape t) idx -> tget t idx = lsum (map (fun u => tget u (entry_at (shape u) idx)) ts).
  (** the per-sample gradient of one call (see C17, C18) *)
  Definition psg_is (kind : mid -> mkind) (d : mid * (dten * dten)) (t : tensor) : Prop :=
    compute_per_sample_gradient (snd (fst (snd d))) (snd (snd (snd d))) (kind (fst d)) = Ok t.
  (** the deliveries that concern a log name, once per watch of their module *)
  Definition concerns (mods : list mid) (names : dict mid string) (n : string) (d : mid * (dten * dten)) : list (mid * (dten * dten)) :=
    if String.eqb (name_of names (fst d)) n then repeat d (times (fst d) mods) else [].
  Definition arrivals (mods : list mid) (names : dict mid string) (n : string) (ds : list (mid * (dten * dten))) : list (mid * (dten * dten)) :=
    concat (map (concerns mods names n) ds).
  (** ---- the statistics a list of events updates ---- *)
  (** what a forward hook passes on (see C27 for the masked tensor) *)
  Definition seen (mask : option dten) (d : dten) : dten :=
    match mask with
    | None => d
    | Some mk => match apply_mask mk d with Ok (Some r) => r | _ => d end
    end.
  Definition stat_of (p : plugin) : list stat := match p with PMean => [SMean] | PCovariance => [SCov] | _ => [] end.
  Section Calls.
    Variable kind : mid -> mkind.
    Variable mods : list mid.
    Variable names : dict mid string.
    Variable o : opts.
    Variable mask : option dten.
    Variable off : bool.
    (** one tensor reaching one module: every statistic of the phase, once per watch *)
    Definition reaches (m : mid) (ps : list plugin) (t : string) (d : dten) : list (@call F) :=
      concat (repeat (map (fun st => Call st (BInfo (option_map snd mask) (Node [])) (Some (kind m)) (name_of names m) t (Some d) off)
                          (concat (map stat_of ps))) (times m mods)).
    (** [cs]: the calls made so far *)
    Fixpoint stat_calls (h : list (tid * uten)) (cs : dict nat mid) (es : list ev) : list (@call F) :=
      match es with
      | [] => []
      | MTensor t u :: r => stat_calls (dset t u h) cs r
      | MCall c m ins out _ :: r =>
          match ins with [i] => reaches m (o_forward o) "forward" (seen mask (mem_get h i)) | _ => [] end ++
          stat_calls (match out with OutTensor t u => dset t u h | _ => h end) (dset c m cs) r
      | MBack c gs :: r =>
          match dget c cs, gs with
          | Some m, [g] => reaches m (o_backward o) "backward" (mem_get h g)
          | _, _ => []
          end ++ stat_calls h cs r
      | _ :: r => stat_calls h cs r
      end.
  End Calls.
  (** the memory after a list of events *)
  Fixpoint heap_after (h : list (tid * uten)) (es : list ev) : list (tid * uten) :=
    match es with
    | [] => h
    | MTensor t u :: r | MCall _ _ _ (OutTensor t u) _ :: r => heap_after (dset t u h) r
    | _ :: r => heap_after h r
    end.
  (** only mean and covariance are collected from activations and output gradients, gradients are at most logged *)
  Definition moments_only (o : opts) : Prop :=
    (forall p, In p (o_forward o) \/ In p (o_backward o) -> p = PMean \/ p = PCovariance).
  (** no statistic has been collected yet: the state of a new object, up to [model_module] (set by watch) *)
  Definition pristine (s : @lstate F) : Prop :=
    registries s = registries (@state_init F) /\ dkeys (attrs s) = dkeys (attrs (@state_init F)) /\
    forall st, dget (stat_name st) (attrs s) = Some (Node []) /\ dget (counter_name st) (attrs s) = Some (Node []).
  (** operations before the first batch *)
  Definition preparation (o : op) : Prop :=
    match o with XWatch _ | XSetup _ | XSave _ | XEval | XEv (MTensor _ _) => True | _ => False end.
  (** an epoch: for each batch its ids, mask and the program's events *)
  Record batch := Batch { bt_ids : list did; bt_mask : option dten; bt_evs : list ev }.
  Section Epoch.
    Variable kind : mid -> mkind.
    Variable eigh : tensor -> res (tensor * tensor).
    Variable enc : dten -> array.
    (** each batch between start() and end(), or in a with-block *)
    Inductive epoch : list batch -> lx -> lx -> Prop :=
    | e_done x : epoch [] x x
    | e_start_end b bs save x x1 x2 :
        (lx_start (bt_ids b) (bt_mask b) ;; run_evs kind eigh (bt_evs b) ;; lx_end eigh enc save) x = (x1, Ok tt) ->
        epoch bs x1 x2 -> epoch (b :: bs) x x2
    | e_with b bs save x x1 x2 :
        with_block eigh enc (bt_ids b) (bt_mask b) save (run_evs kind eigh (bt_evs b)) x = (x1, Ok tt) ->
        epoch bs x1 x2 -> epoch (b :: bs) x x2.
    Fixpoint epoch_calls (mods : list mid) (names : dict mid string) (o : opts) (off : bool) (h : list (tid * uten)) (bs : list batch) : list (@call F) :=
      match bs with
      | [] => []
      | b :: r => stat_calls kind mods names o (bt_mask b) off h [] (bt_evs b) ++ epoch_calls mods names o off (heap_after h (bt_evs b)) r
      end.
  End Epoch.
  (** ---- masked sequences ---- *)
  (** a 0/1 mask over the positions *)
  Definition keeps (B P : nat) (keep : nat -> nat -> bool) (mask : tensor) : Prop :=
    shape mask = [B; P] /\ twf mask /\ forall b p, b < B -> p < P -> tget mask [b; p] = if keep b p then f1 else f0.
  (** the feature vectors at the kept positions *)
  Definition kept_rows (B P D : nat) (keep : nat -> nat -> bool) (act : tensor) : list (list F) :=
    concat (map (fun b => concat (map (fun p => if keep b p then [map (fun j => tget act [b; p; j]) (seq 0 D)] else []) (seq 0 P))) (seq 0 B)).
  (** one masked batch of activations of a linear layer *)
  Record mbatch := MBatch { mb_B : nat; mb_P : nat; mb_keep : nat -> nat -> bool; mb_mask : dten; mb_act : dten; mb_off : bool }.
  Definition mb_ok (D : nat) (b : mbatch) : Prop :=
    keeps (mb_B b) (mb_P b) (mb_keep b) (snd (mb_mask b)) /\ shape (snd (mb_act b)) = [mb_B b; mb_P b; D] /\ twf (snd (mb_act b)) /\
    fst (mb_mask b) = fst (mb_act b) /\ mb_B b <> 0 /\ mb_P b <> 0 /\ D <> 0.
  (** what the forward hook makes of it, with and without the mask *)
  Definition mb_call (k : mkind) (n : string) (st : stat) (b : mbatch) : @call F :=
    Call st (BInfo (Some (snd (mb_mask b))) (Node [])) (Some k) n "forward" (Some (seen (Some (mb_mask b)) (mb_act b))) (mb_off b).
  Definition mb_plain (k : mkind) (n : string) (st : stat) (b : mbatch) : @call F :=
    Call st (BInfo None (Node [])) (Some k) n "forward" (Some (mb_act b)) (mb_off b).
  Definition mb_kept (D : nat) (b : mbatch) : list (list F) := kept_rows (mb_B b) (mb_P b) D (mb_keep b) (snd (mb_act b)).
  (** the tensor logged under a module name and log type *)
  Definition logged (x : lx) (n t : string) : option tensor :=
    match dget n (x_log x) with
    | Some l => match dget t l with Some r => Some (snd (u_d (deref (x_heap x) r))) | None => None end
    | None => None
    end.
End Spec.
