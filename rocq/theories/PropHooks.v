(** C27, C89: what the hooks accept and refuse (logix/logging/logger.py, logix/statistic/log.py). *)
From Coq Require Import ZArith QArith Qcanon Permutation.
From Verif Require Import Py Field Tensor ModelGrad Monad ModelState ModelMmap ModelSaver ModelLogger SpecGrad SpecState SpecLogger SpecHook HookProofs ExNum ExState ExLogger.
Local Open Scope string_scope.
Local Open Scope list_scope.
Local Open Scope nat_scope.

(** C27. Masks of other batch sizes. *)
Theorem C27_mask_positions_general {F} `{OField F} (mask act : @dten F) sh p sh' d :
  shape (snd mask) = sh ++ [p] -> shape (snd act) = sh' ++ [p; d] -> length sh = length sh' -> multiplied act (per_position mask) (apply_mask mask act).
Proof. exact (mask_positions_general mask act sh p sh' d). Qed.
Print Assumptions C27_mask_positions_general.
Theorem C27_mask_features_general {F} `{OField F} (mask act : @dten F) sh n sh' :
  shape (snd mask) = sh ++ [n] -> shape (snd act) = sh' ++ [n] -> length sh = length sh' -> multiplied act mask (apply_mask mask act).
Proof. exact (mask_features_general mask act sh n sh'). Qed.
Print Assumptions C27_mask_features_general.
Theorem C27_mask_scalar {F} `{OField F} (mask act : @dten F) :
  shape (snd mask) = [] -> length (shape (snd act)) <= 1 -> apply_mask mask act = Err IndexError.
Proof. exact (mask_scalar mask act). Qed.
Print Assumptions C27_mask_scalar.
(** One mask row for two samples; three mask rows for one sample, whose activations are repeated; two rows for three samples. *)
Example C27_mask_general_example :
  let show_mask m a := match apply_mask m a with Ok (Some c) => Ok (Some (show (snd c))) | Ok None => Ok None | Err e => Err e end in
  show_mask (Cpu, zt [1; 2] [1; 0]%Z) xact = Ok (Some ([2; 2; 2], ints [1; 2; 0; 0; 5; 6; 0; 0]%Z)) /\
  show_mask (Cpu, zt [3; 2] [1; 1; 0; 1; 0; 0]%Z) (Cpu, zt [1; 2; 1] [7; 8]%Z) = Ok (Some ([3; 2; 1], ints [7; 8; 0; 8; 0; 0]%Z)) /\
  show_mask (Cpu, zt [2; 2] [1; 1; 0; 1]%Z) (Cpu, zt [3; 2; 1] [1; 2; 3; 4; 5; 6]%Z) = Err RuntimeError /\
  show_mask (Cpu, zt [1; 2] [1; 0]%Z) (Cpu, zt [2; 2] [1; 2; 3; 4]%Z) = Ok (Some ([2; 2], ints [1; 0; 3; 0]%Z)) /\
  show_mask (Cpu, zt [] [1]%Z) (Cpu, zt [2] [1; 2]%Z) = Err IndexError.
Proof. cbv zeta. repeat split; vm_compute; reflexivity. Qed.

(** C89. The arrival of one gradient. *)
Theorem C89_gradient {F} `{OField F} (kind : mid -> mkind) (wsize : mid -> nat) (eigh : tensor F -> res (tensor F * tensor F)) (enc : @dten F -> array) ids mask es t m i g rest (x x1 x2 : @lx F) :
  reachable kind wsize eigh enc x -> begins ids mask x x1 -> run_evs kind eigh es x1 = (x2, Ok tt) ->
  o_grad (x_opt x) = PLog :: rest -> filter (fun p => t =? fst p) (outputs es) = [(t, (m, i))] -> times m (x_mods x) = 1 ->
  let n := name_of (x_names x) m in let a := mem_get (x_heap x2) i in let b := mem_get (x_heap x2) g in
  let psg := compute_per_sample_gradient (snd a) (snd b) (kind m) in
  match run_ev kind eigh (MGrad t g) x2 with
  | (x3, Ok _) => fst a = fst b /\ exists G, psg = Ok G /\
      match entry x2 n "grad" with
      | None => entry x3 n "grad" = Some (fst a, G)
      | Some L => fst L = fst a /\ fits (shape G) (shape (snd L))
      end
  | (x3, Err e) => x3 = x2 /\
      (fst a <> fst b /\ e = RuntimeError \/ fst a = fst b /\ psg = Err e \/
       fst a = fst b /\ e = RuntimeError /\ exists G L, psg = Ok G /\ entry x2 n "grad" = Some L /\ (fst L <> fst a \/ ~ fits (shape G) (shape (snd L))))
  end.
Proof. exact (one_gradient kind wsize eigh enc ids mask es t m i g rest x x1 x2). Qed.
Print Assumptions C89_gradient.
(** The layer is called on two samples and on one. If the gradient of the two arrives first, that of the one is added to both rows;
    in the other order the second raises RuntimeError. *)
Example C89_gradient_example : let x := lrun (watched kgrad) lnew in let x1 := fst (lx_start [DStr "a"; DStr "b"] None x) in
  let go es := levs (two_then_one ++ es) x1 in
  reachable lk lw ex_eigh lenc x /\ begins [DStr "a"; DStr "b"] None x x1 /\ o_grad (x_opt x) = [PLog] /\ times 0 (x_mods x) = 1 /\
  filter (fun p => 2 =? fst p) (outputs two_then_one) = [(2, (0, 1))] /\ filter (fun p => 4 =? fst p) (outputs two_then_one) = [(4, (0, 3))] /\
  lshow (fst (go [MGrad 2 5])) "fc" "grad" = Some ([2; 1; 2], ints [1; 2; 6; 8]%Z) /\
  snd (go [MGrad 2 5; MGrad 4 6]) = Ok tt /\ lshow (fst (go [MGrad 2 5; MGrad 4 6])) "fc" "grad" = Some ([2; 1; 2], ints [31; 62; 36; 68]%Z) /\
  snd (go [MGrad 4 6; MGrad 2 5]) = Err RuntimeError /\ lshow (fst (go [MGrad 4 6; MGrad 2 5])) "fc" "grad" = Some ([1; 1; 2], ints [30; 60]%Z) /\
  snd (go [MGrad 2 7]) = Err RuntimeError /\ snd (go [MGrad 2 8]) = Err RuntimeError.
Proof. cbv zeta. split; [apply lreach|]. split; [apply lbegins; vm_compute; reflexivity|]. repeat split; vm_compute; reflexivity. Qed.

(** A batch without data ids cannot be saved. *)
Theorem C89_no_ids {F} `{OField F} (kind : mid -> mkind) (wsize : mid -> nat) (eigh : tensor F -> res (tensor F * tensor F)) (enc : @dten F -> array) es (x x1 x2 : @lx F) :
  reachable kind wsize eigh enc x -> x_ids x = None -> skipn 1 (o_grad (x_opt x)) = [] ->
  lx_enter x = (x1, Ok tt) -> run_evs kind eigh es x1 = (x2, Ok tt) ->
  lx_exit eigh enc x2 = (x2, if x_save_batch x || x_save x then Err TypeError else Ok tt).
Proof. exact (exit_without_ids kind wsize eigh enc es x x1 x2). Qed.
Print Assumptions C89_no_ids.
(** [with logix:] instead of [with logix(data_id=...):] *)
Example C89_no_ids_example : let x := lrun (watched kgrad) lnew in let y := lrun (watched kgrad ++ [XSave true]) lnew in
  reachable lk lw ex_eigh lenc y /\ x_ids y = None /\ skipn 1 (o_grad (x_opt y)) = [] /\ x_save y = true /\
  snd (levs (les ++ lback) (fst (lx_enter y))) = Ok tt /\
  snd (lx_exit ex_eigh lenc (fst (levs (les ++ lback) (fst (lx_enter y))))) = Err TypeError /\
  snd (lx_exit ex_eigh lenc (fst (levs (les ++ lback) (fst (lx_enter x))))) = Ok tt.
Proof. cbv zeta. split; [apply lreach|]. repeat split; vm_compute; reflexivity. Qed.
