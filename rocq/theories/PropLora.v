(** C54-C57, C65, C66: LoRA (logix/lora, logix/logix.py). *)
From Coq Require Import ZArith QArith Qcanon.
From Verif Require Import Py PyStr Field Tensor ModelGrad Monad ModelState ModelMmap ModelSaver ModelLogger ModelModules ModelLora SpecGrad SpecState SpecLora LoraProofs2 LoraProofs6 LoraProofs7 LoraProofs8 LoraProofs9 LoraProofs10 LoraProofs11 LoraProofs12 LoraProofs13 LoraProofs14 LoraProofs15 LoraProofs16 LoraProofs17 LoraProofs18 LoraProofs19 ExNum ExState ExLogger ExLora.
Local Open Scope string_scope.
Local Open Scope list_scope.
Local Open Scope nat_scope.

(** C54. Adding LoRA does not change the function of the model. *)
(** One call of add_lora. With shared bottlenecks every selected layer must be at least as wide as the rank and groups must not mix linear layers and convolutions. *)
Theorem C54_add_lora_same {F} `{OField F} (rnd : mid -> list nat -> F) (svd : tensor F -> res (tensor F)) (usr : mid -> list (string * (tensor F -> res (tensor F))) -> tensor F -> res (tensor F)) watch clear tf nf cfg (s s' : @lm F) root :
  calls_only usr ->
  lm_root s = Some root -> t_kids root <> [] -> tree_ok root (lm_next s) -> layer_weights (lm_w s) root ->
  let tf' := chosen tf (lm_tf s) in let nf' := chosen nf (lm_nf s) in
  (forall i, selected tf' nf' root i -> undilated (i_mod i)) ->
  shareable (in_use (lm_handler s) cfg (lm_cfg s)) tf' nf' root ->
  lm_add_lora rnd svd watch clear tf nf None cfg s = (s', Ok tt) ->
  exists root', lm_root s' = Some root' /\ t_kids root' <> [] /\ tree_ok root' (lm_next s') /\ layer_weights (lm_w s') root' /\
    forall x, ModelLora.call usr (lm_w s') root' x = ModelLora.call usr (lm_w s) root x.
Proof. exact (add_lora_same rnd svd usr watch clear tf nf cfg s s' root). Qed.
Print Assumptions C54_add_lora_same.
(** Any number of calls, without sharing: the model may contain LoRA modules already. *)
Theorem C54_add_lora_repeated {F} `{OField F} (rnd : mid -> list nat -> F) (svd : tensor F -> res (tensor F)) (usr : mid -> list (string * (tensor F -> res (tensor F))) -> tensor F -> res (tensor F)) a (l : list lora_call) (s s' : @lm F) root :
  calls_only usr ->
  lm_root s = Some root -> t_kids root <> [] -> tree_ok root (lm_next s) -> layer_weights (lm_w s) root ->
  (forall u, below u root -> undilated u) -> lc_share (in_use (lm_handler s) (snd a) (lm_cfg s)) = false ->
  seach (run_lora rnd svd) (a :: l) s = (s', Ok tt) ->
  exists root', lm_root s' = Some root' /\ forall x, ModelLora.call usr (lm_w s') root' x = ModelLora.call usr (lm_w s) root x.
Proof. exact (add_lora_repeated rnd svd usr a l s s' root). Qed.
Print Assumptions C54_add_lora_repeated.
(** Not so for a dilated convolution: whenever the layer itself has an output, the LoRA module around it raises, if the stride is small against kernel size and dilation. *)
Theorem C54_add_lora_dilated {F} `{OField F} (rnd : mid -> list nat -> F) (svd : tensor F -> res (tensor F)) (usr : mid -> list (string * (tensor F -> res (tensor F))) -> tensor F -> res (tensor F)) watch clear tf nf cfg (s s' : @lm F) root i g :
  lm_root s = Some root -> t_kids root <> [] -> tree_ok root (lm_next s) ->
  lm_add_lora rnd svd watch clear tf nf None cfg s = (s', Ok tt) -> lc_share (in_use (lm_handler s) cfg (lm_cfg s)) = false ->
  selected (chosen tf (lm_tf s)) (chosen nf (lm_nf s)) root i ->
  t_kind (i_mod i) = KConv2d g -> 0 < c_kh g -> 0 < c_kw g -> 0 < c_dh g -> 0 < c_dw g ->
  c_sh g <= (c_dh g - 1) * (c_kh g - 1) \/ c_sw g <= (c_dw g - 1) * (c_kw g - 1) ->
  exists f l, lm_root s' = Some (replace_kids f root) /\ f (i_parent i) (i_key i) = Some l /\
    forall x y, ModelLora.call usr (lm_w s) (i_mod i) x = Ok y -> ModelLora.call usr (lm_w s') l x = Err RuntimeError.
Proof. exact (add_lora_dilated rnd svd usr watch clear tf nf cfg s s' root i g). Qed.
Print Assumptions C54_add_lora_dilated.
(** Two linear layers, without and with a shared bottleneck and after a second call; a dilated convolution. *)
Example C54_example : let a : lora_call := (true, false, None, None, None) in let c := lcfg "random" 2 true None in
  calls_only lusr /\ lm_root ls0 = Some lroot /\ t_kids lroot <> [] /\ tree_ok lroot (lm_next ls0) /\ layer_weights (lm_w ls0) lroot /\ (forall u, below u lroot -> undilated u) /\
  (forall i, selected None None lroot i -> undilated (i_mod i)) /\ shareable c None None lroot /\ selected None None lroot (it lroot 1) /\
  ladd true false None None None ls0 = (lafter ls0, Ok tt) /\ snd (ladd true false None None (Some c) ls0) = Ok tt /\ snd (seach (run_lora lrnd lsvd) [a; a] ls0) = Ok tt /\
  lcall ls0 lx0 = Ok ([1; 2], ints [21; 3]%Z) /\ lcall (lafter ls0) lx0 = Ok ([1; 2], ints [21; 3]%Z) /\
  lcall (fst (ladd true false None None (Some c) ls0)) lx0 = Ok ([1; 2], ints [21; 3]%Z) /\ lcall (fst (seach (run_lora lrnd lsvd) [a; a] ls0)) lx0 = Ok ([1; 2], ints [21; 3]%Z).
Proof.
  cbv zeta. split; [exact lusr_calls|]. split; [reflexivity|]. split; [discriminate|]. split; [apply tree_okb_ok; reflexivity|]. split; [apply weightsb_ok; reflexivity|].
  split; [apply below_forall; repeat constructor|]. split; [apply sel_forall; repeat constructor|].
  split; [intros _ i j Hi Hj; revert i Hi; apply sel_forall; revert j Hj; apply sel_forall; repeat constructor|]. split; [apply sel_it; reflexivity|].
  split; [apply ok_pair; vm_compute; reflexivity|]. repeat split; vm_compute; reflexivity.
Qed.
Example C54_dilated_example : let g := cgeo in
  lm_root cs0 = Some croot /\ t_kids croot <> [] /\ tree_ok croot (lm_next cs0) /\ ladd true false None None None cs0 = (lafter cs0, Ok tt) /\ lc_share (lm_cfg cs0) = false /\
  selected None None croot (it croot 1) /\ t_kind (i_mod (it croot 1)) = KConv2d g /\ 0 < c_kh g /\ 0 < c_kw g /\ 0 < c_dh g /\ 0 < c_dw g /\ c_sh g <= (c_dh g - 1) * (c_kh g - 1) /\
  lcall cs0 cx0 = Ok ([1; 1; 1; 1], ints [7]%Z) /\ lcall (lafter cs0) cx0 = Err RuntimeError.
Proof.
  cbv zeta. split; [reflexivity|]. split; [discriminate|]. split; [apply tree_okb_ok; reflexivity|]. split; [apply ok_pair; vm_compute; reflexivity|]. split; [reflexivity|]. split; [apply sel_it; reflexivity|].
  split; [reflexivity|]. do 5 (split; [cbn; lia|]). split; vm_compute; reflexivity.
Qed.

(** C55. LoRA gradients are projections of the full gradient. *)
(** The layers compute what SpecGrad says. *)
Theorem C55_f_linear_spec {F} `{OField F} (w : tensor F) b lead NO J (x : tensor F) :
  shape w = [NO; J] -> shape x = lead ++ [J] ->
  f_linear w b x = Ok (linear w (bias_at b) lead NO J x).
Proof. exact (f_linear_spec w b lead NO J x). Qed.
Print Assumptions C55_f_linear_spec.
Theorem C55_f_conv2d_spec {F} `{OField F} g (w : tensor F) b B Hh Ww OH OW (x : tensor F) :
  shape x = [B; c_in g; Hh; Ww] ->
  conv_out Hh (c_ph g) (c_dh g) (c_kh g) (c_sh g) OH -> conv_out Ww (c_pw g) (c_dw g) (c_kw g) (c_sw g) OW ->
  f_conv2d g w b x = Ok (conv2d g w (bias_at b) B Hh Ww OH OW x).
Proof. exact (f_conv2d_spec g w b B Hh Ww OH OW x). Qed.
Print Assumptions C55_f_conv2d_spec.
(** For linear layers: entry (i, j) of the logged gradient is the sum over k, l of C[k, i] G[k, l] A[j, l], and it is the gradient of the loss with respect to the bottleneck weight. *)
Theorem C55_lora_linear_projection {F} `{OField F} n mid J K r k1 k2 (x e wa wc gB : tensor F) (b : nat -> F) :
  let lead := n :: mid in
  shape x = lead ++ [J] -> shape e = lead ++ [K] -> twf e -> shape wa = [r; J] -> shape wc = [K; r] ->
  shape gB = lead ++ [r] -> is_gradient (fun u => dot e (linear wc b lead K r u)) (lead ++ [r]) gB ->
  exists xa G GB, f_linear wa None x = Ok xa /\ compute_per_sample_gradient x e (KLinear k1 k2) = Ok G /\
    compute_per_sample_gradient xa gB (KLinear r r) = Ok GB /\ shape GB = [n; r; r] /\ twf GB /\
    (forall a i j, a < n -> i < r -> j < r ->
       tget GB [a; i; j] = sum K (fun k => sum J (fun l => fmul (fmul (mget wc k i) (tget G [a; k; l])) (mget wa j l)))) /\
    (forall bb a, a < n -> is_gradient (fun W => dot (slice e a) (slice (linear wc b lead K r (linear W bb lead r r xa)) a)) [r; r] (slice GB a)).
Proof. exact (lora_linear_projection n mid J K r k1 k2 x e wa wc gB b). Qed.
Print Assumptions C55_lora_linear_projection.
(** The same for undilated convolutions. *)
Theorem C55_lora_conv_projection {F} `{OField F} g r B Hh Ww OH OW (x e wa wc gB : tensor F) (b : nat -> F) :
  c_dh g = 1 -> c_dw g = 1 -> 0 < r -> 0 < B -> 0 < c_in g -> 0 < c_out g ->
  shape x = [B; c_in g; Hh; Ww] -> shape e = [B; c_out g; OH; OW] -> twf e ->
  conv_out Hh (c_ph g) (c_dh g) (c_kh g) (c_sh g) OH -> conv_out Ww (c_pw g) (c_dw g) (c_kw g) (c_sw g) OW ->
  shape gB = [B; r; OH; OW] -> is_gradient (fun u => dot e (conv2d (conv1x1 r (c_out g)) wc b B OH OW OH OW u)) [B; r; OH; OW] gB ->
  exists xa G GB, f_conv2d (enc_geom g r) wa None x = Ok xa /\ compute_per_sample_gradient x e (KConv2d g) = Ok G /\
    compute_per_sample_gradient xa gB (KConv2d (conv1x1 r r)) = Ok GB /\ shape GB = [B; r; r] /\ twf GB /\
    (forall a i j, a < B -> i < r -> j < r ->
       tget GB [a; i; j] = sum (c_out g) (fun k => sum (c_in g) (fun c => sum (c_kh g) (fun kh => sum (c_kw g) (fun kw =>
         fmul (fmul (tget wc [k; i; 0; 0]) (tget G [a; k; (c * c_kh g + kh) * c_kw g + kw])) (tget wa [j; c; kh; kw])))))) /\
    (forall bb a, a < B -> is_gradient (fun W => dot (slice e a) (slice (conv2d (conv1x1 r (c_out g)) wc b B OH OW OH OW (conv2d (conv1x1 r r) W bb B OH OW OH OW xa)) a))
       [r; r; 1; 1] (slice GB a)).
Proof. exact (lora_conv_projection g r B Hh Ww OH OW x e wa wc gB b). Qed.
Print Assumptions C55_lora_conv_projection.
(** One sample with activation (2, 3), output gradient (1, 2, 0), encoder (1, 1) and decoder (1, 0, 1)^T: the full gradient
    is ((2, 3), (4, 6), (0, 0)), its projection 5. *)
Example C55_example : let x := zt [1; 2] [2; 3]%Z in let e := zt [1; 3] [1; 2; 0]%Z in let wa := zt [1; 2] [1; 1]%Z in let wc := zt [3; 1] [1; 0; 1]%Z in let gB := back_lin 1 [] 3 1 e wc in
  shape x = [1] ++ [2] /\ shape e = [1] ++ [3] /\ twf e /\ shape wa = [1; 2] /\ shape wc = [3; 1] /\ shape gB = [1] ++ [1] /\
  (forall b, is_gradient (fun u => dot e (linear wc b [1] 3 1 u)) [1; 1] gB) /\ show gB = ([1; 1], ints [1]%Z) /\
  rshow (compute_per_sample_gradient x e (KLinear 2 3)) = Ok ([1; 3; 2], ints [2; 3; 4; 6; 0; 0]%Z) /\
  rshow (let* xa := f_linear wa None x in compute_per_sample_gradient xa gB (KLinear 1 1)) = Ok ([1; 1; 1], ints [5]%Z).
Proof.
  cbv zeta. do 6 (split; [reflexivity|]). split; [intros b; exact (back_gradient 1 [] 3 1 (zt [1; 3] [1; 2; 0]%Z) (zt [3; 1] [1; 0; 1]%Z) eq_refl eq_refl b)|]. repeat split; vm_compute; reflexivity.
Qed.
Example C55_conv_example : let g := Conv 1 2 2 1 1 1 0 0 1 1 1 in let x := zt [1; 1; 3; 1] [1; 2; 3]%Z in let e := zt [1; 2; 2; 1] [1; 0; 2; 1]%Z in let wa := zt [1; 1; 2; 1] [1; 1]%Z in let wc := zt [2; 1; 1; 1] [1; 2]%Z in
  let gB := back_conv 1 2 1 2 1 e wc in
  c_dh g = 1 /\ c_dw g = 1 /\ 0 < c_in g /\ 0 < c_out g /\ shape x = [1; c_in g; 3; 1] /\ shape e = [1; c_out g; 2; 1] /\ twf e /\
  conv_out 3 (c_ph g) (c_dh g) (c_kh g) (c_sh g) 2 /\ conv_out 1 (c_pw g) (c_dw g) (c_kw g) (c_sw g) 1 /\ shape gB = [1; 1; 2; 1] /\
  (forall b, is_gradient (fun u => dot e (conv2d (conv1x1 1 (c_out g)) wc b 1 2 1 2 1 u)) [1; 1; 2; 1] gB) /\ show gB = ([1; 1; 2; 1], ints [5; 2]%Z) /\
  rshow (compute_per_sample_gradient x e (KConv2d g)) = Ok ([1; 2; 2], ints [1; 2; 4; 7]%Z) /\
  rshow (let* xa := f_conv2d (enc_geom g 1) wa None x in compute_per_sample_gradient xa gB (KConv2d (conv1x1 1 1))) = Ok ([1; 1; 1], ints [25]%Z).
Proof.
  cbv zeta. do 2 (split; [reflexivity|]). do 2 (split; [cbn; lia|]). do 3 (split; [reflexivity|]). do 2 (split; [unfold conv_out; cbn; lia|]). split; [reflexivity|].
  split; [intros b; exact (back_conv_gradient 1 2 1 2 1 (zt [1; 2; 2; 1] [1; 0; 2; 1]%Z) (zt [2; 1; 1; 1] [1; 2]%Z) eq_refl eq_refl b)|]. repeat split; vm_compute; reflexivity.
Qed.

(** C56. What add_lora wraps and what is tracked afterwards. *)
(** The new tree: the old one with exactly the selected layers replaced by LoRA modules with zero bottlenecks; no weight of an old layer changes. *)
Theorem C56_add_lora_tree {F} `{OField F} (rnd : mid -> list nat -> F) (svd : tensor F -> res (tensor F)) watch clear tf nf cfg (s s' : @lm F) root :
  lm_root s = Some root -> t_kids root <> [] -> tree_ok root (lm_next s) ->
  lm_add_lora rnd svd watch clear tf nf None cfg s = (s', Ok tt) ->
  exists f, lm_root s' = Some (replace_kids f root) /\
    wrapped (in_use (lm_handler s) cfg (lm_cfg s)) (chosen tf (lm_tf s)) (chosen nf (lm_nf s)) root (lm_next s) (lm_next s') (lm_w s') f /\
    tree_ok (replace_kids f root) (lm_next s') /\
    (forall u, below u root -> dget (t_id u) (lm_w s') = dget (t_id u) (lm_w s)).
Proof. exact (add_lora_tree rnd svd watch clear tf nf cfg s s' root). Qed.
Print Assumptions C56_add_lora_tree.
(** What is tracked after add_lora(watch=True): the layers the stored filters select, bottlenecks only as soon as there is one; the parameters of every other leaf are frozen. *)
Theorem C56_add_lora_tracked {F} `{OField F} (rnd : mid -> list nat -> F) (svd : tensor F -> res (tensor F)) clear tf nf cfg (s s' : @lm F) root :
  lm_root s = Some root -> t_kids root <> [] -> tree_ok root (lm_next s) ->
  lm_add_lora rnd svd true clear tf nf None cfg s = (s', Ok tt) ->
  exists root', lm_root s' = Some root' /\
    NoDup (map fst (x_names (lm_x s'))) /\ x_mods (lm_x s') = map fst (x_names (lm_x s')) /\
    (forall m name, In (m, name) (x_names (lm_x s')) <-> exists i, selected (lm_tf s) (lm_nf s) root' i /\ t_id (i_mod i) = m /\ i_name i = name /\
       ((exists j, In j (named_modules root') /\ substring "logix_lora_B" (i_name j)) -> substring "logix_lora_B" name)) /\
    (forall p, In p (lm_frozen s') <-> In p (lm_frozen s) \/
       exists u, below u root' /\ t_kids u = [] /\ In p (t_params u) /\ ~ In (t_id u) (x_mods (lm_x s'))).
Proof. exact (add_lora_tracked rnd svd clear tf nf cfg s s' root). Qed.
Print Assumptions C56_add_lora_tracked.
(** In a model without LoRA modules: tracked are exactly the bottlenecks whose names pass the stored filters. *)
Theorem C56_add_lora_bottlenecks {F} `{OField F} (rnd : mid -> list nat -> F) (svd : tensor F -> res (tensor F)) clear tf nf cfg (s s' : @lm F) root :
  lm_root s = Some root -> t_kids root <> [] -> tree_ok root (lm_next s) -> plain root ->
  lm_add_lora rnd svd true clear tf nf None cfg s = (s', Ok tt) ->
  let h := in_use (lm_handler s) cfg (lm_cfg s) in let tf' := chosen tf (lm_tf s) in let nf' := chosen nf (lm_nf s) in
  (exists i, selected tf' nf' root i) ->
  exists f, lm_root s' = Some (replace_kids f root) /\ wrapped h tf' nf' root (lm_next s) (lm_next s') (lm_w s') f /\ x_mods (lm_x s') = map fst (x_names (lm_x s')) /\
    (forall m name, In (m, name) (x_names (lm_x s')) <->
       exists i b n a c ks, selected tf' nf' root i /\ f (i_parent i) (i_key i) = Some (lora_around (lc_rank h) (i_mod i) b n a c) /\
         t_id b = m /\ path root ks (i_mod i) /\ name = dots (ks ++ ["logix_lora_B"%string]) /\
         (exists j, In j (named_modules (replace_kids f root)) /\ i_mod j = b /\ i_name j = name) /\ passes (lm_tf s) (lm_nf s) name b) /\
    (forall i b n a c, selected tf' nf' root i -> f (i_parent i) (i_key i) = Some (lora_around (lc_rank h) (i_mod i) b n a c) ->
      layer b /\ exists j ks, In j (named_modules (replace_kids f root)) /\ i_mod j = b /\ i_name j = dots (ks ++ ["logix_lora_B"%string])).
Proof. exact (add_lora_bottlenecks rnd svd clear tf nf cfg s s' root). Qed.
Print Assumptions C56_add_lora_bottlenecks.
(** Without stored filters: exactly the bottlenecks are tracked, everything else is frozen. *)
Theorem C56_add_lora_all {F} `{OField F} (rnd : mid -> list nat -> F) (svd : tensor F -> res (tensor F)) clear tf nf cfg (s s' : @lm F) root :
  lm_root s = Some root -> t_kids root <> [] -> tree_ok root (lm_next s) -> plain root ->
  lm_add_lora rnd svd true clear tf nf None cfg s = (s', Ok tt) ->
  let h := in_use (lm_handler s) cfg (lm_cfg s) in let tf' := chosen tf (lm_tf s) in let nf' := chosen nf (lm_nf s) in
  (exists i, selected tf' nf' root i) -> (lm_tf s = None \/ lm_tf s = Some []) -> (lm_nf s = None \/ lm_nf s = Some []) ->
  exists f, lm_root s' = Some (replace_kids f root) /\ wrapped h tf' nf' root (lm_next s) (lm_next s') (lm_w s') f /\
    (forall m, In m (x_mods (lm_x s')) <->
       exists i b n a c, selected tf' nf' root i /\ f (i_parent i) (i_key i) = Some (lora_around (lc_rank h) (i_mod i) b n a c) /\ t_id b = m) /\
    (forall u p, below u (replace_kids f root) -> t_kids u = [] -> In p (t_params u) -> ~ In (t_id u) (x_mods (lm_x s')) -> In p (lm_frozen s')).
Proof. exact (add_lora_all rnd svd clear tf nf cfg s s' root). Qed.
Print Assumptions C56_add_lora_all.
(** Every layer of a LoRA module is a candidate for the next add_lora. *)
Theorem C56_add_lora_again {F} `{OField F} (rnd : mid -> list nat -> F) (svd : tensor F -> res (tensor F)) watch clear tf nf cfg (s s' : @lm F) root i :
  lm_root s = Some root -> t_kids root <> [] -> tree_ok root (lm_next s) ->
  lm_add_lora rnd svd watch clear tf nf None cfg s = (s', Ok tt) ->
  selected (chosen tf (lm_tf s)) (chosen nf (lm_nf s)) root i ->
  exists root' l a b c k, lm_root s' = Some root' /\ below l root' /\ t_kids l = [("logix_lora_A", a); ("logix_lora_B", b); ("logix_lora_C", c); (k, i_mod i)]%string /\
    forall u, In u [a; b; c; i_mod i] -> exists j, selected None None root' j /\ i_mod j = u.
Proof. exact (add_lora_again rnd svd watch clear tf nf cfg s s' root i). Qed.
Print Assumptions C56_add_lora_again.
(** Both layers, and only the second with a name filter. *)
Example C56_example : let nf := Some ["2"] in
  lm_root ls0 = Some lroot /\ t_kids lroot <> [] /\ tree_ok lroot (lm_next ls0) /\ plain lroot /\ lm_tf ls0 = None /\ lm_nf ls0 = None /\
  ladd true false None None None ls0 = (lafter ls0, Ok tt) /\ ladd true false None nf None ls0 = (fst (ladd true false None nf None ls0), Ok tt) /\
  selected None None lroot (it lroot 1) /\ selected None nf lroot (it lroot 3) /\ ~ selected None nf lroot (it lroot 1) /\
  x_names (lm_x (lafter ls0)) = [(6, "fc1.logix_lora_B"); (10, "fc2.logix_lora_B")] /\ lm_frozen (lafter ls0) = [5; 7; 1; 4; 9; 11; 3] /\
  x_names (lm_x (fst (ladd true false None nf None ls0))) = [(6, "fc2.logix_lora_B")] /\ lm_frozen (fst (ladd true false None nf None ls0)) = [1; 4; 5; 7; 3] /\
  length (x_names (lm_x (fst (seach (run_lora lrnd lsvd) [(true, false, None, None, None); (true, false, None, None, None)] ls0)))) = 14.
Proof.
  cbv zeta. split; [reflexivity|]. split; [discriminate|]. split; [apply tree_okb_ok; reflexivity|]. split; [apply plain_ok; reflexivity|]. do 2 (split; [reflexivity|]). do 2 (split; [apply ok_pair; vm_compute; reflexivity|]).
  do 2 (split; [apply sel_it; reflexivity|]). split; [intros S; apply selected_checks in S; cbn in S; destruct S as [S|[]]; discriminate S|]. repeat split; vm_compute; reflexivity.
Qed.

(** C57. What add_lora cannot wrap, and sharing with narrow layers. *)
(** Sharing and a layer narrower than the rank: its LoRA module fails on every input. *)
Theorem C57_add_lora_narrow {F} `{OField F} (rnd : mid -> list nat -> F) (svd : tensor F -> res (tensor F)) (usr : mid -> list (string * (tensor F -> res (tensor F))) -> tensor F -> res (tensor F)) watch clear tf nf cfg (s s' : @lm F) root i :
  lm_root s = Some root -> t_kids root <> [] -> tree_ok root (lm_next s) ->
  layer_weights (lm_w s) root ->
  lm_add_lora rnd svd watch clear tf nf None cfg s = (s', Ok tt) ->
  let h := in_use (lm_handler s) cfg (lm_cfg s) in let tf' := chosen tf (lm_tf s) in let nf' := chosen nf (lm_nf s) in
  lc_share h = true -> selected tf' nf' root i -> width (i_mod i) < lc_rank h ->
  (forall j, selected tf' nf' root j -> same_group (lc_groups h) (i_name i) (i_name j) -> same_class (i_mod i) (i_mod j)) ->
  exists f l, lm_root s' = Some (replace_kids f root) /\ f (i_parent i) (i_key i) = Some l /\
    forall x, ModelLora.call usr (lm_w s') l x = Err RuntimeError.
Proof. exact (add_lora_narrow rnd svd usr watch clear tf nf cfg s s' root i). Qed.
Print Assumptions C57_add_lora_narrow.
(** The first selected layer that cannot be wrapped decides the exception: one-dimensional convolutions are not supported, and exactly one group keyword must occur in the name. *)
Theorem C57_add_lora_fails {F} `{OField F} (rnd : mid -> list nat -> F) (svd : tensor F -> res (tensor F)) watch clear tf nf cfg (s : @lm F) root cs pre i post :
  lm_root s = Some root -> t_kids root <> [] ->
  dget "covariance_state" (attrs (x_state (lm_x s))) = Some cs -> (exists u, below u root /\ t_params u <> []) ->
  let h := in_use (lm_handler s) cfg (lm_cfg s) in let tf' := chosen tf (lm_tf s) in let nf' := chosen nf (lm_nf s) in
  lc_init h <> "pca"%string \/ cs = Node [] ->
  named_modules root = pre ++ i :: post -> selected tf' nf' root i -> ~ wrappable (lc_groups h) i ->
  (forall j, In j pre -> selected tf' nf' root j -> wrappable (lc_groups h) j) ->
  exists s', lm_add_lora rnd svd watch clear tf nf None cfg s = (s', Err (match t_kind (i_mod i) with KConv1d => NotImplementedError | _ => AssertionError end)).
Proof. exact (add_lora_fails rnd svd watch clear tf nf cfg s root cs pre i post). Qed.
Print Assumptions C57_add_lora_fails.
(** If all of them can be wrapped add_lora succeeds. *)
Theorem C57_add_lora_succeeds {F} `{OField F} (rnd : mid -> list nat -> F) (svd : tensor F -> res (tensor F)) tf nf cfg (s : @lm F) root cs :
  lm_root s = Some root -> t_kids root <> [] -> tree_ok root (lm_next s) ->
  dget "covariance_state" (attrs (x_state (lm_x s))) = Some cs -> (exists u, below u root /\ t_params u <> []) ->
  let h := in_use (lm_handler s) cfg (lm_cfg s) in let tf' := chosen tf (lm_tf s) in let nf' := chosen nf (lm_nf s) in
  lc_init h <> "pca"%string \/ cs = Node [] ->
  (forall j, selected tf' nf' root j -> wrappable (lc_groups h) j) ->
  exists s', lm_add_lora rnd svd false false tf nf None cfg s = (s', Ok tt).
Proof. exact (add_lora_succeeds rnd svd tf nf cfg s root cs). Qed.
Print Assumptions C57_add_lora_succeeds.
(** A model that is itself a layer cannot be wrapped. *)
Theorem C57_add_lora_bare {F} `{OField F} (rnd : mid -> list nat -> F) (svd : tensor F -> res (tensor F)) watch clear path cfg (s : @lm F) root cs :
  lm_root s = Some root -> layer root -> t_kind root <> KConv1d -> t_params root <> [] -> t_id root < lm_next s ->
  dget "covariance_state" (attrs (x_state (lm_x s))) = Some cs ->
  let h := in_use (lm_handler s) cfg (lm_cfg s) in
  lc_init h <> "pca"%string \/ cs = Node [] -> lc_groups h = None -> lm_tf s = None -> lm_nf s = None ->
  exists s', lm_add_lora rnd svd watch clear None None path cfg s = (s', Err AttributeError).
Proof. exact (add_lora_bare rnd svd watch clear path cfg s root cs). Qed.
Print Assumptions C57_add_lora_bare.
(** Rank 3 shared by layers of width 2; a one-dimensional convolution; no group for a layer; a bare layer. *)
Example C57_narrow_example : let c := lcfg "random" 3 true None in let s := fst (ladd true false None None (Some c) ls0) in
  lm_root ls0 = Some lroot /\ t_kids lroot <> [] /\ tree_ok lroot (lm_next ls0) /\ layer_weights (lm_w ls0) lroot /\ ladd true false None None (Some c) ls0 = (s, Ok tt) /\ lc_share c = true /\
  selected None None lroot (it lroot 1) /\ width (i_mod (it lroot 1)) < lc_rank c /\ (forall j, selected None None lroot j -> same_group (lc_groups c) "fc1" (i_name j) -> same_class (i_mod (it lroot 1)) (i_mod j)) /\
  lcall s lx0 = Err RuntimeError.
Proof.
  cbv zeta. split; [reflexivity|]. split; [discriminate|]. split; [apply tree_okb_ok; reflexivity|]. split; [apply weightsb_ok; reflexivity|]. split; [apply ok_pair; vm_compute; reflexivity|]. split; [reflexivity|].
  split; [apply sel_it; reflexivity|]. split; [cbn; lia|]. split; [apply (sel_forall (fun j => same_group None "fc1" (i_name j) -> same_class (i_mod (it lroot 1)) (i_mod j))); repeat constructor|]. vm_compute. reflexivity.
Qed.
Example C57_example : let c := lcfg "random" 2 false None in let c' := lcfg "random" 2 false (Some ["fc"; "f"]) in let s := ks0 c in
  lm_root s = Some kroot /\ t_kids kroot <> [] /\ tree_ok kroot (lm_next s) /\ dget "covariance_state" (attrs (x_state (lm_x s))) = Some (Node []) /\ (exists u, below u kroot /\ t_params u <> []) /\
  named_modules kroot = [it kroot 0; it kroot 1] ++ it kroot 2 :: [] /\ selected None None kroot (it kroot 2) /\ ~ wrappable None (it kroot 2) /\ (forall j, In j [it kroot 0; it kroot 1] -> wrappable None j) /\
  snd (ladd true false None None None s) = Err NotImplementedError /\
  named_modules kroot = [it kroot 0] ++ it kroot 1 :: [it kroot 2] /\ selected None None kroot (it kroot 1) /\ ~ wrappable (lc_groups c') (it kroot 1) /\
  snd (ladd true false None None (Some c') s) = Err AssertionError /\
  (forall j, selected (Some [FLinear]) None kroot j -> wrappable None j) /\ snd (ladd false false (Some [FLinear]) None None s) = Ok tt /\
  lm_root bs0 = Some broot /\ layer broot /\ t_kind broot <> KConv1d /\ t_params broot <> [] /\ t_id broot < lm_next bs0 /\ dget "covariance_state" (attrs (x_state (lm_x bs0))) = Some (Node []) /\
  snd (ladd true false None None None bs0) = Err AttributeError.
Proof.
  cbv zeta. split; [reflexivity|]. split; [discriminate|]. split; [apply tree_okb_ok; reflexivity|]. split; [reflexivity|].
  split; [exists (MT 1 (KLinear 2 3) [] [1] []); split; [eapply below_kid; [left; reflexivity|apply below_refl]|discriminate]|]. split; [reflexivity|]. split; [apply sel_it; reflexivity|].
  split; [intros [W _]; apply W; reflexivity|]. split; [intros j [<-|[<-|[]]]; split; (discriminate || exact Logic.I)|]. split; [vm_compute; reflexivity|]. split; [reflexivity|]. split; [apply sel_it; reflexivity|].
  split.
  { intros [_ (l & g & r & E & _ & A)]. destruct l as [|? [|? [|? l]]]; try discriminate E; injection E; intros; subst.
    - apply (A "f"); [left; reflexivity|apply is_sub; reflexivity].
    - apply (A "fc"); [left; reflexivity|apply is_sub; reflexivity]. }
  split; [vm_compute; reflexivity|]. split; [apply (sel_forall (wrappable None)); repeat constructor; discriminate|]. split; [vm_compute; reflexivity|]. split; [reflexivity|]. split; [split; [reflexivity|exact Logic.I]|]. do 2 (split; [discriminate|]).
  split; [cbn; lia|]. split; [reflexivity|]. vm_compute. reflexivity.
Qed.

(** C65. Initial weights of the LoRA modules. *)
(** Without PCA, or if no covariance was collected, encoder and decoder keep their random initial weights. *)
Theorem C65_add_lora_random {F} `{OField F} (rnd : mid -> list nat -> F) (svd : tensor F -> res (tensor F)) watch clear tf nf cfg (s s' : @lm F) root i cs :
  lm_root s = Some root -> t_kids root <> [] -> tree_ok root (lm_next s) ->
  lm_add_lora rnd svd watch clear tf nf None cfg s = (s', Ok tt) -> selected (chosen tf (lm_tf s)) (chosen nf (lm_nf s)) root i ->
  dget "covariance_state" (attrs (x_state (lm_x s))) = Some cs ->
  let h := in_use (lm_handler s) cfg (lm_cfg s) in
  lc_init h <> "pca"%string \/ cs = Node [] ->
  exists f b n a c ta tc, lm_root s' = Some (replace_kids f root) /\ f (i_parent i) (i_key i) = Some (lora_around (lc_rank h) (i_mod i) b n a c) /\
    In ("logix_lora_A"%string, ta) (t_kids (lora_around (lc_rank h) (i_mod i) b n a c)) /\ In ("logix_lora_C"%string, tc) (t_kids (lora_around (lc_rank h) (i_mod i) b n a c)) /\
    dget (t_id ta) (lm_w s') = Some (tgen (weight_shape ta) (rnd (t_id ta)), None) /\ dget (t_id tc) (lm_w s') = Some (tgen (weight_shape tc) (rnd (t_id tc)), None) /\
    exists h', lm_handler s' = Some h' /\ lc_init h' <> "pca"%string.
Proof. exact (add_lora_random rnd svd watch clear tf nf cfg s s' root i cs). Qed.
Print Assumptions C65_add_lora_random.
(** With PCA the rows of the encoder are the leading left singular vectors of the forward covariance and the columns of the decoder those of the backward covariance. *)
Theorem C65_add_lora_pca {F} `{OField F} (rnd : mid -> list nat -> F) (svd : tensor F -> res (tensor F)) watch clear tf nf cfg (s s' : @lm F) root i cs :
  lm_root s = Some root -> t_kids root <> [] -> tree_ok root (lm_next s) ->
  lm_add_lora rnd svd watch clear tf nf None cfg s = (s', Ok tt) -> selected (chosen tf (lm_tf s)) (chosen nf (lm_nf s)) root i ->
  dget "covariance_state" (attrs (x_state (lm_x s))) = Some cs -> cs <> Node [] ->
  (forall m u n, shape m = [n; n] -> svd m = Ok u -> shape u = [n; n]) ->
  let h := in_use (lm_handler s) cfg (lm_cfg s) in lc_init h = "pca"%string ->
  exists f b n a c wa wc Cf Cb Uf Ub, lm_root s' = Some (replace_kids f root) /\ f (i_parent i) (i_key i) = Some (lora_around (lc_rank h) (i_mod i) b n a c) /\
    dget a (lm_w s') = Some (wa, None) /\ dget c (lm_w s') = Some (wc, None) /\
    stored (x_state (lm_x s)) SCov (i_name i) "forward" = Some Cf /\ stored (x_state (lm_x s)) SCov (i_name i) "backward" = Some Cb /\
    svd Cf = Ok Uf /\ svd Cb = Ok Ub /\
    let r := min (lc_rank h) (width (i_mod i)) in
    match t_kind (i_mod i) with
    | KLinear ni no => shape Cf = [ni; ni] -> shape Cb = [no; no] ->
        (forall j l, j < r -> l < ni -> mget wa j l = mget Uf l j) /\ (forall k j, k < no -> j < r -> mget wc k j = mget Ub k j)
    | KConv2d g => shape Cf = [c_in g * c_kh g * c_kw g; c_in g * c_kh g * c_kw g] -> shape Cb = [c_out g; c_out g] ->
        (forall j ch kh kw, j < r -> ch < c_in g -> kh < c_kh g -> kw < c_kw g -> tget wa [j; ch; kh; kw] = mget Uf ((ch * c_kh g + kh) * c_kw g + kw) j) /\
        (forall k j, k < c_out g -> j < r -> tget wc [k; j; 0; 0] = mget Ub k j)
    | _ => False
    end /\
    lm_handler s' = Some h.
Proof. exact (add_lora_pca rnd svd watch clear tf nf cfg s s' root i cs). Qed.
Print Assumptions C65_add_lora_pca.
(** If covariances were collected, but not for the first selected layer, add_lora raises. *)
Theorem C65_add_lora_pca_missing {F} `{OField F} (rnd : mid -> list nat -> F) (svd : tensor F -> res (tensor F)) watch clear tf nf cfg (s : @lm F) root ll pre i post :
  lm_root s = Some root -> t_kids root <> [] -> (exists u, below u root /\ t_params u <> []) ->
  dget "covariance_state" (attrs (x_state (lm_x s))) = Some (Node ll) -> ll <> [] ->
  let h := in_use (lm_handler s) cfg (lm_cfg s) in let tf' := chosen tf (lm_tf s) in let nf' := chosen nf (lm_nf s) in
  lc_init h = "pca"%string -> named_modules root = pre ++ i :: post -> selected tf' nf' root i -> (forall j, In j pre -> ~ selected tf' nf' root j) ->
  wrappable (lc_groups h) i -> dget (i_name i) ll = None ->
  exists s', lm_add_lora rnd svd watch clear tf nf None cfg s = (s', Err TypeError).
Proof. exact (add_lora_pca_missing rnd svd watch clear tf nf cfg s root ll pre i post). Qed.
Print Assumptions C65_add_lora_pca_missing.
(** The "singular vectors" are the unit vectors in reverse order. *)
Example C65_example : let s' := lafter lsp in
  lm_root lsp = Some lroot /\ t_kids lroot <> [] /\ tree_ok lroot (lm_next lsp) /\ ladd true false None None None lsp = (s', Ok tt) /\ selected None None lroot (it lroot 1) /\
  dget "covariance_state" (attrs (x_state (lm_x lsp))) = Some lcov /\ lcov <> Node [] /\ (forall m u n, shape m = [n; n] -> lsvd m = Ok u -> shape u = [n; n]) /\ lc_init (lm_cfg lsp) = "pca" /\
  map (fun m => option_map (fun wb => show (fst wb)) (dget m (lm_w s'))) [5; 7] = [Some ([1; 2], ints [0; 1]%Z); Some ([3; 1], ints [0; 0; 1]%Z)] /\
  (let s := lstart lroot 5 lwts (lcfg "pca" 1 false None) in dget "covariance_state" (attrs (x_state (lm_x s))) = Some (Node []) /\ ladd true false None None None s = (lafter s, Ok tt) /\
     map (fun m => option_map (fun wb => show (fst wb)) (dget m (lm_w (lafter s)))) [5; 7] = [Some ([1; 2], ints [5; 6]%Z); Some ([3; 1], ints [7; 9; 11]%Z)]) /\
  (let ll := [("fc2", Node [])] in let s := with_cov (Node ll) lsp in
     named_modules lroot = [it lroot 0] ++ it lroot 1 :: [it lroot 2; it lroot 3] /\ (forall j, In j [it lroot 0] -> ~ selected None None lroot j) /\ wrappable None (it lroot 1) /\ dget "fc1" ll = None /\
     snd (ladd true false None None None s) = Err TypeError).
Proof.
  cbv zeta. split; [reflexivity|]. split; [discriminate|]. split; [apply tree_okb_ok; reflexivity|]. split; [apply ok_pair; vm_compute; reflexivity|]. split; [apply sel_it; reflexivity|]. split; [reflexivity|]. split; [discriminate|].
  split; [exact lsvd_square|]. split; [reflexivity|]. split; [vm_compute; reflexivity|]. split; [split; [reflexivity|]; split; [apply ok_pair|]; vm_compute; reflexivity|].
  split; [reflexivity|]. split; [intros j [<-|[]] S; apply selected_checks in S; cbn in S; destruct S as [S|[S|[]]]; discriminate S|]. split; [split; [discriminate|exact Logic.I]|]. split; [reflexivity|]. vm_compute. reflexivity.
Qed.

(** C66. Saving and restoring the LoRA weights. *)
(** What save_lora writes: weights and biases of every layer below an attribute whose name contains logix_lora. *)
Theorem C66_save_lora_saves {F} `{OField F} (s : @lm F) root n :
  lm_root s = Some root -> tree_ok root n -> undotted root ->
  (exists ks u, path root ks u /\ lora_named ks /\ dget (t_id u) (lm_w s) <> None) ->
  exists file, save_lora s = (lm_set_file s (Some file), Ok tt) /\
    (forall ks u v b, path root ks u -> lora_named ks -> dget (t_id u) (lm_w s) = Some (v, b) ->
       dget (dots (ks ++ ["weight"%string])) file = Some v /\ forall x, b = Some x -> dget (dots (ks ++ ["bias"%string])) file = Some x) /\
    (forall key, In key (dkeys file) -> exists ks u v b, path root ks u /\ lora_named ks /\ dget (t_id u) (lm_w s) = Some (v, b) /\
       (key = dots (ks ++ ["weight"%string]) \/ (key = dots (ks ++ ["bias"%string]) /\ b <> None))).
Proof. exact (save_lora_saves s root n). Qed.
Print Assumptions C66_save_lora_saves.
(** Loading it into a model of the same form restores these weights and changes no others. *)
Theorem C66_lora_restored {F} `{OField F} (s s1 s2 : @lm F) root root2 n n2 file :
  lm_root s = Some root -> tree_ok root n -> undotted root ->
  (exists ks u, path root ks u /\ lora_named ks /\ dget (t_id u) (lm_w s) <> None) ->
  save_lora s = (s1, Ok tt) -> lm_file s1 = Some file ->
  lm_root s2 = Some root2 -> tree_ok root2 n2 -> alike root root2 ->
  (forall ks u v, path root ks u -> path root2 ks v -> lora_named ks -> same_form (dget (t_id u) (lm_w s)) (dget (t_id v) (lm_w s2))) ->
  exists w, load_lora file s2 = (lm_set_model s2 (Some root2) (lm_next s2) w, Ok tt) /\
    (forall ks u v, path root ks u -> path root2 ks v -> lora_named ks -> dget (t_id v) w = dget (t_id u) (lm_w s)) /\
    (forall m, (forall ks v, path root2 ks v -> t_id v = m -> ~ lora_named ks) -> dget m w = dget m (lm_w s2)).
Proof. exact (lora_restored s s1 s2 root root2 n n2 file). Qed.
Print Assumptions C66_lora_restored.
(** A name the model does not have: nothing is changed. *)
Theorem C66_lora_unknown {F} `{OField F} file (s : @lm F) root n key :
  lm_root s = Some root -> tree_ok root n -> In key (dkeys file) ->
  (forall ks u v b, path root ks u -> dget (t_id u) (lm_w s) = Some (v, b) -> key <> dots (ks ++ ["weight"%string]) /\ (b <> None -> key <> dots (ks ++ ["bias"%string]))) ->
  load_lora file s = (s, Err AssertionError).
Proof. exact (lora_unknown file s root n key). Qed.
Print Assumptions C66_lora_unknown.
(** A tensor of another shape. *)
Theorem C66_lora_misfit {F} `{OField F} file (s : @lm F) root n ks u v b x :
  lm_root s = Some root -> tree_ok root n ->
  (forall key, In key (dkeys file) -> exists ks u v b, path root ks u /\ dget (t_id u) (lm_w s) = Some (v, b) /\ (key = dots (ks ++ ["weight"%string]) \/ (key = dots (ks ++ ["bias"%string]) /\ b <> None))) ->
  path root ks u -> dget (t_id u) (lm_w s) = Some (v, b) -> dget (dots (ks ++ ["weight"%string])) file = Some x -> shape x <> shape v ->
  exists s', load_lora file s = (s', Err RuntimeError).
Proof. exact (lora_misfit file s root n ks u v b x). Qed.
Print Assumptions C66_lora_misfit.
(** The lora_path argument of add_lora loads the file into the model just wrapped. *)
Theorem C66_add_lora_path {F} `{OField F} (rnd : mid -> list nat -> F) (svd : tensor F -> res (tensor F)) tf nf cfg (s s1 s2 : @lm F) r n root file :
  lm_add_lora rnd svd false false tf nf None cfg s = (s1, Ok tt) ->
  lm_root s1 = Some root -> tree_ok root n -> load_lora file s1 = (s2, r) ->
  exists s', lm_add_lora rnd svd false false tf nf (Some (Ok file)) cfg s = (s', r) /\ lm_w s' = lm_w s2 /\ lm_root s' = lm_root s2.
Proof. exact (add_lora_path rnd svd tf nf cfg s s1 s2 r n root file). Qed.
Print Assumptions C66_add_lora_path.
(** initialize_from_log: LoRA modules are added unless the model has a bottleneck already, then the file is loaded. *)
Theorem C66_from_log_loads {F} `{OField F} (rnd : mid -> list nat -> F) (svd : tensor F -> res (tensor F)) path (s : @lm F) root file :
  path = Some (Some (Ok file)) \/ (path = None /\ lm_file s = Some file) ->
  lm_root s = Some root -> (exists j, In j (named_modules root) /\ substring "logix_lora_B" (i_name j)) ->
  lora_from_log rnd svd path s = load_lora file s.
Proof. exact (from_log_has rnd svd path s root file). Qed.
Print Assumptions C66_from_log_loads.
Theorem C66_from_log_adds {F} `{OField F} (rnd : mid -> list nat -> F) (svd : tensor F -> res (tensor F)) (s s1 : @lm F) root file :
  lm_root s = Some root -> ~ (exists j, In j (named_modules root) /\ substring "logix_lora_B" (i_name j)) ->
  lm_add_lora rnd svd true true None None None None s = (s1, Ok tt) ->
  lora_from_log rnd svd (Some (Some (Ok file))) s = load_lora file s1.
Proof. exact (from_log_other rnd svd s s1 root file). Qed.
Print Assumptions C66_from_log_adds.
(** Without lora_path the modules are added, their new weights replace the stored ones on disk, and it is the new file that is loaded: the call does what add_lora() does. *)
Theorem C66_from_log_lost {F} `{OField F} (rnd : mid -> list nat -> F) (svd : tensor F -> res (tensor F)) (s s1 : @lm F) root old :
  lm_root s = Some root -> t_kids root <> [] -> tree_ok root (lm_next s) -> plain root -> undotted root ->
  (exists i, selected (lm_tf s) (lm_nf s) root i) -> lm_file s = Some old ->
  lm_add_lora rnd svd true true None None None None s = (s1, Ok tt) ->
  lora_from_log rnd svd None s = (s1, Ok tt) /\
  exists root1 file, lm_root s1 = Some root1 /\ lm_file s1 = Some file /\ (exists ks u, path root1 ks u /\ lora_named ks /\ dget (t_id u) (lm_w s1) <> None) /\
    (forall ks u v b, path root1 ks u -> lora_named ks -> dget (t_id u) (lm_w s1) = Some (v, b) ->
       dget (dots (ks ++ ["weight"%string])) file = Some v /\ forall x, b = Some x -> dget (dots (ks ++ ["bias"%string])) file = Some x).
Proof. exact (from_log_lost rnd svd s s1 root old). Qed.
Print Assumptions C66_from_log_lost.
(** The same after an explicit add_lora(): initialize_from_log changes nothing any more. *)
Theorem C66_from_log_after {F} `{OField F} (rnd : mid -> list nat -> F) (svd : tensor F -> res (tensor F)) (s s1 : @lm F) root clear tf nf cfg :
  lm_root s = Some root -> t_kids root <> [] -> tree_ok root (lm_next s) -> plain root -> undotted root ->
  (exists i, selected (chosen tf (lm_tf s)) (chosen nf (lm_nf s)) root i) ->
  lm_add_lora rnd svd true clear tf nf None cfg s = (s1, Ok tt) ->
  lora_from_log rnd svd None s1 = (s1, Ok tt).
Proof. exact (from_log_after rnd svd s s1 root clear tf nf cfg). Qed.
Print Assumptions C66_from_log_after.
Theorem C66_from_log_nothing {F} `{OField F} (rnd : mid -> list nat -> F) (svd : tensor F -> res (tensor F)) path (s : @lm F) :
  path = Some None \/ (path = None /\ lm_file s = None) \/ lm_root s = None -> lora_from_log rnd svd path s = (s, Ok tt).
Proof. exact (from_log_skip rnd svd path s). Qed.
Print Assumptions C66_from_log_nothing.
(** If the file cannot be read, or the modules cannot be added, that exception is raised. *)
Theorem C66_from_log_fails {F} `{OField F} (rnd : mid -> list nat -> F) (svd : tensor F -> res (tensor F)) path (s s1 : @lm F) root e :
  lm_root s = Some root ->
  (path = Some (Some (Err e)) /\ (exists j, In j (named_modules root) /\ substring "logix_lora_B" (i_name j)) -> lora_from_log rnd svd path s = (s, Err e)) /\
  (path <> Some None -> (path = None -> lm_file s <> None) -> ~ (exists j, In j (named_modules root) /\ substring "logix_lora_B" (i_name j)) ->
   lm_add_lora rnd svd true true None None None None s = (s1, Err e) -> lora_from_log rnd svd path s = (s1, Err e)).
Proof. exact (from_log_raises rnd svd path s s1 root e). Qed.
Print Assumptions C66_from_log_fails.
(** initialize_from_log as a whole: without config.yaml it fails at once; otherwise the stored LoRA settings come into force
    before the modules are added, and the statistics are loaded last, from state_path if it is given. *)
Theorem C66_initialize_missing {F} `{OField F} (rnd : mid -> list nat -> F) (svd : tensor F -> res (tensor F)) path st (s : @lm F) :
  lm_conf s = None -> initialize_from_log rnd svd path st s = (s, Err AssertionError).
Proof. exact (init_missing rnd svd path st s). Qed.
Print Assumptions C66_initialize_missing.
Theorem C66_initialize {F} `{OField F} (rnd : mid -> list nat -> F) (svd : tensor F -> res (tensor F)) path st (s : @lm F) c :
  lm_conf s = Some c ->
  initialize_from_log rnd svd path st s =
    let (s1, o) := lora_from_log rnd svd path (lm_set_lora s c (lm_handler s)) in
    match o with
    | Err e => (s1, Err e)
    | Ok _ => let dk := match st with Some dk => dk | None => x_disk (lm_x s1) end in
              let (t, r) := load_state dk (x_state (lm_x s1)) in
              (lm_set_x s1 (with_shared (with_state (lm_x s1) t) (x_shared (lm_x s1) && negb (mem "model_module"%string (replaced dk)))), r)
    end.
Proof. exact (init_stored rnd svd path st s c). Qed.
Print Assumptions C66_initialize.
(** finalize() writes the settings in force, if the statistics and the log could be written, and changes nothing else. *)
Theorem C66_finalize {F} `{OField F} (s s' : @lm F) o : lm_finalize s = (s', o) ->
  lm_x s' = fst (lx_finalize (lm_x s)) /\ o = snd (lx_finalize (lm_x s)) /\ s' = lm_set_conf (lm_set_x s (lm_x s')) (if is_ok o then Some (lm_cfg s) else lm_conf s).
Proof. exact (finalize_conf s s' o). Qed.
Print Assumptions C66_finalize.
(** One run finalizes with rank 2. A second one, made with rank 1, adds LoRA of rank 2 when it initializes from the log. *)
Example C66_initialize_example : let s := fst (lm_finalize (lafter ls0)) in let t := lm_set_file (lm_set_conf (lm_set_x (lm_set_lora ls0 (lcfg "random" 1 false None) None) (with_store (lm_x ls0) (x_saver (lm_x ls0)) (x_dir (lm_x ls0)) (x_disk (lm_x s)))) (lm_conf s)) (lm_file s) in
  lm_finalize (lafter ls0) = (s, Ok tt) /\ lm_conf s = Some (lm_cfg ls0) /\ lc_rank (lm_cfg ls0) = 2 /\ lc_rank (lm_cfg t) = 1 /\
  initialize_from_log lrnd lsvd None None t = (fst (initialize_from_log lrnd lsvd None None t), Ok tt) /\ option_map lc_rank (lm_handler (fst (initialize_from_log lrnd lsvd None None t))) = Some 2 /\
  snd (initialize_from_log lrnd lsvd (Some None) (Some (SDisk [] None)) t) = Err FileNotFoundError /\ snd (initialize_from_log lrnd lsvd None None ls0) = Err AssertionError.
Proof. cbv zeta. split; [apply ok_pair; vm_compute; reflexivity|]. do 3 (split; [vm_compute; reflexivity|]). split; [apply ok_pair; vm_compute; reflexivity|]. repeat split; vm_compute; reflexivity. Qed.
(** The weights of an earlier run, random weights different: loaded from another directory they are restored, from the run's own they are gone. *)
Example C66_lost_example : let s := lm_set_file ls0 (lm_file (lafter ls0)) in
  let rnd := fun m i => fadd (lrnd m i) f1 in let add := lm_add_lora rnd lsvd true true None None None None in
  let file := match lm_file (lafter ls0) with Some f => f | None => [] end in
  let weight t := option_map (fun wb => show (fst wb)) (dget 5 (lm_w t)) in
  let disk t := match lm_file t with Some f => option_map show (dget "fc1.logix_lora_A.weight" f) | None => None end in
  lm_root s = Some lroot /\ t_kids lroot <> [] /\ tree_ok lroot (lm_next s) /\ plain lroot /\ undotted lroot /\ (exists i, selected (lm_tf s) (lm_nf s) lroot i) /\
  lm_file s = Some file /\ add s = (fst (add s), Ok tt) /\ disk s = Some ([2; 2], ints [5; 6; 7; 8]%Z) /\
  snd (lora_from_log rnd lsvd (Some (Some (Ok file))) s) = Ok tt /\ weight (fst (lora_from_log rnd lsvd (Some (Some (Ok file))) s)) = Some ([2; 2], ints [5; 6; 7; 8]%Z) /\
  snd (lora_from_log rnd lsvd None s) = Ok tt /\ weight (fst (lora_from_log rnd lsvd None s)) = Some ([2; 2], ints [6; 7; 8; 9]%Z) /\
  disk (fst (lora_from_log rnd lsvd None s)) = Some ([2; 2], ints [6; 7; 8; 9]%Z).
Proof.
  cbv zeta. split; [reflexivity|]. split; [discriminate|]. split; [apply tree_okb_ok; reflexivity|]. split; [apply plain_ok; reflexivity|]. split; [apply undotted_ok; reflexivity|].
  split; [exists (it lroot 1); apply sel_it; reflexivity|]. split; [vm_compute; reflexivity|]. split; [apply ok_pair; vm_compute; reflexivity|]. repeat split; vm_compute; reflexivity.
Qed.
(** The weights of one run are restored in a run whose random weights are different. *)
Example C66_example : let s := lafter ls0 in let root := lroot1 in
  let s2 := fst (lm_add_lora (fun m i => fadd (lrnd m i) f1) lsvd true false None None None None ls0) in
  let file := match lm_file s with Some f => f | None => [] end in
  lm_root s = Some root /\ tree_ok root (lm_next s) /\ undotted root /\ (exists ks u, path root ks u /\ lora_named ks /\ dget (t_id u) (lm_w s) <> None) /\
  save_lora s = (fst (save_lora s), Ok tt) /\ lm_file (fst (save_lora s)) = Some file /\ lm_root s2 = Some root /\ alike root root /\
  (forall ks u v, path root ks u -> path root ks v -> lora_named ks -> same_form (dget (t_id u) (lm_w s)) (dget (t_id v) (lm_w s2))) /\
  dkeys file = ["fc1.logix_lora_A.weight"; "fc1.logix_lora_B.weight"; "fc1.logix_lora_C.weight"; "fc2.logix_lora_A.weight"; "fc2.logix_lora_B.weight"; "fc2.logix_lora_C.weight"] /\
  option_map show (dget "fc1.logix_lora_A.weight" file) = Some ([2; 2], ints [5; 6; 7; 8]%Z) /\
  option_map (fun wb => show (fst wb)) (dget 5 (lm_w s2)) = Some ([2; 2], ints [6; 7; 8; 9]%Z) /\
  option_map (fun wb => show (fst wb)) (dget 5 (lm_w (fst (load_lora file s2)))) = Some ([2; 2], ints [5; 6; 7; 8]%Z) /\
  snd (load_lora [("head.weight", lx0)] s2) = Err AssertionError /\ snd (load_lora [("fc1.logix_lora_A.weight", lx0)] s2) = Err RuntimeError /\
  (exists j, In j (named_modules root) /\ substring "logix_lora_B" (i_name j)) /\ snd (lm_add_lora lrnd lsvd true true None None None None ls0) = Ok tt.
Proof.
  assert (K : tree_ok lroot1 13) by (apply tree_okb_ok; reflexivity).
  assert (U : forall ks u v, path lroot1 ks u -> path lroot1 ks v -> u = v) by (intros ks u v; apply (path_fun _ _ _ _ _ K)).
  cbv zeta. split; [vm_compute; reflexivity|]. split; [assert (E : lm_next (lafter ls0) = 13) by (vm_compute; reflexivity); rewrite E; exact K|]. split; [apply undotted_ok; reflexivity|].
  split.
  { exists ["fc1"; "logix_lora_A"], (MT 5 (KLinear 2 2) [] [5] []). split; [|split; [exists "logix_lora_A"; split; [right; left; reflexivity|apply is_sub; reflexivity]|]].
    - eapply path_step; [left; reflexivity|]. eapply path_step; [left; reflexivity|]. apply path_here.
    - vm_compute. discriminate. }
  split; [apply ok_pair; vm_compute; reflexivity|]. split; [vm_compute; reflexivity|]. split; [vm_compute; reflexivity|].
  split. { split; [reflexivity|]. intros ks ks' u u' v v' P1 P2 P3 P4 E. rewrite (U _ _ _ P1 P3), (U _ _ _ P2 P4). exact E. }
  split. { intros ks u v P1 P2 _. rewrite (U _ _ _ P1 P2). revert v P2. intros v P2. apply (forms_ok _ _ lroot1); [vm_compute; reflexivity|exact (path_below _ _ _ P2)]. }
  do 6 (split; [vm_compute; reflexivity|]). split; [exists (it lroot1 3); split; [apply nth_In; vm_compute; lia|apply is_sub; reflexivity]|]. vm_compute. reflexivity.
Qed.

