(** C31, C32, C34-C40: statistics and their state (logix/state.py, logix/statistic). *)
From Coq Require Import ZArith QArith Qcanon Permutation.
From Verif Require Import Py Field Tensor ModelGrad Monad ModelState SpecGrad SpecState StateProofs4 StateProofs5 StateProofs6 StateProofs7 StateProofs8 StateProofs9 StateProofs10 StateProofs11 ExNum ExState.
Local Open Scope string_scope.
Local Open Scope list_scope.
Local Open Scope nat_scope.

(** C31. The mean after one finalize. *)
Theorem C31_mean {F} `{OField F} (dk : @sdisk F) cs s : run_calls cs state_init = (s, Ok tt) -> Forall call_ok cs ->
  exists s' dk', finalize dk s = (s', Ok dk') /\
    forall m t, let ccs := calls_for SMean m t cs in
      (ccs = [] -> stored s' SMean m t = None) /\
      (ccs <> [] -> all_rows ccs <> [] /\ Forall (fun r => length r = width (all_rows ccs) \/ length r = 1) (all_rows ccs) /\
         stored s' SMean m t = Some (moment SMean (width (all_rows ccs)) (all_rows ccs) (all_count ccs))).
Proof. exact (finalize_mean dk cs s). Qed.
Print Assumptions C31_mean.
(** Two histories with the same samples, split and ordered differently, give the same statistic. *)
Theorem C31_split {F} `{OField F} (dk dk1 : @sdisk F) cs cs1 s s1 :
  run_calls cs state_init = (s, Ok tt) -> run_calls cs1 state_init = (s1, Ok tt) -> Forall call_ok cs -> Forall call_ok cs1 ->
  forall st m t, Permutation (entries (calls_for st m t cs)) (entries (calls_for st m t cs1)) ->
    all_count (calls_for st m t cs) = all_count (calls_for st m t cs1) ->
    exists s' d' s1' d1', finalize dk s = (s', Ok d') /\ finalize dk1 s1 = (s1', Ok d1') /\ stored s' st m t = stored s1' st m t.
Proof. exact (split_independent dk dk1 cs cs1 s s1). Qed.
Print Assumptions C31_split.
(** Without masks the counts agree by themselves. *)
Theorem C31_count {F} `{OField F} (cs : list (@call F)) : Forall unmasked cs -> all_count cs = fnat (length (entries cs)).
Proof. exact (entries_count cs). Qed.
Print Assumptions C31_count.
Example C31_example : Forall call_ok ex_calls /\ is_Ok (snd (run_calls ex_calls state_init)) = true /\
  oshow (stored (fst (fin ex_calls)) SMean "fc" "forward") = Some ([2], [2 # 3; 4 # 1]%Q) /\
  stored (fst (fin ex_calls')) SMean "fc" "forward" = stored (fst (fin ex_calls)) SMean "fc" "forward".
Proof.
  split; [repeat constructor; eexists; (split; [reflexivity|]); (split; [reflexivity|]); (split; [discriminate|]); cbn; auto|].
  split; [reflexivity|]. split; vm_compute; reflexivity.
Qed.

(** Rows of one entry after rows of two are added to both columns; before them, the second update raises. *)
Example C31_narrow : Forall call_ok ex_narrow /\
  oshow (stored (fst (fin ex_narrow)) SMean "fc" "grad") = Some ([2], [9 # 1; 11 # 1]%Q) /\
  snd (run_calls (rev ex_narrow) state_init) = Err RuntimeError.
Proof.
  split; [repeat constructor; eexists; (split; [reflexivity|]); (split; [reflexivity|]); (split; [discriminate|]); exact Logic.I|].
  split; vm_compute; reflexivity.
Qed.

(** C32. The covariance after one finalize. *)
Theorem C32_covariance {F} `{OField F} (dk : @sdisk F) cs s : run_calls cs state_init = (s, Ok tt) -> Forall call_ok cs ->
  exists s' dk', finalize dk s = (s', Ok dk') /\
    forall m t, let ccs := calls_for SCov m t cs in
      (ccs = [] -> stored s' SCov m t = None) /\
      (ccs <> [] -> all_rows ccs <> [] /\ Forall (fun r => length r = width (all_rows ccs)) (all_rows ccs) /\
         stored s' SCov m t = Some (moment SCov (width (all_rows ccs)) (all_rows ccs) (all_count ccs))).
Proof. exact (finalize_cov dk cs s). Qed.
Print Assumptions C32_covariance.
Theorem C32_psd {F} `{OField F} (dk : @sdisk F) cs s s' dk' m t x :
  run_calls cs state_init = (s, Ok tt) -> Forall call_ok cs -> finalize dk s = (s', Ok dk') ->
  stored s' SCov m t = Some x -> exists k, shape x = [k; k] /\ (forall i j, i < k -> j < k -> mget x i j = mget x j i) /\
    (Forall unmasked (calls_for SCov m t cs) ->
     forall v : nat -> F, fle f0 (sum k (fun i => sum k (fun j => fmul (fmul (v i) (mget x i j)) (v j))))).
Proof. exact (covariance_psd dk cs s s' dk' m t x). Qed.
Print Assumptions C32_psd.
Example C32_example : is_Ok (snd (fin ex_calls)) = true /\ Forall unmasked (calls_for SCov "fc" "forward" ex_calls) /\
  oshow (stored (fst (fin ex_calls)) SCov "fc" "forward") = Some ([2; 2], [14 # 3; 2 # 3; 2 # 3; 56 # 3]%Q) /\
  stored (fst (fin ex_calls')) SCov "fc" "forward" = stored (fst (fin ex_calls)) SCov "fc" "forward".
Proof.
  split; [vm_compute; reflexivity|]. split; [repeat constructor|]. split; vm_compute; reflexivity.
Qed.

(** C34. Every finalize divides again; later data are averaged with divided values. *)
Theorem C34_phases {F} `{OField F} (dk : @sdisk F) ps s : run_phases dk ps state_init = (s, Ok tt) -> Forall (Forall call_ok) ps ->
  forall st m t,
    (forall idx, stored s st m t = None -> fold_left (refinalized st idx) (map (calls_for st m t) ps) None = None) /\
    forall x, stored s st m t = Some x -> exists k n, shape x = zsh st k /\ twf x /\ lookup2 s (counter_name st) m t = Some (VN n) /\
      forall idx, valid (zsh st k) idx -> fold_left (refinalized st idx) (map (calls_for st m t) ps) None = Some (tget x idx, n).
Proof. exact (phases_init dk ps s). Qed.
Print Assumptions C34_phases.
Theorem C34_repeated {F} `{OField F} (dk : @sdisk F) cs k s st m t x :
  run_phases dk (cs :: repeat [] k) state_init = (s, Ok tt) -> Forall call_ok cs ->
  let ccs := calls_for st m t cs in stored s st m t = Some x -> all_count ccs <> f0 ->
  ccs <> [] /\ forall idx, valid (shape x) idx -> tget x idx = fdiv (rowstat st (all_rows ccs) idx) (fpow (all_count ccs) (S k)).
Proof. exact (finalize_again dk cs k s st m t x). Qed.
Print Assumptions C34_repeated.
Example C34_example :
  oshow (stored (fst (run_phases ex_dk [ex_calls; []] state_init)) SMean "fc" "forward") = Some ([2], [2 # 9; 4 # 3]%Q) /\
  oshow (stored (fst (run_phases ex_dk [[ex_call SMean "fc" "forward" Gpu ex_x1 false]; [ex_call SMean "fc" "forward" Gpu ex_x2 false]] state_init)) SMean "fc" "forward")
    = Some ([2], [0 # 1; 3 # 1]%Q) /\
  is_Ok (snd (run_phases ex_dk [ex_calls; []] state_init)) = true.
Proof. split; [vm_compute; reflexivity|]. split; vm_compute; reflexivity. Qed.

(** C35. The variance plugin raises in every reachable state and changes nothing. *)
Theorem C35_variance {F} `{OField F} eigh (iv : tensor F -> res (tensor F)) os b mo m t d o :
  let s := fst (run_sops eigh iv os) in variance_update b mo m t d o s = (s, Err AttributeError).
Proof. exact (variance_always_raises eigh iv os b mo m t d o). Qed.
Print Assumptions C35_variance.
Example C35_example : let os := map OCall ex_calls ++ [OFinalize; OSvd; OClear; OLoad] in
  hasattr "covariance_eigvec_state" (fst (run_sops ex_eigh ex_inv os)) = true /\
  snd (variance_update ex_b (Some (KLinear 2 1)) "fc" "forward" (Some (Gpu, ex_x1)) false (fst (run_sops ex_eigh ex_inv os))) = Err AttributeError.
Proof. split; vm_compute; reflexivity. Qed.

(** C36. Corrected eigenvalues. *)
Theorem C36_ekfac {F} `{OField F} (eigh : tensor F -> res (tensor F * tensor F)) (dk0 dk : @sdisk F) ps s e0 es0 s1 :
  run_phases dk0 ps state_init = (s, Ok tt) -> Forall (Forall call_ok) ps -> Forall grad_wf (e0 :: es0) -> run_ecalls eigh (e0 :: es0) s = (s1, Ok tt) ->
  exists s2 dk2, finalize dk s1 = (s2, Ok dk2) /\
    (forall m, filter (fun e => String.eqb (e_m e) m) (e0 :: es0) = [] -> eig_entry s2 m = None) /\
    forall m, filter (fun e => String.eqb (e_m e) m) (e0 :: es0) <> [] ->
      exists x i j k l cf cb vf vb u v, eig_entry s2 m = Some x /\ twf x /\ shape x = [i; j] /\
        stored s SCov m "forward" = Some cf /\ stored s SCov m "backward" = Some cb /\ eigh cf = Ok (vf, v) /\ eigh cb = Ok (vb, u) /\
        shape u = [k; i] /\ shape v = [l; j] /\ Forall (fun g => shape g = [k; l]) (grads_for m (e0 :: es0)) /\
        forall a c, a < i -> c < j -> mget x a c =
          fdiv (lsum (map (fun g => fmul (project u v a c g) (project u v a c g)) (grads_for m (e0 :: es0)))) (fnat (length (grads_for m (e0 :: es0)))).
Proof. exact (ekfac_after eigh dk0 dk ps s e0 es0 s1). Qed.
Print Assumptions C36_ekfac.
(** If the eigendecomposition was already computed (by K-FAC preconditioning, or loaded), the plugin raises. *)
Theorem C36_after_svd {F} `{OField F} eigh (s : @lstate F) b m d o :
  dmem "covariance_eigvec_state" (attrs s) = true -> dmem "ekfac_eigval_state" (attrs s) = false ->
  corrected_eigval_update eigh b m d o s = (s, Err AttributeError).
Proof. exact (eigval_after_svd eigh s b m d o). Qed.
Print Assumptions C36_after_svd.
Example C36_example : let s := fst (run_phases ex_dk [ex_kcalls] state_init) in
  is_Ok (snd (run_phases ex_dk [ex_kcalls] state_init)) = true /\ is_Ok (snd (run_ecalls ex_eigh ex_ecalls s)) = true /\
  oshow (eig_entry (fst (finalize ex_dk (fst (run_ecalls ex_eigh ex_ecalls s)))) "fc") = Some ([1; 2], [7 # 1; 35 # 3]%Q) /\
  snd (corrected_eigval_update ex_eigh (ex_glog (zt [2; 1; 2] [1; 2; 3; 4]%Z)) "fc" None false (fst (covariance_svd ex_eigh s))) = Err AttributeError.
Proof. repeat split; vm_compute; reflexivity. Qed.

(** C37. Several processes. *)
Theorem C37_ranks {F} `{OField F} (dk : @sdisk F) css ss :
  Forall2 (fun cs s => run_calls cs state_init = (s, Ok tt) /\ Forall call_ok cs) css ss -> css <> [] ->
  (forall st cs cs', In cs css -> In cs' css -> touched st cs = touched st cs') ->
  (forall st m t, same_width (all_rows (calls_for st m t (concat css)))) ->
  exists ss' dk', finalize_ranks dk ss = Ok (ss', dk') /\ length ss' = length css /\
    forall s', In s' ss' -> forall st m t, let ccs := calls_for st m t (concat css) in
      (ccs = [] -> stored s' st m t = None) /\
      (ccs <> [] -> stored s' st m t = Some (moment st (width (all_rows ccs)) (all_rows ccs) (all_count ccs))).
Proof. exact (sync_moments dk css ss). Qed.
Print Assumptions C37_ranks.
Example C37_example : touched SMean ex_rank0 = touched SMean ex_rank1' /\
  match finalize_ranks ex_dk [ex_after ex_rank0; ex_after ex_rank1'] with
  | Ok ([s0; s1], _) => oshow (stored s0 SMean "a" "forward") = Some ([2], [2 # 3; 4 # 1]%Q) /\
      oshow (stored s1 SMean "b" "forward") = Some ([2], [0 # 1; 9 # 2]%Q)
  | _ => False
  end.
Proof. split; [reflexivity|]. vm_compute. split; reflexivity. Qed.
(** In different orders the sums of different layers are added: both processes hold the mean of "a" over
    samples of "a" and "b", and no error is raised; with different numbers of keys the collectives do not match. *)
Theorem C37_order_refuted :
  match finalize_ranks ex_dk [ex_after ex_rank0; ex_after ex_rank1] with
  | Ok ([s0; s1], _) => oshow (stored s0 SMean "a" "forward") = Some ([2], [6 # 5; 18 # 5]%Q)
  | _ => False
  end /\
  oshow (Some (moment SMean 2 (all_rows (calls_for SMean "a" "forward" (ex_rank0 ++ ex_rank1))) (all_count (calls_for SMean "a" "forward" (ex_rank0 ++ ex_rank1)))))
    = Some ([2], [2 # 3; 4 # 1]%Q) /\
  finalize_ranks ex_dk [ex_after ex_rank0; ex_after ex_calls] = Err CollectiveMismatch.
Proof. vm_compute. repeat split; reflexivity. Qed.
Print Assumptions C37_order_refuted.

(** C38. CPU offloading. *)
Theorem C38_offload {F} `{OField F} (dk : @sdisk F) cs (s : @lstate F) : run_calls cs state_init = (s, Ok tt) ->
  run_calls (map (with_offload true) cs) state_init = (cpu_state s, Ok tt).
Proof. exact (offload_same dk cs s). Qed.
Print Assumptions C38_offload.
Theorem C38_converse {F} `{OField F} dv cs (s' : @lstate F) :
  Forall (fun c => forall d, get_data (k_b c) (k_m c) (k_t c) (k_data c) = Ok d -> fst d = dv) cs ->
  run_calls (map (with_offload true) cs) state_init = (s', Ok tt) ->
  exists s, run_calls (map (with_offload false) cs) state_init = (s, Ok tt) /\ cpu_state s = s'.
Proof. exact (offload_converse dv cs s'). Qed.
Print Assumptions C38_converse.
Theorem C38_values {F} `{OField F} (s : @lstate F) :
  (forall st m t, stored (cpu_state s) st m t = stored s st m t) /\
  (forall a m t, lookup2 (cpu_state s) a m t = option_map on_cpu (lookup2 s a m t)) /\
  normalize (cpu_state s) = (let (s', o) := normalize s in (cpu_state s', o)).
Proof. exact (conj (cpu_stored s) (conj (cpu_lookup s) (normalize_cpu s))). Qed.
Print Assumptions C38_values.
Example C38_example :
  lookup2 (fst (fin ex_calls)) "covariance_state" "fc" "forward" = Some (VT (Gpu, mgen 2 2 (fun i j => mget (zt [2; 2] [14; 2; 2; 56]%Z) i j / qz 3)%Qc)) /\
  lookup2 (fst (fin (map (with_offload true) ex_calls))) "covariance_state" "fc" "forward" = Some (VT (Cpu, mgen 2 2 (fun i j => mget (zt [2; 2] [14; 2; 2; 56]%Z) i j / qz 3)%Qc)).
Proof. split; vm_compute; reflexivity. Qed.

(** C39. Saving and loading. *)
Theorem C39_save_load {F} `{OField F} (dk : @sdisk F) (s s0 : @lstate F) : (forall a, In a (st_save s) -> dget a (attrs s) <> None) ->
  exists dk' s1, save_state dk s = (s, Ok dk') /\ load_state dk' s0 = (s1, Ok tt) /\
    st_sync s1 = st_sync s /\ st_save s1 = st_save s /\ st_norm s1 = st_norm s /\ st_states s1 = st_states s0 /\ st_noclear s1 = st_noclear s0 /\
    (forall a, In a (st_save s) -> dget a (attrs s1) = dget a (attrs s)) /\
    (forall a, ~ In a (st_save s) -> dget a (attrs s1) = dget a (attrs s0)).
Proof. exact (save_load dk s s0). Qed.
Print Assumptions C39_save_load.
Theorem C39_missing {F} `{OField F} (dk : @sdisk F) (s : @lstate F) : d_others dk = None -> load_state dk s = (s, Err FileNotFoundError).
Proof. exact (load_missing dk s). Qed.
Print Assumptions C39_missing.
(** Loaded statistics have no counters: more data for a loaded key raises after the sum was changed, and
    finalize raises. *)
Theorem C39_resume {F} `{OField F} cs s (dk : @sdisk F) s' dk' s0 s1 :
  run_calls cs state_init = (s, Ok tt) -> Forall call_ok cs -> finalize dk s = (s', Ok dk') ->
  no_counts s0 -> load_state dk' s0 = (s1, Ok tt) ->
  (forall st m t, lookup2 s1 (stat_name st) m t = lookup2 s' (stat_name st) m t) /\
  (forall c, calls_for (k_stat c) (k_m c) (k_t c) cs <> [] -> exists s2 e, do_call c s1 = (s2, Err e)) /\
  (forall c s3, calls_for (k_stat c) (k_m c) (k_t c) cs <> [] -> do_call c s' = (s3, Ok tt) ->
     exists s2, do_call c s1 = (s2, Err TypeError) /\ forall st m t, lookup2 s2 (stat_name st) m t = lookup2 s3 (stat_name st) m t) /\
  (cs <> [] -> forall dk2, exists s2, finalize dk2 s1 = (s2, Err TypeError)).
Proof. exact (resume_raises cs s dk s' dk' s0 s1). Qed.
Print Assumptions C39_resume.
Example C39_example :
  match fin ex_calls with
  | (s', Ok dk') =>
      let s1 := fst (load_state dk' state_init) in
      snd (load_state dk' state_init) = Ok tt /\ stored s1 SMean "fc" "forward" = stored s' SMean "fc" "forward" /\
      is_Ok (snd (do_call (ex_call SMean "fc" "forward" Gpu ex_x2 false) s')) = true /\
      snd (do_call (ex_call SMean "fc" "forward" Gpu ex_x2 false) s1) = Err TypeError /\
      oshow (stored (fst (do_call (ex_call SMean "fc" "forward" Gpu ex_x2 false) s1)) SMean "fc" "forward") = Some ([2], [-4 # 3; 10 # 1]%Q) /\
      is_Ok (snd (finalize ex_dk s1)) = false
  | _ => False
  end.
Proof. vm_compute. repeat split; reflexivity. Qed.

(** C40. Clearing. *)
Theorem C40_clear {F} `{OField F} eigh (iv : tensor F -> res (tensor F)) os : let s := fst (run_sops eigh iv os) in
  exists s', state_clear s = (s', Ok tt) /\ registries s' = registries s /\ dkeys (attrs s') = dkeys (attrs s) /\
    (forall a, In a (st_states s) -> ~ In a (st_noclear s) -> dget a (attrs s') = Some (Node [])) /\
    (forall a, ~ In a (st_states s) \/ In a (st_noclear s) -> dget a (attrs s') = dget a (attrs s)).
Proof. exact (clear_reachable eigh iv os). Qed.
Print Assumptions C40_clear.
(** Decompositions registered before clear are handed out empty afterwards, whatever is logged. *)
Theorem C40_stale {F} `{OField F} eigh (iv : tensor F -> res (tensor F)) os cs s' s2 : let s := fst (run_sops eigh iv os) in
  state_clear s = (s', Ok tt) -> run_calls cs s' = (s2, Ok tt) ->
  (In "covariance_eigval_state" (st_states s) -> In "covariance_eigvec_state" (st_states s) ->
   ~ In "covariance_eigval_state" (st_noclear s) -> ~ In "covariance_eigvec_state" (st_noclear s) ->
   dget "ekfac_eigval_state" (attrs s) = None \/ (In "ekfac_eigval_state" (st_states s) /\ ~ In "ekfac_eigval_state" (st_noclear s)) ->
   get_covariance_svd_state eigh s2 = (s2, Ok (Node [], Node []))) /\
  (In "covariance_inverse_state" (st_states s) -> ~ In "covariance_inverse_state" (st_noclear s) ->
   forall damping, get_covariance_inverse_state iv damping s2 = (s2, Ok (Node []))).
Proof. exact (stale_after_clear eigh iv os cs s' s2). Qed.
Print Assumptions C40_stale.
(** The only state kept is the one registered as such at construction; set_state refuses unknown names. *)
Theorem C40_init {F : Type} : st_noclear (@state_init F) = ["model_module"] /\
  st_states (@state_init F) = ["model_module"; "covariance_counter"; "covariance_state"; "mean_counter"; "mean_state"] /\
  st_save (@state_init F) = ["mean_state"; "covariance_state"; "model_module"] /\
  st_norm (@state_init F) = [("mean_state", "mean_counter"); ("covariance_state", "covariance_counter")].
Proof. repeat split. Qed.
Print Assumptions C40_init.
Theorem C40_set_state {F} `{OField F} (s : @lstate F) n k v : set_state n k v s =
  if mem n (st_states s) then
    match dget n (attrs s) with
    | Some (Node d) => (with_attrs s (dset n (Node (dset k (Leaf v) d)) (attrs s)), Ok tt)
    | Some (Leaf _) => (s, Err TypeError)
    | None => (s, Err AttributeError)
    end
  else (s, Err ValueError).
Proof. exact (set_state_ok s n k v). Qed.
Print Assumptions C40_set_state.
Example C40_example :
  let os := map OCall ex_kcalls ++ [OSet "model_module" "fc" (VDims [1]); OFinalize; OGetSvd; OGetInverse None] in
  let s := fst (run_sops ex_eigh ex_inv os) in
  let s' := fst (state_clear s) in
  let s2 := fst (run_calls ex_kcalls s') in
  stored s SCov "fc" "forward" <> None /\ stored s' SCov "fc" "forward" = None /\ dget "model_module" (attrs s') = Some (Node [("fc", Leaf (VDims [1]))]) /\
  stored s2 SCov "fc" "forward" <> None /\ snd (get_covariance_svd_state ex_eigh s2) = Ok (Node [], Node []) /\
  snd (get_covariance_inverse_state ex_inv None s2) = Ok (Node []) /\
  mem "covariance_eigvec_state" (st_states s) = true /\ mem "covariance_inverse_state" (st_states s) = true.
Proof. vm_compute. repeat split; try reflexivity; discriminate. Qed.
