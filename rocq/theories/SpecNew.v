(** Specification vocabulary for newly created trainers. *)
From Verif Require Import Py PyStr Field Tensor ModelGrad Monad ModelState ModelMmap ModelSaver ModelLogger ModelModules ModelLora ModelScheduler ModelInfluence ModelUtils ModelTrainer ModelLightning SpecLora SpecWatch.
Local Open Scope nat_scope.

Section S.
  Context {F : Type} `{OField F}.
  Notation lm := (@lm F).
  Notation weights := (dict mid (tensor F * option (tensor F))).
  (** the selected layers of [root] are tracked in addition to those of [s], all other leaves are frozen *)
  Definition watching (tf : option (list fclass)) (nf : option (list string)) (root : mtree) (s s' : lm) : Prop :=
    lm_root s' = Some root /\ lm_tf s' = tf /\ lm_nf s' = nf /\ lm_w s' = lm_w s /\ lm_file s' = lm_file s /\
    (exists l, x_mods (lm_x s') = x_mods (lm_x s) ++ map (fun i => t_id (i_mod i)) l /\ NoDup (map (fun i => t_id (i_mod i)) l) /\ forall i, In i l <-> to_track tf nf root i) /\
    (forall m name, dget m (x_names (lm_x s')) = Some name <->
       (exists i, to_track tf nf root i /\ t_id (i_mod i) = m /\ i_name i = name) \/
       ((forall i, to_track tf nf root i -> t_id (i_mod i) <> m) /\ dget m (x_names (lm_x s)) = Some name)) /\
    (forall p, In p (lm_frozen s') <-> In p (lm_frozen s) \/
       exists i, In i (named_modules root) /\ t_kids (i_mod i) = [] /\ In p (t_params (i_mod i)) /\ ~ to_track tf nf root i).
  (** every selected layer of [root] is wrapped, the bottlenecks (whose names pass the filters) are tracked and nothing else,
      all other leaves are frozen *)
  Definition compressed (h : lora_cfg) (tf : option (list fclass)) (nf : option (list string)) (root : mtree) (s s' : lm) : Prop :=
    exists f, lm_root s' = Some (replace_kids f root) /\ lm_tf s' = tf /\ lm_nf s' = nf /\
      wrapped h tf nf root (lm_next s) (lm_next s') (lm_w s') f /\ (forall u, below u root -> dget (t_id u) (lm_w s') = dget (t_id u) (lm_w s)) /\
      x_mods (lm_x s') = map fst (x_names (lm_x s')) /\
      (forall m name, In (m, name) (x_names (lm_x s')) <->
         exists i b n a c ks, selected tf nf root i /\ f (i_parent i) (i_key i) = Some (lora_around (lc_rank h) (i_mod i) b n a c) /\
           t_id b = m /\ path root ks (i_mod i) /\ name = dots (ks ++ ["logix_lora_B"%string]) /\
           (exists j, In j (named_modules (replace_kids f root)) /\ i_mod j = b /\ i_name j = name) /\ passes tf nf name b) /\
      (forall p, In p (lm_frozen s') <-> In p (lm_frozen s) \/
         (exists i, In i (named_modules root) /\ t_kids (i_mod i) = [] /\ In p (t_params (i_mod i)) /\ ~ to_track tf nf root i) \/
         (exists u, below u (replace_kids f root) /\ t_kids u = [] /\ In p (t_params u) /\ ~ In (t_id u) (x_mods (lm_x s')))).
  (** the file holds the weights of the LoRA modules in [s] *)
  Definition holds_weights (file : dict string (tensor F)) (s : lm) : Prop :=
    exists root, lm_root s = Some root /\ (exists ks u, path root ks u /\ lora_named ks /\ dget (t_id u) (lm_w s) <> None) /\
      forall ks u v b, path root ks u -> lora_named ks -> dget (t_id u) (lm_w s) = Some (v, b) ->
        dget (dots (ks ++ ["weight"%string])) file = Some v /\ forall x, b = Some x -> dget (dots (ks ++ ["bias"%string])) file = Some x.
  (** the LogIX object of a Lightning trainer; its arguments with initialize_from_log=False *)
  Definition pl_lm {X} (q : @pl F X) : lm := tr_lm (pl_t q).
  Definition without_init (a : @plargs F) : plargs := PA (pa_lora a) false (pa_nf a) (pa_tf a) (pa_bs a) (pa_damping a) (pa_imode a).
End S.
