(** Concrete models for the LoRA properties. *)
From Coq Require Import ZArith QArith Qcanon.
From Verif Require Import Py PyStr Field Tensor ModelGrad Monad ModelState ModelMmap ModelSaver ModelLogger ModelModules ModelLora SpecGrad SpecState SpecLora LoraProofs2 LoraProofs5 ExNum ExState ExLogger.
Local Open Scope string_scope.
Local Open Scope list_scope.
Local Open Scope nat_scope.

(** checks for module trees in which no object occurs twice *)
Fixpoint subs (t : mtree) : list mtree := match t with MT _ _ _ _ kids => t :: concat (map (fun nc => subs (snd nc)) kids) end.
Lemma below_subs u t : below u t -> In u (subs t).
Proof.
  induction 1 as [|t key c Hc B IH]; [destruct u; left; reflexivity|]. destruct t as [id k cls ps kids]. right. apply in_concat. exists (subs c). split; [|exact IH]. apply in_map_iff. exists (key, c). auto.
Qed.
Fixpoint nodupb {A} `{Eqb A} (l : list A) : bool := match l with [] => true | a :: r => negb (mem a r) && nodupb r end.
Lemma nodupb_ok {A} `{Eqb A} (l : list A) : nodupb l = true -> NoDup l.
Proof.
  induction l as [|a r IH]; cbn [nodupb]; [constructor|]. intros E. apply andb_prop in E as [E1 E2]. constructor; [|apply IH, E2]. rewrite <- mem_In. destruct (mem a r); [discriminate E1|discriminate].
Qed.
Definition tree_okb (root : mtree) (n : nat) : bool :=
  nodupb (map t_id (subs root)) &&
  forallb (fun u => nodupb (map fst (t_kids u)) && negb (mem "" (map fst (t_kids u))) && (t_id u <? n) && forallb (fun p => p <? n) (t_params u)) (subs root).
Lemma nodup_map_inj {A B} (f : A -> B) l x y : NoDup (map f l) -> In x l -> In y l -> f x = f y -> x = y.
Proof.
  induction l as [|a l IH]; [intros _ []|]. cbn [map]. intros N Hx Hy E. apply NoDup_cons_iff in N as [N1 N2]. destruct Hx as [->|Hx], Hy as [->|Hy]; auto.
  - exfalso. apply N1. rewrite E. apply in_map, Hy.
  - exfalso. apply N1. rewrite <- E. apply in_map, Hx.
Qed.
Lemma tree_okb_ok root n : tree_okb root n = true -> tree_ok root n.
Proof.
  unfold tree_okb. intros E. apply andb_prop in E as [E1 E2]. apply nodupb_ok in E1. rewrite forallb_forall in E2. constructor.
  - intros u B. specialize (E2 u (below_subs _ _ B)). apply andb_prop in E2 as [E2 _]. apply andb_prop in E2 as [E2 _]. apply andb_prop in E2 as [E2 E3]. split; [apply nodupb_ok, E2|]. rewrite <- mem_In. destruct (mem _ _); [discriminate E3|discriminate].
  - intros u v Bu Bv. apply (nodup_map_inj t_id (subs root)); auto using below_subs.
  - intros u B. specialize (E2 u (below_subs _ _ B)). apply andb_prop in E2 as [E2 E4]. apply andb_prop in E2 as [_ E3]. apply Nat.ltb_lt in E3. split; [exact E3|]. rewrite forallb_forall in E4. intros p Hp. apply Nat.ltb_lt, E4, Hp.
Qed.
Notation weights := (dict mid (tensor Qc * option (tensor Qc))).
Definition weightsb (w : weights) (root : mtree) : bool :=
  forallb (fun u => match t_kind u with
                    | KLinear _ _ | KConv2d _ => match dget (t_id u) w with Some (v, _) => same_shape (shape v) (weight_shape u) | None => false end
                    | _ => true end) (subs root).
Lemma weightsb_ok w root : weightsb w root = true -> layer_weights w root.
Proof.
  unfold weightsb. rewrite forallb_forall. intros E u B _. specialize (E u (below_subs _ _ B)). destruct (t_kind u); try exact Logic.I; destruct (dget (t_id u) w) as [[v b]|]; try discriminate E; exists v, b; (split; [reflexivity|apply same_shape_true, E]).
Qed.
Lemma selected_check tf nf root i : In i (named_modules root) -> module_check i tf nf false = true -> selected tf nf root i.
Proof. intros H1 H2. split; [exact H1|]. apply module_check_spec in H2. apply H2. Qed.
Lemma selected_checks tf nf root i : selected tf nf root i -> In i (filter (fun i => module_check i tf nf false) (named_modules root)).
Proof. intros [H1 H2]. apply filter_In. split; [exact H1|]. apply module_check_spec. split; [exact H2|discriminate]. Qed.

(** the user's modules call their children one after another *)
Definition lusr (_ : mid) (kids : list (string * (tensor Qc -> res (tensor Qc)))) (x : tensor Qc) : res (tensor Qc) :=
  fold_left (fun r k => let* y := r in snd k y) kids (Ok x).
Lemma lusr_calls : calls_only lusr.
Proof.
  intros id l l' Hl x. unfold lusr. generalize (Ok x). induction Hl as [|p q l l' [_ E] _ IH]; intros r; [reflexivity|]. cbn [fold_left]. rewrite IH. f_equal. destruct r; [apply E|reflexivity].
Qed.
(** "random" weights *)
Definition lrnd (m : mid) (i : list nat) : Qc := qz (Z.of_nat (m + 2 * ix 0 i + ix 1 i)).
(** "singular vectors": the unit vectors in reverse order *)
Definition lsvd (m : tensor Qc) : res (tensor Qc) :=
  match shape m with [n; _] => Ok (mgen n n (fun i j => if S (i + j) =? n then f1 else f0)) | _ => Err RuntimeError end.
Lemma lsvd_square m u n : shape m = [n; n] -> lsvd m = Ok u -> shape u = [n; n].
Proof. unfold lsvd. intros ->. intros [= <-]. reflexivity. Qed.

(** two linear layers *)
Definition lroot : mtree := MT 0 KOther [] []
  [("fc1", MT 1 (KLinear 2 3) [] [1; 4] []); ("act", MT 2 KOther [] [] []); ("fc2", MT 3 (KLinear 3 2) [7] [3] [])].
Definition lwts : weights := [(1, (zt [3; 2] [1; 0; 0; 1; 1; 1]%Z, Some (zt [3] [1; 0; -1]%Z))); (3, (zt [2; 3] [1; 2; 3; 0; 1; 0]%Z, None))].
Definition lcfg (init : string) (rank : nat) (share : bool) (g : option (list string)) : lora_cfg := LoraCfg init rank share g.
Definition lstart (root : mtree) (n : nat) (w : weights) (c : lora_cfg) : @lm Qc := LM (@lx_init Qc 0 100 false) (Some root) n [] w None None c None None None.
Definition ls0 : lm := lstart lroot 5 lwts (lcfg "random" 2 false None).
Definition lx0 : tensor Qc := zt [1; 2] [2; 3]%Z.
Definition lcov : nd (@sval Qc) := Node
  [("fc1", Node [("forward", Leaf (VT (Cpu, zt [2; 2] [1; 0; 0; 2]%Z))); ("backward", Leaf (VT (Cpu, zt [3; 3] [1; 0; 0; 0; 2; 0; 0; 0; 3]%Z)))]);
   ("fc2", Node [("forward", Leaf (VT (Cpu, zt [3; 3] [1; 0; 0; 0; 2; 0; 0; 0; 3]%Z))); ("backward", Leaf (VT (Cpu, zt [2; 2] [1; 0; 0; 2]%Z)))])].
(** the same with collected covariances and PCA *)
Definition with_cov (cov : nd (@sval Qc)) (s : @lm Qc) : lm :=
  lm_set_x s (with_state (lm_x s) (with_attrs (x_state (lm_x s)) (dset "covariance_state" cov (attrs (x_state (lm_x s)))))).
Definition lsp : lm := with_cov lcov (lstart lroot 5 lwts (lcfg "pca" 1 false None)).

(** a dilated convolution *)
Definition cgeo : conv := Conv 1 1 2 1 1 1 0 0 2 1 1.
Definition croot : mtree := MT 0 KOther [] [] [("conv", MT 1 (KConv2d cgeo) [] [1] [])].
Definition cwts : weights := [(1, (zt [1; 1; 2; 1] [1; 2]%Z, None))].
Definition cs0 : lm := lstart croot 2 cwts (lcfg "random" 1 false None).
Definition cx0 : tensor Qc := zt [1; 1; 3; 1] [1; 2; 3]%Z.
Definition ladd (w c : bool) tf nf cfg (s : @lm Qc) := lm_add_lora lrnd lsvd w c tf nf None cfg s.
Notation lafter s := (fst (ladd true false None None None s)).
(** the model's function *)
Definition lcall (s : @lm Qc) (x : tensor Qc) : res (list nat * list Q) :=
  match lm_root s with Some r => rshow (ModelLora.call lusr (lm_w s) r x) | None => Err AttributeError end.
(** the modules of a tree by position, and facts about all selected ones *)
Definition it (root : mtree) (k : nat) : item := nth k (named_modules root) (Item "" 0 "" root).
Lemma sel_it tf nf root k : (k <? length (named_modules root)) = true -> module_check (it root k) tf nf false = true -> selected tf nf root (it root k).
Proof. intros L E. apply selected_check; [|exact E]. apply nth_In, Nat.ltb_lt, L. Qed.
Lemma sel_forall (P : item -> Prop) tf nf root : Forall P (filter (fun i => module_check i tf nf false) (named_modules root)) -> forall i, selected tf nf root i -> P i.
Proof. intros A i S. rewrite Forall_forall in A. apply A, selected_checks, S. Qed.
Lemma below_forall (P : mtree -> Prop) root : Forall P (subs root) -> forall u, below u root -> P u.
Proof. intros A u B. rewrite Forall_forall in A. apply A, below_subs, B. Qed.
Lemma no_sub (k s : string) : contains k s = false -> ~ substring k s.
Proof. intros E S. apply contains_spec in S. congruence. Qed.
Lemma is_sub (k s : string) : contains k s = true -> substring k s.
Proof. apply contains_spec. Qed.
Definition keysb (P : string -> bool) (root : mtree) : bool := forallb (fun u => forallb (fun nc => P (fst nc)) (t_kids u)) (subs root).
Lemma keysb_ok P root : keysb P root = true -> forall u k c, below u root -> In (k, c) (t_kids u) -> P k = true.
Proof.
  unfold keysb. rewrite forallb_forall. intros E u k c B Hk. specialize (E u (below_subs _ _ B)). rewrite forallb_forall in E. exact (E (k, c) Hk).
Qed.
Lemma plain_ok root : keysb (fun k => negb (contains "logix_lora_B" k)) root = true -> plain root.
Proof. intros E u k c B Hk. pose proof (keysb_ok _ _ E u k c B Hk) as X. cbv beta in X. apply no_sub. destruct (contains _ _); [discriminate X|reflexivity]. Qed.
Lemma undotted_ok root : keysb (fun k => negb (contains "." k)) root = true -> undotted root.
Proof. intros E u k c B Hk. pose proof (keysb_ok _ _ E u k c B Hk) as X. cbv beta in X. apply no_sub. destruct (contains _ _); [discriminate X|reflexivity]. Qed.
(** a single layer without a model around it, and one-dimensional convolutions *)
Definition broot : mtree := MT 0 (KLinear 2 3) [] [0] [].
Definition bs0 : lm := lstart broot 1 [(0, (zt [3; 2] [1; 0; 0; 1; 1; 1]%Z, None))] (lcfg "random" 2 false None).
Definition kroot : mtree := MT 0 KOther [] [] [("fc", MT 1 (KLinear 2 3) [] [1] []); ("seq", MT 2 KConv1d [] [2] [])].
Definition ks0 (c : lora_cfg) : lm := lstart kroot 3 [(1, (zt [3; 2] [1; 0; 0; 1; 1; 1]%Z, None))] c.
(** the two linear layers after add_lora *)
Definition lroot1 : mtree := MT 0 KOther [] []
  [("fc1", MT 8 KOther [] [] [("logix_lora_A", MT 5 (KLinear 2 2) [] [5] []); ("logix_lora_B", MT 6 (KLinear 2 2) [] [6] []); ("logix_lora_C", MT 7 (KLinear 2 3) [] [7] []); ("_linear", MT 1 (KLinear 2 3) [] [1; 4] [])]);
   ("act", MT 2 KOther [] [] []);
   ("fc2", MT 12 KOther [] [] [("logix_lora_A", MT 9 (KLinear 3 2) [] [9] []); ("logix_lora_B", MT 10 (KLinear 2 2) [] [10] []); ("logix_lora_C", MT 11 (KLinear 2 2) [] [11] []); ("_linear", MT 3 (KLinear 3 2) [7] [3] [])])].
Definition same_formb (p q : option (tensor Qc * option (tensor Qc))) : bool :=
  match p, q with
  | Some (v, b), Some (v', b') => same_shape (shape v) (shape v') && match b, b' with Some x, Some y => same_shape (shape x) (shape y) | None, None => true | _, _ => false end
  | None, None => true
  | _, _ => false
  end.
Lemma same_formb_ok p q : same_formb p q = true -> same_form p q.
Proof.
  destruct p as [[v b]|], q as [[v' b']|]; cbn; try discriminate; try (intros; exact Logic.I). intros E. apply andb_prop in E as [E1 E2]. split; [apply same_shape_true, E1|]. destruct b, b'; try discriminate E2; [apply same_shape_true, E2|exact Logic.I].
Qed.
Lemma forms_ok (w w' : weights) root : forallb (fun u => same_formb (dget (t_id u) w) (dget (t_id u) w')) (subs root) = true -> forall u, below u root -> same_form (dget (t_id u) w) (dget (t_id u) w').
Proof. rewrite forallb_forall. intros E u B. apply same_formb_ok, E, below_subs, B. Qed.
