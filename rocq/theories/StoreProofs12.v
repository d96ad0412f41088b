(** The size of the data files in bytes, and the directory a crash in the metadata file leaves (C01, C09). *)
From Verif Require Import Py PyStr ModelMmap ModelSaver SpecStore SpecSize StoreProofs1 StoreProofs2 StoreProofs3 StoreProofs10.
Local Open Scope nat_scope.

Lemma bits_ok dt : 8 * itemsize dt = bits dt.
Proof. destruct dt; reflexivity. Qed.
Lemma sum_scale k l : k * sum_nat l = sum_nat (map (Nat.mul k) l).
Proof. induction l as [|x l IH]; cbn [sum_nat fold_right map] in *; unfold sum_nat in *; lia. Qed.
Lemma arrays_extract (x : nd array) : forall p, map snd (extract_arrays p x) = arrays_of x.
Proof.
  induction x as [a|l IH] using nd_ind'; intros p; [reflexivity|]. cbn [extract_arrays arrays_of].
  induction l as [|[k y] l IHl]; [reflexivity|]. cbn [map concat fst snd] in *. inversion IH as [|? ? I1 I2]; subst. rewrite map_app. cbn [snd] in I1. rewrite I1. f_equal. apply IHl. exact I2.
Qed.
Lemma total_bits buf : 8 * total_size buf = sum_nat (map (fun a => bits (a_dtype a) * prod (a_shape a)) (concat (map (fun x : did * nd array => arrays_of (snd x)) buf))).
Proof.
  unfold total_size. induction buf as [|[i x] buf IH]; [reflexivity|]. cbn [map concat sum_nat fold_right snd]. unfold sum_nat in *. rewrite map_app, fold_right_app.
  rewrite Nat.mul_add_distr_l. cbn [map fold_right] in IH. rewrite IH. clear IH. generalize (fold_right Nat.add 0 (map (fun a => bits (a_dtype a) * prod (a_shape a)) (concat (map (fun x0 : did * nd array => arrays_of (snd x0)) buf)))).
  intros n. rewrite <- (arrays_extract x []). induction (extract_arrays [] x) as [|[k a] l IHl]; [cbn; lia|]. cbn [map fold_right snd]. rewrite <- IHl. unfold nbytes. rewrite <- bits_ok. lia.
Qed.
Theorem chunk_size d s d' s' : s_buffer s <> [] -> flush_serialized d s = (d', s', Ok tt) ->
  exists bs, dget (data_name (chunk_file (s_rank s) (s_count s))) d' = Some (FData bs) /\
    8 * length bs = sum_nat (map (fun a => bits (a_dtype a) * prod (a_shape a)) (concat (map (fun x : did * nd array => arrays_of (snd x)) (s_buffer s)))).
Proof.
  intros NE. unfold flush_serialized. destruct (s_buffer s) as [|x0 r0] eqn:Eb; [congruence|]. rewrite <- Eb. clear NE x0 r0 Eb.
  destruct (write d _ (s_buffer s) (s_path s)) as [d1 [[]|e]] eqn:W; [|discriminate]. intros [= <- _].
  unfold write in W. destruct (Nat.eqb _ 0); [discriminate|].
  pose proof (write_samples_len (s_path s) (s_buffer s) (repeat x00 (total_size (s_buffer s))) 0 []) as L. rewrite repeat_length in L.
  destruct (write_samples _ _ _ _ _) as [mm [meta|e]]; [|discriminate]. cbn [fst] in L. destruct (forallb _ meta); [|discriminate]. injection W as <-.
  exists mm. split; [|rewrite L; apply total_bits].
  change (chunk_file (s_rank s) (s_count s)) with (cfile (s_rank s, s_count s)). rewrite data_name_cfile, meta_name_cfile.
  rewrite dget_dset_neq by (intros C; symmetry in C; exact (mfile_cfile _ _ C)). apply dget_dset_eq.
Qed.
Theorem crash_meta d s d' s' n : s_buffer s <> [] -> flush_serialized d s = (d', s', Ok tt) ->
  dget n (crash_flush d s CrashMeta) = if String.eqb n (meta_name (chunk_file (s_rank s) (s_count s))) then Some FBroken else dget n d'.
Proof.
  intros NE. unfold flush_serialized. destruct (s_buffer s) as [|x0 r0] eqn:Eb; [congruence|]. rewrite <- Eb. clear NE x0 r0 Eb.
  destruct (write d _ (s_buffer s) (s_path s)) as [d1 [[]|e]] eqn:W; [|discriminate]. intros [= <- _].
  unfold write in W. destruct (Nat.eqb _ 0); [discriminate|]. unfold crash_flush, crash_write.
  destruct (write_samples _ _ _ _ _) as [mm [meta|e]]; [|discriminate]. cbn [fst]. destruct (forallb _ meta); [|discriminate]. injection W as <-.
  destruct (String.eqb_spec n (meta_name (chunk_file (s_rank s) (s_count s)))) as [->|N]; [apply dget_dset_eq|]. etransitivity; [apply dget_dset_neq; congruence|symmetry; apply dget_dset_neq; congruence].
Qed.
