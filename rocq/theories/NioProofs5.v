(** Proofs about distributed files (for C184-C193), part 5. *)
From Coq Require Import String.
From Coq Require Import List ZArith Bool Arith Lia Permutation.
From Verif Require Import PyBase PyStr PartModel PartSpec PartProofs PartProps0
  SliceModel SliceSpec SliceProofs SliceProps0 NioModel NioSpec NioProofs NioProofs2 NioProofs3 NioProofs4.
Import ListNotations.
Open Scope list_scope.
Open Scope nat_scope.

Lemma read_hdf5 : forall A h5mpi f tn td item (d : dset A) axis ax sel size junk,
  (0 < tn)%Z -> (0 < td)%Z -> (0 <= item)%Z ->
  f = FName \/ (exists b, f = FH5 b) ->
  MeansAxis axis (length (d_shape d)) ax -> Readable sel (d_shape d) ->
  Splittable (read_mpi h5mpi f axis) tn td (map (@length nat) (wanted_all sel (d_shape d))) ax size item ->
  ReadsPart size (fun r => from_file h5mpi HDF5 f tn td item d axis (Some sel) size r (junk r))
    (map (@length nat) (wanted_all sel (d_shape d))) ax
    (selected (wanted_all sel (d_shape d)) (d_data d)).
Proof.
  intros A h5mpi f tn td item d axis ax sel size junk Ht Hd Hi Hf [La Hax] Hr Hs.
  apply splittable in Hs; auto. 2:{ rewrite map_length, wanted_length. exact La. }
  destruct Hf as [->|[b ->]].
  - eapply from_file_spec with (fh := if h5mpi && (0 <? axis)%Z then OpenedMpi None else OpenedSerial); eauto.
    + discriminate.
    + intros _. cbn [read_mpi] in Hs. now destruct (h5mpi && (0 <? axis)%Z).
  - eapply from_file_spec with (fh := Given b); eauto. discriminate.
Qed.

Lemma read_zarr : forall A f tn td item h5mpi (d : dset A) axis ax sel size junk,
  (0 < tn)%Z -> (0 < td)%Z -> (0 <= item)%Z ->
  f = FName \/ (exists b, f = FZarr b) ->
  MeansAxis axis (length (d_shape d)) ax -> Readable sel (d_shape d) ->
  Forall (fun s => exists sl, s = SelSlice sl) sel ->
  ReadsPart size (fun r => from_file h5mpi Zarr f tn td item d axis (Some sel) size r (junk r))
    (map (@length nat) (wanted_all sel (d_shape d))) ax
    (selected (wanted_all sel (d_shape d)) (d_data d)).
Proof.
  intros A f tn td item h5mpi d axis ax sel size junk Ht Hd Hi Hf [La Hax] Hr Hs.
  eapply from_file_spec with (fh := Given false); eauto.
  - destruct Hf as [->|[b ->]]; reflexivity.
  - intros _. rewrite Forall_forall in *. intros s Hin. destruct (Hs s Hin) as [sl ->]. reflexivity.
  - discriminate.
Qed.

(** Positions are in range, so only the elements of the array are read. *)
Lemma wanted_range : forall sel shape k, Readable sel shape ->
  inside (map (@length nat) (wanted_all sel shape)) k -> inside shape (index_at (wanted_all sel shape) k).
Proof.
  intros sel shape k [L H]. revert sel k L H. induction shape as [|n shape IH]; intros sel k L H Hk.
  - destruct sel; cbn in *; inversion Hk; constructor.
  - destruct sel as [|s sel]; cbn in Hk; inversion Hk as [|x y k' l' H1 H2]; subst; cbn; constructor.
    + rewrite seq_length in H1. rewrite seq_nth by auto. lia.
    + apply IH; auto. cbn. lia. intros [|j] t X; discriminate.
    + assert (X : In (nth x (wanted s n) 0) (wanted s n)) by (apply nth_In; auto).
      specialize (H 0 s eq_refl). cbn in H. destruct s as [s|idx]; cbn [wanted] in X.
      * apply filter_In in X as [X _]. apply in_seq in X. cbn [wanted]. lia.
      * cbn [wanted]. unfold ReadableEntry in H. rewrite Forall_forall in H. auto.
    + apply IH; auto. cbn in L. lia. intros j t X. exact (H (S j) t X).
Qed.

Lemma reads_holds : forall A size res gshape ax shape sel ty (d : dset A) g, 1 <= size ->
  gshape = map (@length nat) (wanted_all sel shape) -> ax < length shape ->
  Readable sel shape -> Holds d shape ty g ->
  ReadsPart size res gshape ax (selected (wanted_all sel shape) (d_data d)) ->
  ReadsPart size res gshape ax (selected (wanted_all sel shape) g).
Proof.
  intros A size res gshape ax shape sel ty d g Hs -> La Hr (_ & _ & Hd) (locs & H1 & H2).
  exists locs. split; auto. intros r k Hrk Hk. rewrite (H1 r k Hrk Hk).
  unfold selected. rewrite <- !index_at_combine. apply Hd. apply wanted_range; auto.
  apply inside_move; auto. now rewrite map_length, wanted_length.
Qed.

Lemma wanted_none : forall shape, wanted_all [] shape = map (seq 0) shape.
Proof. intros. exact (wanted_full shape 0 ltac:(lia)). Qed.

Lemma expand_none : forall n, expand_sel None n = expand_sel (Some []) n.
Proof.
  intros n. unfold expand_sel. rewrite repeat_length. cbn [length]. rewrite Nat.ltb_irrefl.
  destruct n; reflexivity.
Qed.

Lemma from_file_none : forall A h5mpi fmt f tn td item (d : dset A) axis size r junk,
  from_file h5mpi fmt f tn td item d axis None size r junk
  = from_file h5mpi fmt f tn td item d axis (Some []) size r junk.
Proof. intros. unfold from_file. cbv zeta. now rewrite expand_none. Qed.

Lemma incompatible : forall A (old : option (dset A)) shape ty comp zero, ~ Compatible old shape ty ->
  create_or_get old shape ty comp zero = Err RuntimeError.
Proof.
  intros A [d|] shape ty comp zero H; cbn in *; [|tauto].
  destruct (same_shape (d_shape d) shape) eqn:E; cbn; auto. apply same_shape_eq in E.
  destruct (Nat.eqb_spec (d_type d) ty); cbn; auto. tauto.
Qed.

Lemma to_file_incompatible : forall A h5mpi fmt f tn td (a : dist A) zero comp order old,
  ~ Compatible old (a_gshape a) (a_type a) ->
  exists e, to_file h5mpi fmt f tn td a zero comp order old = Err e.
Proof.
  intros A h5mpi fmt f tn td a zero comp order old H. unfold to_file. cbv zeta.
  set (co := match comp with Some c => Some c | None => a_comp a end). destruct fmt.
  - unfold to_hdf5. destruct h5mpi; cbn [negb].
    + destruct (to_hdf5_open true f 0) as [fh|e]; cbn [rbind]; [|eauto].
      destruct (partition_io _ _ _ _ _ _ _) as [sp|e]; cbn [rbind]; [|eauto].
      rewrite incompatible by auto. cbn. eauto.
    + destruct f; eauto. unfold to_hdf5_serial. rewrite incompatible by auto. cbn. eauto.
  - unfold to_zarr. rewrite (incompatible _ _ _ _ co) by auto. cbn [rbind]. destruct f as [| |[|]|]; eauto.
  - eauto.
Qed.

Lemma to_file_stored : forall A h5mpi fmt f tn td (a : dist A) zero comp order d d',
  to_file h5mpi fmt f tn td a zero comp order (Some d) = Ok d' ->
  d_shape d' = d_shape d /\ d_type d' = d_type d /\ d_comp d' = d_comp d.
Proof.
  intros A h5mpi fmt f tn td a zero comp order d d' H. unfold to_file in H. cbv zeta in H.
  set (co := match comp with Some c => Some c | None => a_comp a end) in *.
  assert (C : forall co' x, create_or_get (Some d) (a_gshape a) (a_type a) co' zero = Ok x -> x = d).
  { intros co' x E. cbn in E. destruct (negb _); [discriminate|]. destruct (negb _); [discriminate|].
    now injection E as <-. }
  destruct fmt; [| |discriminate].
  - unfold to_hdf5 in H. destruct h5mpi; cbn [negb] in H.
    + destruct (to_hdf5_open true f 0) as [fh|e]; cbn [rbind] in H; [|discriminate].
      destruct (partition_io _ _ _ _ _ _ _) as [sp|e]; cbn [rbind] in H; [|discriminate].
      destruct (create_or_get _ _ _ _ _) as [x|] eqn:E; cbn [rbind] in H; [|discriminate].
      apply C in E. subst x. destruct (_ && _) in H; [discriminate|].
      destruct (write_ranks _ _ _ _ _ _ _) as [data|]; cbn [rbind] in H; [|discriminate].
      injection H as <-. cbn. auto.
    + destruct f; try discriminate. unfold to_hdf5_serial in H.
      destruct (create_or_get _ _ _ _ _) as [x|] eqn:E; cbn [rbind] in H; [|discriminate].
      apply C in E. subst x. destruct (serial_ranks _ _ _ _ _) as [data|]; cbn [rbind] in H; [|discriminate].
      injection H as <-. cbn. auto.
  - assert (H' : exists data, d' = with_data d data).
    { unfold to_zarr in H. destruct (create_or_get _ _ _ _ _) as [x|] eqn:E; cbn [rbind] in H.
      - apply C in E. subst x. destruct (write_ranks _ _ _ _ _ _ _) as [data|]; cbn [rbind] in H.
        + exists data. destruct f as [| |[|]|]; congruence.
        + destruct f as [| |[|]|]; discriminate.
      - destruct f as [| |[|]|]; discriminate. }
    destruct H' as [data ->]. cbn. auto.
Qed.

Lemma compression_refused : forall A f tn td (a : dist A) ax zero c order old,
  (0 < tn)%Z -> (0 < td)%Z -> 1 <= a_size a -> a_axis a = Z.of_nat ax -> ax < length (a_gshape a) ->
  f = FName \/ (exists b, f = FH5 b) ->
  Compatible old (a_gshape a) (a_type a) ->
  Splittable (mpi_file true f) tn td (a_gshape a) ax (a_size a) (a_item a) ->
  mpi_file true f = false \/ (exists r, r < a_size a /\ part_of (nth ax (a_gshape a) 0) (a_size a) r = 0) ->
  to_hdf5 true f tn td a zero (Some c) order old = Err RuntimeError.
Proof.
  intros A f tn td a ax zero c order old Ht Hd Hs Eax La Hf Hc Hsp H. unfold to_hdf5. cbn [negb].
  assert (E0 : exists fh, to_hdf5_open true f 0 = Ok fh).
  { destruct Hf as [->|[b ->]]; cbn; eauto. }
  destruct E0 as [fh E0]. rewrite E0. cbn [rbind]. rewrite (to_hdf5_open_mpi _ _ _ E0).
  rewrite Eax, wrap_nat. apply splittable in Hsp; auto.
  destruct (Hsp 0) as [sp0 Hsp0]. cbn [io_skip]. rewrite Hsp0. cbn [rbind].
  destruct (create_compatible A old (a_gshape a) (a_type a) (Some c) zero Hc) as (d & E1 & _).
  rewrite E1. cbn [rbind].
  assert (C : mpi_file true f && (a_size a <=? nth ax (a_gshape a) 0) = false).
  { destruct H as [->|H]; auto. apply null_slices in H; auto. rewrite H. apply andb_false_r. }
  rewrite C. reflexivity.
Qed.
