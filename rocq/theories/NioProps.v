(** C184-C193: arrays with several axes in files. *)
From Coq Require Import String.
From Coq Require Import List ZArith Bool Arith Lia Permutation.
From Verif Require Import PyBase PyStr PartModel PartSpec SliceModel SliceSpec NioModel NioSpec
  NioProofs NioProofs2 NioProofs3 NioProofs4 NioProofs5.
Import ListNotations.
Open Scope list_scope.
Open Scope nat_scope.

(** C184.  All elements of the global array arrive in the dataset, in whatever
    order the ranks write and however the transfers are cut: with MPI-IO ... *)
Theorem C184_hdf5 : forall A f tn td (a : dist A) ax g zero comp order old,
  (0 < tn)%Z -> (0 < td)%Z -> (0 <= a_item a)%Z ->
  1 <= a_size a -> a_axis a = Z.of_nat ax -> ax < length (a_gshape a) ->
  f = FName \/ (exists b, f = FH5 b) ->
  Distributes (a_gshape a) ax (a_size a) (a_locs a) g ->
  Compatible old (a_gshape a) (a_type a) ->
  Splittable (mpi_file true f) tn td (a_gshape a) ax (a_size a) (a_item a) ->
  comp = None \/ (mpi_file true f = true /\ a_size a <= nth ax (a_gshape a) 0) ->
  Permutation order (seq 0 (a_size a)) ->
  exists d, to_hdf5 true f tn td a zero comp order old = Ok d
    /\ Holds d (a_gshape a) (a_type a) g /\ (old = None -> d_comp d = comp).
Proof. exact NioProofs4.to_hdf5_holds. Qed.
Print Assumptions C184_hdf5.

(** ... one rank after the other ... *)
Theorem C184_serial : forall A (a : dist A) ax g zero old,
  1 <= a_size a -> a_axis a = Z.of_nat ax -> ax < length (a_gshape a) ->
  Distributes (a_gshape a) ax (a_size a) (a_locs a) g ->
  Compatible old (a_gshape a) (a_type a) ->
  exists d, to_hdf5_serial a zero old = Ok d /\ Holds d (a_gshape a) (a_type a) g.
Proof. exact NioProofs4.serial_holds. Qed.
Print Assumptions C184_serial.

(** ... and with zarr. *)
Theorem C184_zarr : forall A f (a : dist A) ax g zero comp order old,
  (0 <= a_item a)%Z ->
  1 <= a_size a -> a_axis a = Z.of_nat ax -> ax < length (a_gshape a) ->
  f = FName \/ f = FZarr true ->
  Distributes (a_gshape a) ax (a_size a) (a_locs a) g ->
  Compatible old (a_gshape a) (a_type a) ->
  Permutation order (seq 0 (a_size a)) ->
  exists d, to_zarr f a zero comp order old = Ok d
    /\ Holds d (a_gshape a) (a_type a) g /\ (old = None -> d_comp d = comp).
Proof. exact NioProofs4.to_zarr_holds. Qed.
Print Assumptions C184_zarr.

(** A 3 x 4 array over axis 1 on 3 ranks (2, 1 and 1 columns of 8 byte
    numbers); with transfers of at most 16 bytes the rows are written one by
    one. *)
Definition ex_g : nd nat := fun i => 10 * nth 0 i 0 + nth 1 i 0.
Definition ex_locs (r : nat) : nd nat := fun k => ex_g [nth 0 k 0; nth 1 k 0 + nth r [0; 2; 3] 0].
Definition ex_a : dist nat := mkdist [3; 4] 1 3 0 8 ex_locs None.
Definition ex_all : list (list nat) := map (fun '(a, b) => [a; b]) (list_prod [0; 1; 2] [0; 1; 2; 3]).
Definition contents {A} (d : res (dset A)) : list A :=
  match d with Ok d => map (d_data d) ex_all | Err _ => [] end.

Example C184_example :
  Splittable true 16 1 [3; 4] 1 3 8
  /\ contents (to_hdf5 true FName 16 1 ex_a 99 None [2; 0; 1] None)
     = [0; 1; 2; 3; 10; 11; 12; 13; 20; 21; 22; 23]
  /\ contents (to_hdf5_serial ex_a 99 None) = [0; 1; 2; 3; 10; 11; 12; 13; 20; 21; 22; 23]
  /\ contents (to_zarr (FZarr true) ex_a 99 (Some 7) [1; 2; 0] None)
     = [0; 1; 2; 3; 10; 11; 12; 13; 20; 21; 22; 23].
Proof.
  split; [|split; [|split]]; try reflexivity. right. split.
  - exists 0. split; [lia|reflexivity].
  - right. exists 0. cbn. repeat split; try lia.
    intros [|[|[|r]]] H; try lia; vm_compute; discriminate.
Qed.

(** C185.  Every rank reads its part of the selected array, whatever the memory
    it starts from: from HDF5 ... *)
Theorem C185_hdf5 : forall A h5mpi f tn td item (d : dset A) axis ax sel size junk,
  (0 < tn)%Z -> (0 < td)%Z -> (0 <= item)%Z ->
  f = FName \/ (exists b, f = FH5 b) ->
  MeansAxis axis (length (d_shape d)) ax -> Readable sel (d_shape d) ->
  Splittable (read_mpi h5mpi f axis) tn td (map (@length nat) (wanted_all sel (d_shape d))) ax size item ->
  ReadsPart size (fun r => from_file h5mpi HDF5 f tn td item d axis (Some sel) size r (junk r))
    (map (@length nat) (wanted_all sel (d_shape d))) ax
    (selected (wanted_all sel (d_shape d)) (d_data d)).
Proof. exact NioProofs5.read_hdf5. Qed.
Print Assumptions C185_hdf5.

(** ... and, with slices, from zarr. *)
Theorem C185_zarr : forall A f tn td item h5mpi (d : dset A) axis ax sel size junk,
  (0 < tn)%Z -> (0 < td)%Z -> (0 <= item)%Z ->
  f = FName \/ (exists b, f = FZarr b) ->
  MeansAxis axis (length (d_shape d)) ax -> Readable sel (d_shape d) ->
  Forall (fun s => exists sl, s = SelSlice sl) sel ->
  ReadsPart size (fun r => from_file h5mpi Zarr f tn td item d axis (Some sel) size r (junk r))
    (map (@length nat) (wanted_all sel (d_shape d))) ax
    (selected (wanted_all sel (d_shape d)) (d_data d)).
Proof. exact NioProofs5.read_zarr. Qed.
Print Assumptions C185_zarr.

(** No selection is the empty one. *)
Theorem C185_no_selection : forall A h5mpi fmt f tn td item (d : dset A) axis size r junk,
  from_file h5mpi fmt f tn td item d axis None size r junk
  = from_file h5mpi fmt f tn td item d axis (Some []) size r junk.
Proof. exact NioProofs5.from_file_none. Qed.
Print Assumptions C185_no_selection.

(** Axes out of range are refused. *)
Theorem C185_axis : forall A h5mpi f tn td item (d : dset A) axis sel size r junk,
  (forall ax, ~ MeansAxis axis (length (d_shape d)) ax) ->
  from_file h5mpi HDF5 f tn td item d axis sel size r junk
  = match f with FName | FH5 _ => Err AxisException | _ => Err ValueError end.
Proof.
  intros A h5mpi f tn td item d axis sel size r junk H.
  assert (C : ((axis <? - Z.of_nat (length (d_shape d))) || (Z.of_nat (length (d_shape d)) <=? axis))%Z = true).
  { apply orb_true_iff. rewrite Z.ltb_lt, Z.leb_le.
    destruct (Z.lt_ge_cases axis (- Z.of_nat (length (d_shape d)))); auto. right.
    destruct (Z.le_gt_cases (Z.of_nat (length (d_shape d))) axis); auto. exfalso.
    destruct (Z.lt_ge_cases axis 0).
    - apply (H (Z.to_nat (axis + Z.of_nat (length (d_shape d))))). split; lia.
    - apply (H (Z.to_nat axis)). split; lia. }
  unfold from_file. destruct f; cbn [from_file_open open_h5py_mpi rbind]; cbv zeta; auto; now rewrite C.
Qed.
Print Assumptions C185_axis.

(** Rows 2 and 0 and every second column from 1, over the columns, on 2
    ranks. *)
Definition ex_d : dset nat := mkdset [3; 4] 0 ex_g None.
Definition ex_sel : list asel := [SelList [2; 0]; SelSlice (mkslice (Some 1%Z) None (Some 2%Z))].
Definition got {A} (x : res (list nat * nat * nat * list nat * nd A)) (ks : list (list nat)) :=
  match x with Ok (g, ax, st, l, data) => Ok (g, ax, st, l, map data ks) | Err e => Err e end.

Example C185_example :
  Readable ex_sel [3; 4] /\ MeansAxis (-1) 2 1
  /\ map (fun r => got (from_file true HDF5 FName 16 1 8 ex_d (-1) (Some ex_sel) 2 r (fun _ => 77))
                       [[0; 0]; [1; 0]]) [0; 1]
     = [Ok ([2; 2], 1, 0, [2; 1], [21; 1]); Ok ([2; 2], 1, 1, [2; 1], [23; 3])].
Proof.
  split; [|split; [|reflexivity]].
  - split; [cbn; lia|]. intros [|[|j]] s E; cbn in E; try (destruct j; discriminate); injection E as <-.
    + repeat constructor.
    + split; vm_compute; reflexivity.
  - split; [lia|]. right. reflexivity.
Qed.

(** C186.  An array written by some number of ranks over some axis can be read
    by any other number of ranks over any other axis: HDF5 with MPI ... *)
Theorem C186_hdf5 : forall A f f' h5mpi tn td (a : dist A) ax g zero comp order old axis' ax' sel size' junk,
  (0 < tn)%Z -> (0 < td)%Z -> (0 <= a_item a)%Z ->
  1 <= a_size a -> 1 <= size' -> a_axis a = Z.of_nat ax -> ax < length (a_gshape a) ->
  f = FName \/ (exists b, f = FH5 b) -> f' = FName \/ (exists b, f' = FH5 b) ->
  Distributes (a_gshape a) ax (a_size a) (a_locs a) g ->
  Compatible old (a_gshape a) (a_type a) ->
  Splittable (mpi_file true f) tn td (a_gshape a) ax (a_size a) (a_item a) ->
  comp = None \/ (mpi_file true f = true /\ a_size a <= nth ax (a_gshape a) 0) ->
  Permutation order (seq 0 (a_size a)) ->
  MeansAxis axis' (length (a_gshape a)) ax' -> Readable sel (a_gshape a) ->
  Splittable (read_mpi h5mpi f' axis') tn td (map (@length nat) (wanted_all sel (a_gshape a))) ax' size' (a_item a) ->
  exists d, to_hdf5 true f tn td a zero comp order old = Ok d
    /\ ReadsPart size' (fun r => from_file h5mpi HDF5 f' tn td (a_item a) d axis' (Some sel) size' r (junk r))
         (map (@length nat) (wanted_all sel (a_gshape a))) ax' (selected (wanted_all sel (a_gshape a)) g).
Proof.
  intros A f f' h5mpi tn td a ax g zero comp order old axis' ax' sel size' junk
    H1 H2 H3 H4 H4' H5 H6 H7 H8 H9 H10 H11 H12 H13 H14 H15 H16.
  destruct (NioProofs4.to_hdf5_holds A f tn td a ax g zero comp order old) as (d & E & Hd & _); auto.
  exists d. split; auto. destruct Hd as (D1 & D2 & D3).
  eapply NioProofs5.reads_holds with (d := d) (ty := a_type a); auto.
  - apply H14.
  - split; auto.
  - rewrite <- D1 in *. apply NioProofs5.read_hdf5; auto.
Qed.
Print Assumptions C186_hdf5.

(** ... or without ... *)
Theorem C186_serial : forall A tn td (a : dist A) ax g zero old axis' ax' sel size' junk,
  (0 < tn)%Z -> (0 < td)%Z -> (0 <= a_item a)%Z ->
  1 <= a_size a -> 1 <= size' -> a_axis a = Z.of_nat ax -> ax < length (a_gshape a) ->
  Distributes (a_gshape a) ax (a_size a) (a_locs a) g ->
  Compatible old (a_gshape a) (a_type a) ->
  MeansAxis axis' (length (a_gshape a)) ax' -> Readable sel (a_gshape a) ->
  exists d, to_hdf5_serial a zero old = Ok d
    /\ ReadsPart size' (fun r => from_file false HDF5 FName tn td (a_item a) d axis' (Some sel) size' r (junk r))
         (map (@length nat) (wanted_all sel (a_gshape a))) ax' (selected (wanted_all sel (a_gshape a)) g).
Proof.
  intros A tn td a ax g zero old axis' ax' sel size' junk H1 H2 H3 H4 H4' H5 H6 H7 H8 H9 H10.
  destruct (NioProofs4.serial_holds A a ax g zero old) as (d & E & Hd); auto.
  exists d. split; auto. destruct Hd as (D1 & D2 & D3).
  eapply NioProofs5.reads_holds with (d := d) (ty := a_type a); auto.
  - apply H9.
  - split; auto.
  - rewrite <- D1 in *. apply NioProofs5.read_hdf5; auto. left. reflexivity.
Qed.
Print Assumptions C186_serial.

(** ... and zarr. *)
Theorem C186_zarr : forall A f f' h5mpi tn td (a : dist A) ax g zero comp order old axis' ax' sel size' junk,
  (0 < tn)%Z -> (0 < td)%Z -> (0 <= a_item a)%Z ->
  1 <= a_size a -> 1 <= size' -> a_axis a = Z.of_nat ax -> ax < length (a_gshape a) ->
  f = FName \/ f = FZarr true -> f' = FName \/ (exists b, f' = FZarr b) ->
  Distributes (a_gshape a) ax (a_size a) (a_locs a) g ->
  Compatible old (a_gshape a) (a_type a) ->
  Permutation order (seq 0 (a_size a)) ->
  MeansAxis axis' (length (a_gshape a)) ax' -> Readable sel (a_gshape a) ->
  Forall (fun s => exists sl, s = SelSlice sl) sel ->
  exists d, to_zarr f a zero comp order old = Ok d
    /\ ReadsPart size' (fun r => from_file h5mpi Zarr f' tn td (a_item a) d axis' (Some sel) size' r (junk r))
         (map (@length nat) (wanted_all sel (a_gshape a))) ax' (selected (wanted_all sel (a_gshape a)) g).
Proof.
  intros A f f' h5mpi tn td a ax g zero comp order old axis' ax' sel size' junk
    H1 H2 H3 H4 H4' H5 H6 H7 H8 H9 H10 H11 H12 H13 H14.
  destruct (NioProofs4.to_zarr_holds A f a ax g zero comp order old) as (d & E & Hd & _); auto.
  exists d. split; auto. destruct Hd as (D1 & D2 & D3).
  eapply NioProofs5.reads_holds with (d := d) (ty := a_type a); auto.
  - apply H12.
  - split; auto.
  - rewrite <- D1 in *. apply NioProofs5.read_zarr; auto.
Qed.
Print Assumptions C186_zarr.

(** Written over the columns by 3 ranks, read over the rows by 2. *)
Example C186_example :
  match to_hdf5 true FName 16 1 ex_a 99 None [2; 0; 1] None with
  | Ok d => map (fun r => got (from_file false HDF5 FName 16 1 8 d 0 None 2 r (fun _ => 77))
                             [[0; 0]; [0; 1]; [0; 2]; [0; 3]]) [0; 1]
  | Err _ => [] end
  = [Ok ([3; 4], 0, 0, [2; 4], [0; 1; 2; 3]); Ok ([3; 4], 0, 2, [1; 4], [20; 21; 22; 23])].
Proof. reflexivity. Qed.

(** C187.  A dataset of another shape or type is not overwritten ... *)
Theorem C187_refused : forall A h5mpi fmt f tn td (a : dist A) zero comp order old,
  ~ Compatible old (a_gshape a) (a_type a) ->
  exists e, to_file h5mpi fmt f tn td a zero comp order old = Err e.
Proof. exact NioProofs5.to_file_incompatible. Qed.
Print Assumptions C187_refused.

Theorem C187_error : forall A (old : option (dset A)) shape ty comp zero, ~ Compatible old shape ty ->
  create_or_get old shape ty comp zero = Err RuntimeError.
Proof. exact NioProofs5.incompatible. Qed.
Print Assumptions C187_error.

(** ... and one of the same shape and type keeps the way it is stored. *)
Theorem C187_stored : forall A h5mpi fmt f tn td (a : dist A) zero comp order d d',
  to_file h5mpi fmt f tn td a zero comp order (Some d) = Ok d' ->
  d_shape d' = d_shape d /\ d_type d' = d_type d /\ d_comp d' = d_comp d.
Proof. exact NioProofs5.to_file_stored. Qed.
Print Assumptions C187_stored.

Example C187_example :
  match to_file true HDF5 FName 100 1 ex_a 99 (Some 4) [0; 1; 2] (Some (mkdset [3; 4] 0 (fun _ => 5) (Some 2))) with
  | Ok d => (map (d_data d) ex_all, d_comp d) | Err _ => ([], None) end
  = ([0; 1; 2; 3; 10; 11; 12; 13; 20; 21; 22; 23], Some 2)
  /\ match to_file true HDF5 FName 100 1 ex_a 99 None [0; 1; 2] (Some (mkdset [4; 3] 0 (fun _ => 5) None)) with
     | Ok _ => false | Err e => match e with RuntimeError => true | _ => false end end = true.
Proof. split; reflexivity. Qed.

(** C188.  Compression is refused if a rank has nothing to write, or without
    MPI-IO. *)
Theorem C188_refused : forall A f tn td (a : dist A) ax zero c order old,
  (0 < tn)%Z -> (0 < td)%Z -> 1 <= a_size a -> a_axis a = Z.of_nat ax -> ax < length (a_gshape a) ->
  f = FName \/ (exists b, f = FH5 b) ->
  Compatible old (a_gshape a) (a_type a) ->
  Splittable (mpi_file true f) tn td (a_gshape a) ax (a_size a) (a_item a) ->
  mpi_file true f = false \/ (exists r, r < a_size a /\ part_of (nth ax (a_gshape a) 0) (a_size a) r = 0) ->
  to_hdf5 true f tn td a zero (Some c) order old = Err RuntimeError.
Proof. exact NioProofs5.compression_refused. Qed.
Print Assumptions C188_refused.

(** The array's own compression is used if none is asked for. *)
Theorem C188_own : forall A h5mpi fmt f tn td (a : dist A) zero c order old,
  a_comp a = Some c ->
  to_file h5mpi fmt f tn td a zero None order old = to_file h5mpi fmt f tn td a zero (Some c) order old.
Proof. intros A h5mpi fmt f tn td a zero c order old E. unfold to_file. cbv zeta. now rewrite E. Qed.
Print Assumptions C188_own.

Example C188_example :
  part_of 4 5 4 = 0
  /\ match to_file true HDF5 FName 100 1 (mkdist [3; 4] 1 5 0 8 (fun r k => nth r [0; 1; 2; 3; 0] 0) (Some 6))
            99 None [0; 1; 2; 3; 4] None with Err RuntimeError => true | _ => false end = true
  /\ match to_file true HDF5 FName 100 1 (mkdist [3; 4] 1 3 0 8 ex_locs (Some 6)) 99 None [0; 1; 2] None with
     | Ok d => d_comp d | Err _ => None end = Some 6.
Proof. repeat split. Qed.

(** C189.  False: without MPI in h5py the compression asked for is dropped. *)
Theorem C189_refuted : exists (a : dist nat) comp d,
  Distributes (a_gshape a) 1 (a_size a) (a_locs a) ex_g
  /\ to_file false HDF5 FName 100 1 a 0 (Some comp) (seq 0 (a_size a)) None = Ok d
  /\ d_comp d <> Some comp.
Proof.
  exists ex_a, 4. eexists. split; [|split; [reflexivity|discriminate]].
  intros r k Hr Hk. cbn in Hr.
  destruct k as [|x [|y [|z k]]]; try (apply NioProofs2.inside_length in Hk; destruct r as [|[|[|r]]]; cbn in Hk; try lia; discriminate).
  destruct r as [|[|[|r]]]; try lia; reflexivity.
Qed.
Print Assumptions C189_refuted.

(** It is dropped for every array. *)
Theorem C189_serial : forall A f tn td (a : dist A) zero comp order d,
  to_file false HDF5 f tn td a zero comp order None = Ok d -> d_comp d = None.
Proof.
  intros A f tn td a zero comp order d H. unfold to_file, to_hdf5 in H. cbn [negb] in H. cbv zeta in H.
  destruct f; try discriminate. unfold to_hdf5_serial in H. cbn [create_or_get rbind] in H.
  destruct (serial_ranks _ _ _ _ _); [|discriminate]. now injection H as <-.
Qed.
Print Assumptions C189_serial.

(** C190.  False: the file is not opened over the communicator of the array,
    which is passed as [use_mpi], but over COMM_WORLD. *)
Theorem C190_refuted : exists c, to_hdf5_open true FName c <> Ok (OpenedMpi (Some c)).
Proof. exists 3. discriminate. Qed.
Print Assumptions C190_refuted.

Theorem C190_world : forall c, to_hdf5_open true FName c = Ok (OpenedMpi None).
Proof. reflexivity. Qed.
Print Assumptions C190_world.

(** Reading does use the communicator given. *)
Theorem C190_read : forall axis comm, (0 < axis)%Z ->
  from_file_open true FName axis comm = Ok (OpenedMpi comm).
Proof.
  intros axis comm H. apply Z.ltb_lt in H. unfold from_file_open, open_h5py_mpi. cbn [truthy].
  rewrite H. reflexivity.
Qed.
Print Assumptions C190_read.

Example C190_example :
  open_h5py_mpi true FName (PyBool true) (Some 3) = Ok (OpenedMpi (Some 3))
  /\ to_hdf5_open true FName 3 = Ok (OpenedMpi None).
Proof. split; reflexivity. Qed.

(** C191.  False: an array distributed over an axis counted from the end is not
    written. *)
Theorem C191_refuted : exists (a : dist nat),
  MeansAxis (a_axis a) (length (a_gshape a)) 1 /\ (0 < a_item a)%Z
  /\ Distributes (a_gshape a) 1 (a_size a) (a_locs a) (fun i => nth 0 i 0)
  /\ Splittable true 1000 1 (a_gshape a) 1 (a_size a) (a_item a)
  /\ forall d, to_hdf5 true FName 1000 1 a 0 None (seq 0 (a_size a)) None <> Ok d.
Proof.
  exists (mkdist [3; 2] (-1) 1 0 8 (fun _ k => nth 0 k 0) None). cbn [a_axis a_gshape a_item a_size a_locs].
  split; [split; cbn; lia|]. split; [reflexivity|]. split; [|split].
  - intros r k Hr Hk. replace r with 0 by lia.
    destruct k as [|x [|y [|z k]]]; try (apply NioProofs2.inside_length in Hk; cbn in Hk; discriminate). reflexivity.
  - right. split; [exists 0; split; [lia|reflexivity]|]. left. intros [|r] H; [vm_compute; discriminate|lia].
  - intros d. vm_compute. discriminate.
Qed.
Print Assumptions C191_refuted.

(** The selection is put on the first axis for every negative number. *)
Theorem C191_selection : forall axis b n, (axis < 0)%Z -> 1 <= n ->
  make_selections axis b n = SelSlice b :: repeat (SelSlice full_slice) (n - 1).
Proof.
  intros axis b n H Hn. unfold make_selections, expand_sel.
  replace (Z.to_nat axis) with 0 by lia. cbn [repeat app length].
  destruct (Nat.ltb_spec 1 n); [reflexivity|]. replace n with 1 by lia. reflexivity.
Qed.
Print Assumptions C191_selection.

Example C191_example :
  make_selections (-1) (mkslice (Some 2%Z) (Some 3%Z) None) 2
  = [SelSlice (mkslice (Some 2%Z) (Some 3%Z) None); SelSlice full_slice]
  /\ make_selections 1 (mkslice (Some 2%Z) (Some 3%Z) None) 2
  = [SelSlice full_slice; SelSlice (mkslice (Some 2%Z) (Some 3%Z) None)].
Proof. split; reflexivity. Qed.

(** C192.  False: MPI-IO is used where the axis is not zero, not where it is. *)
Theorem C192_refuted : exists axis,
  axis <> 0%Z /\ from_file_open true FName axis None <> Ok OpenedSerial.
Proof. exists 1%Z. split; discriminate. Qed.
Print Assumptions C192_refuted.

Theorem C192_used : forall axis,
  from_file_open true FName axis None = Ok (OpenedMpi None) <-> (0 < axis)%Z.
Proof.
  intros axis. unfold from_file_open, open_h5py_mpi. cbn [truthy].
  destruct (Z.ltb_spec 0 axis); cbn; split; intros X; try lia; auto; try discriminate.
Qed.
Print Assumptions C192_used.

Example C192_example :
  from_file_open true FName 0 None = Ok OpenedSerial /\ from_file_open true FName (-1) None = Ok OpenedSerial
  /\ from_file_open true FName 2 None = Ok (OpenedMpi None).
Proof. repeat split. Qed.

(** C193.  Lock files of different stores are different ... *)
Theorem C193_distinct : forall f g, zarr_lockfile f = zarr_lockfile g -> f = g.
Proof.
  intros f g H. unfold zarr_lockfile in H. apply app_inv_head in H. now apply app_inv_tail in H.
Qed.
Print Assumptions C193_distinct.

(** ... and lie beside the store if its name has no directory ... *)
Theorem C193_plain : forall f, ~ In slash f -> ~ In slash (zarr_lockfile f).
Proof.
  intros f H C. unfold zarr_lockfile in C. cbn [s_ list_ascii_of_string app] in C.
  destruct C as [C|C]; [discriminate|]. apply in_app_or in C as [C|C]; auto.
  repeat destruct C as [C|C]; try discriminate. destruct C.
Qed.
Print Assumptions C193_plain.

(** ... but not otherwise: the lock file of "d/x" is in ".d". *)
Theorem C193_refuted : exists dir f, in_directory dir f /\ ~ in_directory dir (zarr_lockfile f).
Proof.
  exists (s_ "d"), (s_ "d/x"). split.
  - exists (s_ "x"). split; [reflexivity|]. cbn. intros [C|[]]. discriminate.
  - intros (base & E & _). discriminate.
Qed.
Print Assumptions C193_refuted.

Example C193_example :
  zarr_lockfile (s_ "map.zarr") = s_ ".map.zarr.sync" /\ zarr_lockfile (s_ "out/map.zarr") = s_ ".out/map.zarr.sync".
Proof. split; reflexivity. Qed.
