(** Model of reading and writing arrays with several axes from and to files by
    all ranks together: [MPIArray.from_file], [to_hdf5], [to_zarr], [to_file]
    and [_to_hdf5_serial] of /repo/caput/mpiarray.py.  (SliceModel has the same
    functions on the distributed axis only.)

    The contents of an array are a function of the index; h5py and zarr are the
    assignment of a selection to a selection.  Not modelled: byte orders and
    memory layouts (two ways of copying the same elements), broadcasting of
    selections of different shapes (an error here), h5py's own restrictions on
    lists of indices, time. *)
From Coq Require Import String.
From Coq Require Import List ZArith Bool Arith.
From Verif Require Import PyBase PyStr PartModel SliceModel.
Import ListNotations.
Open Scope list_scope.
Open Scope nat_scope.

Definition nd (A : Type) := list nat -> A.

(** Numpy, h5py and zarr (not caput): positions selected on an axis. *)
Definition sel_positions (s : asel) (n : nat) : res (list nat) :=
  match s with
  | SelSlice s => rbind (slice_positions s (Z.of_nat n)) (fun ps => Ok (map Z.to_nat ps))
  | SelList idx => if forallb (fun i => i <? n) idx then Ok idx else Err IndexError
  end.
Fixpoint sels_positions (sel : list asel) (shape : list nat) : res (list (list nat)) :=
  match sel, shape with
  | [], [] => Ok []
  | s :: sel, n :: shape =>
      rbind (sel_positions s n) (fun p =>
      rbind (sels_positions sel shape) (fun ps => Ok (p :: ps)))
  | [], n :: shape =>
      rbind (sels_positions [] shape) (fun ps => Ok (seq 0 n :: ps))
  | _, [] => Err TypeError
  end.

Fixpoint index_of (x : nat) (l : list nat) : option nat :=
  match l with
  | [] => None
  | y :: t => if x =? y then Some 0 else option_map S (index_of x t)
  end.
Fixpoint locate (ps : list (list nat)) (i : list nat) : option (list nat) :=
  match ps, i with
  | [], [] => Some []
  | p :: ps, x :: i =>
      match index_of x p, locate ps i with
      | Some k, Some ks => Some (k :: ks)
      | _, _ => None
      end
  | _, _ => None
  end.
Fixpoint index_at (ps : list (list nat)) (k : list nat) : list nat :=
  match ps, k with
  | p :: ps, x :: k => nth x p 0 :: index_at ps k
  | _, _ => []
  end.
Fixpoint same_shape (a b : list nat) : bool :=
  match a, b with
  | [], [] => true
  | x :: a, y :: b => (x =? y) && same_shape a b
  | _, _ => false
  end.

(** [dst[dsel] = src[ssel]], [read_direct], [write_direct]. *)
Definition assign {A} (dshape : list nat) (dst : nd A) (dsel : list asel)
    (sshape : list nat) (src : nd A) (ssel : list asel) : res (nd A) :=
  rbind (sels_positions dsel dshape) (fun dp =>
  rbind (sels_positions ssel sshape) (fun sp =>
  if same_shape (map (@length nat) dp) (map (@length nat) sp)
  then Ok (fun i => match locate dp i with Some k => src (index_at sp k) | None => dst i end)
  else Err TypeError)).

(** caput/mpiarray.py lines 563-574, [local_bounds]. *)
Definition local_bounds (off num : nat) : pslice :=
  mkslice (Some (Z.of_nat off)) (Some (Z.of_nat (off + num))) None.

(** caput/mpiarray.py lines 1355-1360, [_make_selections] ([[x] * axis] is
    empty for a negative axis). *)
Definition make_selections (axis : Z) (bounds : pslice) (ndim : nat) : list asel :=
  expand_sel (Some (repeat (SelSlice full_slice) (Z.to_nat axis) ++ [SelSlice bounds])) ndim.

(** Indexing a list with a possibly negative number. *)
Definition wrap_axis (axis : Z) (ndim : nat) : nat :=
  Z.to_nat (if (axis <? 0)%Z then axis + Z.of_nat ndim else axis)%Z.

(** The local shape of a rank holding [num] items, lines 609-617. *)
Definition local_shape (gshape : list nat) (ax num : nat) : list nat := set_nth ax num gshape.

Fixpoint zprod (l : list nat) : Z :=
  match l with [] => 1%Z | x :: t => (Z.of_nat x * zprod t)%Z end.

(** Line 1724: the largest number of bytes held by a rank. *)
Definition largest_bytes (gshape : list nat) (ax size : nat) (item : Z) : Z :=
  fold_right Z.max 0%Z
    (map (fun r => match split_local (nth ax gshape 0) r size with
                   | Ok (num, _, _) => (item * zprod (local_shape gshape ax num))%Z
                   | Err _ => 0%Z end) (seq 0 size)).

Definition part_slice (p : nat * nat) : pslice :=
  mkslice (Some (Z.of_nat (fst p))) (Some (Z.of_nat (snd p))) None.

(** The loops over the partitions, lines 1065-1079, 1180-1194, 1294-1298:
    [f dst islice fslice] copies one of them. *)
Fixpoint over_parts {A} (f : nd A -> list asel -> list asel -> res (nd A)) (sel : list asel)
    (ax : nat) (n : Z) (parts : list (nat * nat)) (dst : nd A) : res (nd A) :=
  match parts with
  | [] => Ok dst
  | p :: parts =>
      rbind (partition_sel sel ax n (part_slice p)) (fun '(islice, fslice) =>
      rbind (f dst islice fslice) (fun dst => over_parts f sel ax n parts dst))
  end.

(** How the array is cut for transfers: [skip], the threshold [tn / td] in
    bytes and the size of an item. *)
Record io_conf := { io_skip : bool; io_tn : Z; io_td : Z; io_item : Z }.

(** caput/mpiarray.py lines 1137-1140 and 1177-1194 of [to_hdf5] (and the same
    in [to_zarr], lines 1278-1281 and 1294-1298) on one rank: [loc] is the
    local array, [f] the contents of the dataset. *)
Definition write_rank {A} (c : io_conf) (gshape : list nat) (axis : Z) (size rank : nat)
    (loc : nd A) (f : nd A) : res (nd A) :=
  let ax := wrap_axis axis (length gshape) in
  rbind (split_local (nth ax gshape 0) rank size) (fun '(num, off, _) =>
  let lshape := local_shape gshape ax num in
  let sel := make_selections axis (local_bounds off num) (length gshape) in
  rbind (partition_io (io_skip c) (io_tn c) (io_td c)
           (largest_bytes gshape ax size (io_item c)) gshape ax (nth 0 lshape 0))
    (fun '(split_axis, parts) =>
     over_parts (fun dst islice fslice => assign gshape dst islice lshape loc fslice)
       sel split_axis (Z.of_nat (nth split_axis gshape 0)) parts f)).

(** The ranks writing in some order. *)
Fixpoint write_ranks {A} (c : io_conf) (gshape : list nat) (axis : Z) (size : nat)
    (order : list nat) (locs : nat -> nd A) (f : nd A) : res (nd A) :=
  match order with
  | [] => Ok f
  | r :: order =>
      rbind (write_rank c gshape axis size r (locs r) f) (fun f =>
      write_ranks c gshape axis size order locs f)
  end.

(** A dataset in a file: shape, type, contents, and how it is stored. *)
Record dset (A : Type) := mkdset {
  d_shape : list nat; d_type : nat; d_data : nd A; d_comp : option nat }.
Arguments mkdset {A}. Arguments d_shape {A}. Arguments d_type {A}.
Arguments d_data {A}. Arguments d_comp {A}.

(** caput/mpiarray.py lines 2364-2391, [_create_or_get_dset]: the dataset of
    that name, or a new one (with contents [fill]). *)
Definition create_or_get {A} (old : option (dset A)) (shape : list nat) (ty : nat)
    (comp : option nat) (fill : A) : res (dset A) :=
  match old with
  | Some d => if negb (same_shape (d_shape d) shape) then Err RuntimeError
              else if negb (d_type d =? ty) then Err RuntimeError
              else Ok d
  | None => Ok (mkdset shape ty (fun _ => fill) comp)
  end.

(** An array distributed over [size] ranks. *)
Record dist (A : Type) := mkdist {
  a_gshape : list nat; a_axis : Z; a_size : nat; a_type : nat; a_item : Z;
  a_locs : nat -> nd A; a_comp : option nat }.
Arguments mkdist {A}. Arguments a_gshape {A}. Arguments a_axis {A}. Arguments a_size {A}.
Arguments a_type {A}. Arguments a_item {A}. Arguments a_locs {A}. Arguments a_comp {A}.

(** Moving the distributed axis ([redistribute], lines 749-840, whose messages
    are in RedistModel): each element is fetched from the rank that has it. *)
Fixpoint find_owner (n size x : nat) (ranks : list nat) : nat :=
  match ranks with
  | [] => 0
  | r :: t => match split_local n r size with
              | Ok (_, a, b) => if (a <=? x) && (x <? b) then r else find_owner n size x t
              | Err _ => 0 end
  end.
Definition offset_of (n r size : nat) : nat :=
  match split_local n r size with Ok (_, a, _) => a | Err _ => 0 end.
Definition redist_nd {A} (gshape : list nat) (ax ax' size : nat) (locs : nat -> nd A)
  : nat -> nd A :=
  fun r k =>
    let i := set_nth ax' (nth ax' k 0 + offset_of (nth ax' gshape 0) r size) k in
    let o := find_owner (nth ax gshape 0) size (nth ax i 0) (seq 0 size) in
    locs o (set_nth ax (nth ax i 0 - offset_of (nth ax gshape 0) o size) i).

(** caput/mpiarray.py lines 1643-1701, [_to_hdf5_serial]: rank 0 creates the
    dataset and fills it with zeros, then the ranks write one after the
    other. *)
Fixpoint serial_ranks {A} (gshape : list nat) (size : nat) (order : list nat)
    (locs : nat -> nd A) (f : nd A) : res (nd A) :=
  match order with
  | [] => Ok f
  | r :: order =>
      rbind (split_local (nth 0 gshape 0) r size) (fun '(num, off, _) =>
      rbind (assign gshape f [SelSlice (local_bounds off num)]
               (local_shape gshape 0 num) (locs r) []) (fun f =>
      serial_ranks gshape size order locs f))
  end.
Definition to_hdf5_serial {A} (a : dist A) (zero : A) (old : option (dset A)) : res (dset A) :=
  let gshape := a_gshape a in
  rbind (create_or_get old gshape (a_type a) None zero) (fun d =>
  let locs := if (a_axis a =? 0)%Z then a_locs a
              else redist_nd gshape (wrap_axis (a_axis a) (length gshape)) 0 (a_size a) (a_locs a) in
  rbind (serial_ranks gshape (a_size a) (seq 0 (a_size a)) locs (fun _ => zero)) (fun data =>
  Ok (mkdset (d_shape d) (d_type d) data (d_comp d)))).

(** The file argument: a name, an open h5py file or group (with the MPI driver
    or not), a zarr group (with a synchronizer or not), or something else. *)
Inductive farg := FName | FH5 (mpio : bool) | FZarr (sync : bool) | FOther.

(** caput/memdata/_io.py lines 12-68, [open_h5py_mpi]: the communicator over
    which the file is opened ([Some None]: COMM_WORLD by default; [None]: no
    MPI).  Communicators are numbers; [use_mpi] is any object and its truth
    value counts. *)
Inductive pyarg := PyBool (b : bool) | PyComm (c : nat) | PyNone.
Definition truthy (x : pyarg) : bool :=
  match x with PyBool b => b | PyComm _ => true | PyNone => false end.
Inductive opened := OpenedMpi (comm : option nat) | OpenedSerial | Given (mpio : bool).
Definition open_h5py_mpi (h5mpi : bool) (f : farg) (use_mpi : pyarg) (comm : option nat)
  : res opened :=
  match f with
  | FName => Ok (if h5mpi && truthy use_mpi then OpenedMpi comm else OpenedSerial)
  | FH5 mpio => Ok (Given mpio)
  | _ => Err ValueError
  end.
Definition is_mpi (o : opened) : bool :=
  match o with OpenedMpi _ => true | OpenedSerial => false | Given b => b end.

(** caput/mpiarray.py line 1135: [open_h5py_mpi(f, mode, self.comm)] (the
    communicator is the third positional argument, which is [use_mpi]). *)
Definition to_hdf5_open (h5mpi : bool) (f : farg) (comm : nat) : res opened :=
  open_h5py_mpi h5mpi f (PyComm comm) None.
(** Line 994, in [from_file]. *)
Definition from_file_open (h5mpi : bool) (f : farg) (axis : Z) (comm : option nat) : res opened :=
  open_h5py_mpi h5mpi f (PyBool (0 <? axis)%Z) comm.

Definition with_data {A} (d : dset A) (data : nd A) : dset A :=
  mkdset (d_shape d) (d_type d) data (d_comp d).

(** caput/mpiarray.py lines 1089-1197, [to_hdf5], on all ranks, which write in
    the order given.  [zero] is what new datasets and [_to_hdf5_serial] are
    filled with. *)
Definition to_hdf5 {A} (h5mpi : bool) (f : farg) (tn td : Z) (a : dist A) (zero : A)
    (comp : option nat) (order : list nat) (old : option (dset A)) : res (dset A) :=
  if negb h5mpi then
    match f with
    | FName => to_hdf5_serial a zero old
    | _ => Err ValueError
    end
  else
  rbind (to_hdf5_open h5mpi f 0) (fun fh =>
  let c := {| io_skip := negb (is_mpi fh); io_tn := tn; io_td := td; io_item := a_item a |} in
  rbind (partition_io (io_skip c) tn td
           (largest_bytes (a_gshape a) (wrap_axis (a_axis a) (length (a_gshape a))) (a_size a) (a_item a))
           (a_gshape a) (wrap_axis (a_axis a) (length (a_gshape a))) 0) (fun _ =>
  rbind (create_or_get old (a_gshape a) (a_type a) comp zero) (fun d =>
  let no_null_slices :=
    a_size a <=? nth (wrap_axis (a_axis a) (length (a_gshape a))) (a_gshape a) 0 in
  if negb (is_mpi fh && no_null_slices)
     && match comp with Some _ => true | None => false end
  then Err RuntimeError
  else rbind (write_ranks c (a_gshape a) (a_axis a) (a_size a) order (a_locs a) (d_data d))
         (fun data => Ok (with_data d data))))).

(** caput/mpiarray.py lines 1199-1301, [to_zarr] (with zarr installed). *)
Definition to_zarr {A} (f : farg) (a : dist A) (zero : A)
    (comp : option nat) (order : list nat) (old : option (dset A)) : res (dset A) :=
  let write :=
    rbind (create_or_get old (a_gshape a) (a_type a) comp zero) (fun d =>
    rbind (write_ranks {| io_skip := true; io_tn := 1; io_td := 1; io_item := a_item a |}
             (a_gshape a) (a_axis a) (a_size a) order (a_locs a) (d_data d))
      (fun data => Ok (with_data d data))) in
  match f with
  | FName => write
  | FZarr sync => if sync then write else Err ValueError
  | _ => Err ValueError
  end.
(** Line 1260, the name of the lock file. *)
Definition zarr_lockfile (f : str) : str := s_ "." ++ f ++ s_ ".sync".

Inductive fformat := HDF5 | Zarr | OtherFormat.

(** caput/mpiarray.py lines 1303-1353, [to_file] (the compression of the array
    is used if none is given). *)
Definition to_file {A} (h5mpi : bool) (fmt : fformat) (f : farg) (tn td : Z) (a : dist A) (zero : A)
    (comp : option nat) (order : list nat) (old : option (dset A)) : res (dset A) :=
  let comp := match comp with Some c => Some c | None => a_comp a end in
  match fmt with
  | HDF5 => to_hdf5 h5mpi f tn td a zero comp order old
  | Zarr => to_zarr f a zero comp order old
  | OtherFormat => Err ValueError
  end.

(** Lines 1032-1036: the global shape ([zip]); a negative length raises when
    the array is made. *)
Fixpoint sel_shape (dshape : list nat) (sel : list asel) : res (list nat) :=
  match dshape, sel with
  | n :: dshape, s :: sel =>
      rbind (len_slice s (Z.of_nat n)) (fun l =>
      rbind (sel_shape dshape sel) (fun t =>
      if (l <? 0)%Z then Err ValueError else Ok (Z.to_nat l :: t)))
  | _, _ => Ok []
  end.

Definition is_slice (s : asel) : bool := match s with SelSlice _ => true | SelList _ => false end.

(** caput/mpiarray.py lines 941-1087, [from_file], on one rank: the global
    shape, the distributed axis, the local offset and shape, and the contents,
    which start as [junk] (the memory of a new array). *)
Definition from_file {A} (h5mpi : bool) (fmt : fformat) (f : farg) (tn td item : Z) (d : dset A)
    (axis : Z) (sel : option (list asel)) (size rank : nat) (junk : nd A)
  : res (list nat * nat * nat * list nat * nd A) :=
  rbind (match fmt with
         | HDF5 => from_file_open h5mpi f axis None
         | Zarr => match f with
                   | FName | FZarr _ => Ok (Given false)
                   | _ => Err ValueError end
         | OtherFormat => Err UnboundLocalError
         end) (fun fh =>
  let dshape := d_shape d in
  let naxis := length dshape in
  if (axis <? - Z.of_nat naxis)%Z || (Z.of_nat naxis <=? axis)%Z then Err AxisException else
  let ax := Z.to_nat (if (axis <? 0)%Z then Z.of_nat naxis + axis else axis)%Z in
  let sel := expand_sel sel naxis in
  rbind (sel_shape dshape sel) (fun gshape =>
  rbind (split_local (nth ax gshape 0) rank size) (fun '(num, lstart, _) =>
  let lshape := local_shape gshape ax num in
  match nth_error sel ax with
  | None => Err IndexError
  | Some s =>
    rbind (reslice s (Z.of_nat (nth ax dshape 0))
             (mkslice (Some (Z.of_nat lstart)) (Some (Z.of_nat (lstart + num))) None)) (fun s' =>
    let sel := set_nth ax s' sel in
    rbind (match fmt with
           | HDF5 =>
             rbind (partition_io (negb (is_mpi fh)) tn td (largest_bytes gshape ax size item)
                      gshape ax (nth 0 lshape 0)) (fun '(split_axis, parts) =>
             over_parts (fun dst islice fslice => assign lshape dst fslice dshape (d_data d) islice)
               sel split_axis (Z.of_nat (nth split_axis dshape 0)) parts junk)
           | _ =>
             if forallb is_slice sel then assign lshape junk [] dshape (d_data d) sel
             else Err IndexError
           end) (fun data => Ok (gshape, ax, lstart, lshape, data)))
  end))).
