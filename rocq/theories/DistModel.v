(** Model of the conversions between common and distributed datasets,
    /repo/caput/memdata/_memh5.py lines 910-1010, and of [gather_local],
    /repo/caput/util/mpitools.py lines 585-649.  Arrays are those of
    [RedModel].  Not modelled: attributes and storage options, a dataset that
    already is of the kind asked for, and the copy made by [create_dataset]
    (lines 851-903), which takes over the local array as it is. *)
From Coq Require Import List Arith ZArith Bool.
From Verif Require Import PyBase PartModel SliceModel RedModel.
Import ListNotations.
Open Scope nat_scope.

(** [dst[:] = src] for arrays with the same number of axes: numpy repeats the
    axes of [src] that have length one. *)
Fixpoint fits (src dst : list nat) : bool :=
  match src, dst with
  | [], [] => true
  | s :: src, d :: dst => ((s =? d) || (s =? 1)) && fits src dst
  | _, _ => false
  end.
Definition spread (src idx : list nat) : list nat :=
  map (fun '(s, x) => if s =? 1 then 0 else x) (combine src idx).
Definition assign_all {A} (dst src : nd A) : res (nd A) :=
  if fits (shp src) (shp dst)
  then Ok (mknd (shp dst) (fun idx => elt src (spread (shp src) idx)))
  else Err ValueError.

(** Lines 910-962, [MemGroup.dataset_common_to_distributed]: the local array of
    rank [rank].  [G] is the common dataset. *)
Definition common_to_distributed {A} (gshape : list nat) (distributed_axis : Z) (G : list nat -> A)
    (rank size : nat) : res (nd (option A)) :=
  rbind (pyaxis (length gshape) distributed_axis) (fun k =>
  rbind (split_local (nth k gshape 0) rank size) (fun '(n, sd, ed) =>
  let md := nd_empty (set_nth k n gshape) in
  let dset := mknd gshape (fun idx => Some (G idx)) in
  assign_all md (view dset (upd full_box 0 (sd, ed))))).

(** mpitools.py lines 585-649, [gather_local]: the global array of the root
    afterwards.  In a world of one rank the array is indexed with a list of
    slices, which numpy (pyproject.toml asks for 1.24 or later) rejects.  A
    section that does not fit into the array is an error. *)
Definition section (start sizes : list nat) : box :=
  fun j => Some (nth j start 0, nth j start 0 + nth j sizes 0).
Definition gather_local {A} (size : nat) (local_array : nat -> nd A) (local_start : nat -> list nat)
    (global_array : nd A) : res (nd A) :=
  if size =? 1 then Err IndexError
  else
    let nonempty_procs := filter (fun i => forallb (Nat.ltb 0) (shp (local_array i))) (seq 0 size) in
    fold_left (fun acc i => rbind acc (fun g =>
                 assign g (section (local_start i) (shp (local_array i))) (local_array i)))
              nonempty_procs (Ok global_array).

(** Lines 964-1010, [MemGroup.dataset_distributed_to_common]: the array on
    rank [crank].  Every rank is the root once. *)
Definition distributed_to_common {A} (zero : A) (gshape : list nat) (size axis : nat)
    (locals : nat -> nd (option A)) (offset : nat -> nat) (crank : nat) : res (nd (option A)) :=
  let starts q := set_nth axis (offset q) (map (fun _ => 0) gshape) in
  fold_left (fun acc rank => rbind acc (fun g =>
               if rank =? crank then gather_local size locals starts g else
               if size =? 1 then Err IndexError else Ok g))
            (seq 0 size) (Ok (mknd gshape (fun _ => Some zero))).
