(** Model of slices and of the slicing and IO helpers of
    /repo/caput/mpiarray.py.

    The first part is Python itself (not caput): [slice.indices] and slicing of
    a sequence, following CPython's PySlice_AdjustIndices. *)
From Coq Require Import List ZArith Bool.
From Verif Require Import PyBase PartModel.
Import ListNotations.
Open Scope Z_scope.

(** A Python slice object; [None] for an omitted entry. *)
Record pslice := mkslice { sl_start : option Z; sl_stop : option Z; sl_step : option Z }.
Definition full_slice := mkslice None None None.

(** [slice.indices(n)]. *)
Definition slice_indices (s : pslice) (n : Z) : res (Z * Z * Z) :=
  let step := match sl_step s with Some k => k | None => 1 end in
  if step =? 0 then Err ValueError else
  let lower := if 0 <? step then 0 else -1 in
  let upper := if 0 <? step then n else n - 1 in
  let adjust x := if x <? 0 then Z.max (x + n) lower else Z.min x upper in
  let start := match sl_start s with
               | Some x => adjust x
               | None => if 0 <? step then lower else upper end in
  let stop := match sl_stop s with
              | Some x => adjust x
              | None => if 0 <? step then upper else lower end in
  Ok (start, stop, step).

(** Number of elements of [range(start, stop, step)]. *)
Definition range_len (start stop step : Z) : Z :=
  if 0 <? step then (if start <? stop then (stop - start - 1) / step + 1 else 0)
  else (if stop <? start then (start - stop - 1) / (- step) + 1 else 0).

(** The positions a slice selects on an axis of length [n]. *)
Definition slice_positions (s : pslice) (n : Z) : res (list Z) :=
  match slice_indices s n with
  | Err e => Err e
  | Ok (a, b, k) =>
      Ok (map (fun i => a + Z.of_nat i * k) (seq 0 (Z.to_nat (range_len a b k))))
  end.

(** Items of [l] at the given (in range) positions. *)
Definition zpick {A} (l : list A) (ps : list Z) : list A :=
  pick l (map Z.to_nat ps).

(** [l[s]] on one axis, the other axes being carried along in [A]. *)
Definition apply_slice {A} (l : list A) (s : pslice) : res (list A) :=
  match slice_positions s (Z.of_nat (length l)) with
  | Err e => Err e
  | Ok ps => Ok (zpick l ps)
  end.

(** The selection of one axis: a slice or a list of (non-negative) indices. *)
Inductive asel := SelSlice (s : pslice) | SelList (idx : list nat).

(** caput/mpiarray.py lines 2190-2196, [_len_slice]. *)
Definition len_slice (s : asel) (n : Z) : res Z :=
  match s with
  | SelSlice s =>
      match slice_indices s n with
      | Err e => Err e
      | Ok (start, stop, step) => Ok (1 + (stop - start - 1) / step)
      end
  | SelList idx => Ok (Z.of_nat (length idx))
  end.

(** caput/mpiarray.py lines 2210-2230, [_reslice].  A [None] bound in the
    sub-slice makes the arithmetic raise TypeError. *)
Definition reslice (s : asel) (n : Z) (sub : pslice) : res asel :=
  if match sl_step sub with Some k => 1 <? k | None => false end then Err ValueError
  else match s with
       | SelSlice s =>
           match slice_indices s n with
           | Err e => Err e
           | Ok (dstart, dstop, dstep) =>
               match sl_start sub, sl_stop sub with
               | Some a, Some b =>
                   Ok (SelSlice (mkslice (Some (dstart + a * dstep))
                                         (Some (Z.min (dstart + b * dstep) dstop))
                                         (Some dstep)))
               | _, _ => Err TypeError
               end
           end
       | SelList idx =>
           match apply_slice idx sub with Err e => Err e | Ok i => Ok (SelList i) end
       end.

(** Reading an axis of a dataset with a selection (h5py / zarr). *)
Definition read_axis {A} (l : list A) (s : asel) : res (list A) :=
  match s with
  | SelSlice s => apply_slice l s
  | SelList idx => if forallb (fun i => (i <? length l)%nat) idx then Ok (pick l idx)
                   else Err IndexError
  end.

(** caput/mpiarray.py lines 1009-1032, the part of [from_file] on the
    distributed axis, on one rank: global length, local offset and data.
    Creating the array with a negative length raises. *)
Definition from_file_axis {A} (data : list A) (sel : asel) (rank size : nat)
  : res (nat * nat * list A) :=
  let n := Z.of_nat (length data) in
  rbind (len_slice sel n) (fun g =>
  if g <? 0 then Err ValueError else
  rbind (split_local (Z.to_nat g) rank size) (fun '(num, off, _) =>
  rbind (reslice sel n (mkslice (Some (Z.of_nat off)) (Some (Z.of_nat (off + num))) None))
        (fun sel' =>
  rbind (read_axis data sel') (fun d => Ok (Z.to_nat g, off, d))))).

(** caput/mpiarray.py lines 2233-2239, [_expand_sel]. *)
Definition expand_sel (sel : option (list asel)) (naxis : nat) : list asel :=
  let sel := match sel with
             | None => repeat (SelSlice full_slice) naxis
             | Some s => s end in
  if (length sel <? naxis)%nat
  then sel ++ repeat (SelSlice full_slice) (naxis - length sel) else sel.

(** caput/mpiarray.py lines 2147-2187, [_partition_sel]. *)
Definition set_nth {A} (k : nat) (x : A) (l : list A) : list A :=
  firstn k l ++ match skipn k l with [] => [] | _ :: t => x :: t end.
Definition partition_sel (sel : list asel) (split_axis : nat) (n : Z) (sl : pslice)
  : res (list asel * list asel) :=
  match nth_error sel split_axis with
  | None => Err IndexError
  | Some s =>
      rbind (reslice s n sl) (fun s' =>
      Ok (set_nth split_axis s' sel,
          set_nth split_axis (SelSlice sl) (repeat (SelSlice full_slice) (length sel))))
  end.

(** caput/mpiarray.py lines 1703-1763, [_partition_io].  The threshold in bytes
    is the exact rational [tn / td] (the code uses a float product);
    [largest] is the reduced maximum of nbytes; shapes are lists of naturals.
    [local0] is the local length of axis 0. *)
Definition zceil_div (a b : Z) : Z := - ((- a) / b).

Fixpoint pairwise {A} (l : list A) : list (A * A) :=
  match l with
  | x :: ((y :: _) as t) => (x, y) :: pairwise t
  | _ => []
  end.

Definition partition_io (skip : bool) (tn td : Z) (largest : Z) (gshape : list nat)
    (axis local0 : nat) : res (nat * list (nat * nat)) :=
  let min_axis_size := zceil_div (largest * td) tn in
  if skip || (min_axis_size =? 1) then Ok (0%nat, [(0%nat, local0)])
  else if (length gshape =? 1)%nat then Err RuntimeError
  else
    match find (fun j => negb (j =? axis)%nat
                         && (min_axis_size <=? Z.of_nat (nth j gshape 0%nat)))
               (seq 0 (length gshape)) with
    | None => Err RuntimeError
    | Some split_axis =>
        let axis_length := nth split_axis gshape 0%nat in
        if min_axis_size =? 0 then Err ZeroDivisionError else
        let slice_length := (axis_length / Z.to_nat min_axis_size)%nat in
        if (slice_length =? 0)%nat then Err ValueError else
        let boundaries := nrange 0 (axis_length + 1) slice_length in
        let boundaries := if (last boundaries 0 =? axis_length)%nat then boundaries
                          else boundaries ++ [axis_length] in
        Ok (split_axis, pairwise boundaries)
    end.

(** *** Global slicing *)

(** The entries of an index expression. [GOther] is anything else (an array,
    newaxis, ...), carried along untouched. *)
Inductive gidx := GInt (i : Z) | GSlice (s : pslice) | GEllipsis | GOther (tag : nat).
Definition is_ellipsis (g : gidx) : bool := match g with GEllipsis => true | _ => false end.

(** caput/mpiarray.py lines 308-330: expansion of the index to one entry per
    axis. *)
Definition expand_index (ndim : nat) (slobj : list gidx) : list gidx :=
  let slobj := if (length slobj <? ndim)%nat && negb (existsb is_ellipsis slobj)
               then slobj ++ [GEllipsis] else slobj in
  flat_map (fun g => if is_ellipsis g
                     then repeat (GSlice full_slice) (ndim + 1 - length slobj)
                     else [g]) slobj.

(** caput/mpiarray.py lines 334-384: the entry of the distributed axis.
    Result: the local index ([None]: nothing on this rank) and whether it is a
    full slice. *)
Inductive lidx := LNone | LInt (i : Z) | LSlice (s : pslice) | LOther (tag : nat).

Definition resolve_axis (offset local_length length_ : Z) (g : gidx) : lidx * bool :=
  match g with
  | GInt i =>
      let index := i - offset in
      ((if (index <? 0) || (local_length <=? index) then LNone else LInt index), false)
  | GSlice s =>
      let '(start, full) :=
        match sl_start s with
        | Some a => ((if 0 <=? a then a else a + length_) - offset, false)
        | None => (0, true) end in
      let '(stop, full) :=
        match sl_stop s with
        | Some b => ((if 0 <=? b then b else b + length_) - offset, false)
        | None => (local_length, full) end in
      let full := match sl_step s with Some _ => false | None => full end in
      if (local_length <=? start) || (stop <? 0) then (LNone, full)
      else (LSlice (mkslice (Some (Z.max (Z.min start local_length) 0))
                            (Some (Z.max (Z.min stop local_length) 0)) (sl_step s)), full)
  | GEllipsis => (LOther 0%nat, true)
  | GOther t => (LOther t, true)
  end.

(** caput/mpiarray.py lines 386-404, [__getitem__] on the distributed axis of
    one rank: [None], one element, or a list. *)
Inductive gres (A : Type) := RNone | ROne (x : A) | RMany (l : list A).
Arguments RNone {A}. Arguments ROne {A}. Arguments RMany {A}.

Definition global_getitem {A} (local : list A) (offset length_ : nat) (g : gidx)
  : res (gres A) :=
  let '(l, full) := resolve_axis (Z.of_nat offset) (Z.of_nat (length local)) (Z.of_nat length_) g in
  if full then
    match l with
    | LNone => Ok (RMany local)
    | LSlice s => match apply_slice local s with Ok x => Ok (RMany x) | Err e => Err e end
    | _ => Err TypeError
    end
  else
    match l with
    | LNone => Ok RNone
    | LInt i => match nth_error local (Z.to_nat i) with Some x => Ok (ROne x) | None => Err IndexError end
    | LSlice s => match apply_slice local s with Ok x => Ok (RMany x) | Err e => Err e end
    | LOther _ => Err TypeError
    end.

(** Assignment of one value to the positions [ps] of [l]. *)
Definition assign_at {A} (l : list A) (ps : list Z) (v : A) : list A :=
  map (fun '(i, x) => if existsb (Z.eqb (Z.of_nat i)) ps then v else x) (enumerate l).

(** caput/mpiarray.py lines 406-415, [__setitem__] with a scalar value, on the
    distributed axis of one rank. *)
Definition global_setitem {A} (local : list A) (offset length_ : nat) (g : gidx) (v : A)
  : res (list A) :=
  match fst (resolve_axis (Z.of_nat offset) (Z.of_nat (length local)) (Z.of_nat length_) g) with
  | LNone => Ok local
  | LInt i => Ok (assign_at local [i] v)
  | LSlice s => match slice_positions s (Z.of_nat (length local)) with
                | Ok ps => Ok (assign_at local ps v) | Err e => Err e end
  | LOther _ => Err TypeError
  end.

(** The local parts of a global axis over a communicator ([MPIArray.__new__],
    lines 597-629, on the distributed axis). *)
Definition local_part {A} (g : list A) (rank size : nat) : res (nat * list A) :=
  match split_local (length g) rank size with
  | Ok (num, off, _) => Ok (off, lslice off (off + num) g)
  | Err e => Err e
  end.

(** The whole communicator performing [global_slice[g]] / assignment: the list
    over ranks of results. *)
Definition global_get_all {A} (data : list A) (size : nat) (g : gidx) : list (res (gres A)) :=
  map (fun r => match local_part data r size with
                | Ok (off, l) => global_getitem l off (length data) g
                | Err e => Err e end) (seq 0 size).
Definition global_set_all {A} (data : list A) (size : nat) (g : gidx) (v : A) : list (res (list A)) :=
  map (fun r => match local_part data r size with
                | Ok (off, l) => global_setitem l off (length data) g v
                | Err e => Err e end) (seq 0 size).
