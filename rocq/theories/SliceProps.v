(** Property theorems: slices, selections and global slicing (C14-C20). *)
From Coq Require Import List ZArith Lia.
From Verif Require Import PyBase PartModel PartSpec SliceModel SliceSpec SliceProofs SliceProps0.
Import ListNotations.
Open Scope Z_scope.

(** C14.  The length is right for slices that do not run backwards... *)
Theorem C14_len_slice_forward_partial : forall s n, positive_step s -> forward s (Z.of_nat n) ->
  len_slice (SelSlice s) (Z.of_nat n) = Ok (Z.of_nat (length (py_positions s n))).
Proof. exact SliceProofs.len_slice_forward. Qed.
Print Assumptions C14_len_slice_forward_partial.

(** ... and, in full, exactly when start - stop < step. *)
Theorem C14_len_slice_iff : forall s n, positive_step s ->
  (len_slice (SelSlice s) (Z.of_nat n) = Ok (Z.of_nat (length (py_positions s n)))
   <-> py_bound (Z.of_nat n) 0 (sl_start s) - py_bound (Z.of_nat n) (Z.of_nat n) (sl_stop s)
       < py_step (sl_step s)).
Proof. exact SliceProofs.len_slice_iff. Qed.
Print Assumptions C14_len_slice_iff.

Theorem C14_len_slice_refuted : exists s n, positive_step s /\
  len_slice (SelSlice s) (Z.of_nat n) <> Ok (Z.of_nat (length (py_positions s n))).
Proof. exact SliceProofs.len_slice_refuted. Qed.
Print Assumptions C14_len_slice_refuted.

(** [slice(-7, 9, 3)] on 10 items: positions 3 and 6, length 2. *)
Example C14_example :
  len_slice (SelSlice (mkslice (Some (-7)) (Some 9) (Some 3))) 10 = Ok 2
  /\ py_positions (mkslice (Some (-7)) (Some 9) (Some 3)) 10 = [3; 6]%nat
  /\ forward (mkslice (Some (-7)) (Some 9) (Some 3)) 10
  /\ len_slice (SelSlice (mkslice (Some 5) (Some 2) None)) 10 = Ok (-3).
Proof. vm_compute. repeat split; auto; discriminate. Qed.

(** C15.  The combined selection is the composition, for sub-slices with
    non-negative bounds (the only ones caput builds). *)
Theorem C15_reslice_slice_partial : forall A (l : list A) s a b, positive_step s -> 0 <= a -> 0 <= b ->
  exists s', reslice (SelSlice s) (Z.of_nat (length l)) (sub_slice a b) = Ok s'
    /\ read_axis l s' = Ok (py_slice (py_slice l s) (sub_slice a b)).
Proof. exact SliceProofs.reslice_slice. Qed.
Print Assumptions C15_reslice_slice_partial.

(** For index lists any bounds work. *)
Theorem C15_reslice_list : forall A (l : list A) idx n a b,
  Forall (fun i => (i < length l)%nat) idx ->
  exists s', reslice (SelList idx) n (sub_slice a b) = Ok s'
    /\ read_axis l s' = Ok (py_slice (pick l idx) (sub_slice a b)).
Proof. exact SliceProofs.reslice_list. Qed.
Print Assumptions C15_reslice_list.

Theorem C15_reslice_step_rejected : forall s n a b k, 1 < k ->
  reslice s n (mkslice a b (Some k)) = Err ValueError.
Proof. exact SliceProofs.reslice_step_rejected. Qed.
Print Assumptions C15_reslice_step_rejected.

Theorem C15_reslice_refuted : exists (l : list nat) s a b s', positive_step s /\
  reslice (SelSlice s) (Z.of_nat (length l)) (sub_slice a b) = Ok s'
  /\ read_axis l s' <> Ok (py_slice (py_slice l s) (sub_slice a b)).
Proof. exact SliceProofs.reslice_refuted. Qed.
Print Assumptions C15_reslice_refuted.

Example C15_example :
  reslice (SelSlice (mkslice (Some 1) None (Some 3))) 20 (sub_slice 2 5)
  = Ok (SelSlice (mkslice (Some 7) (Some 16) (Some 3)))
  /\ read_axis (seq 100 20) (SelSlice (mkslice (Some 7) (Some 16) (Some 3))) = Ok [107; 110; 113]%nat.
Proof. split; reflexivity. Qed.

(** C16.  Distributed read: with a slice that does not run backwards by a step
    or more, the ranks read consecutive pieces of the selection. *)
Theorem C16_from_file_slice_partial : forall A (data : list A) s size, (1 <= size)%nat -> positive_step s ->
  py_bound (Z.of_nat (length data)) 0 (sl_start s)
    - py_bound (Z.of_nat (length data)) (Z.of_nat (length data)) (sl_stop s) < py_step (sl_step s) ->
  Pieces (map (fun r => from_file_axis data (SelSlice s) r size) (seq 0 size)) (py_slice data s).
Proof. exact SliceProps0.from_file_slice. Qed.
Print Assumptions C16_from_file_slice_partial.

(** All other slices (which select nothing) raise. *)
Theorem C16_from_file_reversed_raises : forall A (data : list A) s size rank, positive_step s ->
  py_step (sl_step s) <= py_bound (Z.of_nat (length data)) 0 (sl_start s)
    - py_bound (Z.of_nat (length data)) (Z.of_nat (length data)) (sl_stop s) ->
  from_file_axis data (SelSlice s) rank size = Err ValueError.
Proof. exact SliceProps0.from_file_reversed. Qed.
Print Assumptions C16_from_file_reversed_raises.

Theorem C16_from_file_list : forall A (data : list A) idx size, (1 <= size)%nat ->
  Forall (fun i => (i < length data)%nat) idx ->
  Pieces (map (fun r => from_file_axis data (SelList idx) r size) (seq 0 size)) (pick data idx).
Proof. exact SliceProps0.from_file_list. Qed.
Print Assumptions C16_from_file_list.

Theorem C16_from_file_refuted : exists (data : list nat) s size, (1 <= size)%nat /\ positive_step s /\
  ~ Pieces (map (fun r => from_file_axis data (SelSlice s) r size) (seq 0 size)) (py_slice data s).
Proof. exact SliceProps0.from_file_refuted. Qed.
Print Assumptions C16_from_file_refuted.

Example C16_example :
  map (fun r => from_file_axis (seq 0 20) (SelSlice (mkslice (Some 2) (Some (-1)) (Some 3))) r 4) (seq 0 4)
  = [Ok (6, 0, [2; 5]); Ok (6, 2, [8; 11]); Ok (6, 4, [14]); Ok (6, 5, [17])]%nat
  /\ from_file_axis (seq 0 20) (SelList [4; 1; 9]%nat) 0 2 = Ok (3, 0, [4; 1])%nat.
Proof. split; reflexivity. Qed.

(** C17.  Whenever a partition is produced it tiles the split axis and no
    transfer exceeds the threshold tn/td bytes. *)
Theorem C17_partition_io_bounds : forall tn td item largest gshape lsh axis ax slices,
  0 < tn -> 0 < td -> 0 <= item -> (axis < length gshape)%nat ->
  LocalShape gshape lsh axis ->
  item * prod lsh <= largest ->
  partition_io false tn td largest gshape axis (nth 0 lsh 0%nat) = Ok (ax, slices) ->
  Tiles slices (nth ax lsh 0%nat)
  /\ Forall (fun '(a, b) => td * (item * prod (set_nth ax (b - a)%nat lsh)) <= tn) slices.
Proof. exact SliceProps0.partition_io_ok. Qed.
Print Assumptions C17_partition_io_bounds.

(** A partition is produced whenever some other axis is long enough... *)
Theorem C17_partition_io_accepts_partial : forall tn td largest gshape axis local0 j,
  0 < tn -> 0 < td -> 0 < largest -> (2 <= length gshape)%nat ->
  (j < length gshape)%nat -> j <> axis ->
  td * largest <= tn * Z.of_nat (nth j gshape 0%nat) ->
  exists ax slices, partition_io false tn td largest gshape axis local0 = Ok (ax, slices).
Proof. exact SliceProps0.partition_io_accepts. Qed.
Print Assumptions C17_partition_io_accepts_partial.

(** ... and refused when the array is too large and none is. *)
Theorem C17_partition_io_rejects : forall tn td largest gshape axis local0,
  0 < tn -> 0 < td -> tn < td * largest ->
  (forall j, (j < length gshape)%nat -> j <> axis -> tn * Z.of_nat (nth j gshape 0%nat) < td * largest) ->
  partition_io false tn td largest gshape axis local0 = Err RuntimeError.
Proof. exact SliceProps0.partition_io_rejects. Qed.
Print Assumptions C17_partition_io_rejects.

(** An array without elements raises ZeroDivisionError. *)
Theorem C17_partition_io_refuted : exists gshape lsh axis,
  (axis < length gshape)%nat /\ LocalShape gshape lsh axis
  /\ partition_io false 1000 1 (8 * prod lsh) gshape axis (nth 0 lsh 0%nat) = Err ZeroDivisionError.
Proof. exact SliceProps0.partition_io_refuted. Qed.
Print Assumptions C17_partition_io_refuted.

(** Local shape 4 x 10 x 3, 8 bytes each (960 bytes), threshold 300 bytes: at
    least 4 parts, so axis 1 in slices of 2. *)
Example C17_example :
  partition_io false 300 1 960 [16; 10; 3]%nat 0 4
  = Ok (1, [(0, 2); (2, 4); (4, 6); (6, 8); (8, 10)])%nat.
Proof. reflexivity. Qed.

(** C18.  Contiguous slices with any bounds, negative ones included. *)
Theorem C18_global_get : forall A (data : list A) size s, (1 <= size)%nat -> py_step (sl_step s) = 1 ->
  Forall (fun r => exists x, r = Ok x) (global_get_all data size (GSlice s))
  /\ concat (map data_of (global_get_all data size (GSlice s))) = py_slice data s.
Proof. exact SliceProps0.global_get_unit. Qed.
Print Assumptions C18_global_get.

Theorem C18_global_set : forall A (data : list A) size s v, (1 <= size)%nat -> py_step (sl_step s) = 1 ->
  exists ls, global_set_all data size (GSlice s) v = map Ok ls /\ concat ls = py_assign data s v.
Proof. exact SliceProps0.global_set_unit. Qed.
Print Assumptions C18_global_set.

(** Integers in range: one rank returns the element, the others None. *)
Theorem C18_global_get_int : forall A (data : list A) size i x, (1 <= size)%nat ->
  nth_error data i = Some x ->
  exists r, (r < size)%nat /\ forall r', (r' < size)%nat ->
    nth_error (global_get_all data size (GInt (Z.of_nat i))) r' =
    Some (Ok (if (r' =? r)%nat then ROne x else RNone)).
Proof. exact SliceProps0.global_get_int. Qed.
Print Assumptions C18_global_get_int.

Theorem C18_global_set_int : forall A (data : list A) size i v, (1 <= size)%nat -> (i < length data)%nat ->
  exists ls, global_set_all data size (GInt (Z.of_nat i)) v = map Ok ls
    /\ concat ls = set_nth i v data.
Proof. exact SliceProps0.global_set_int. Qed.
Print Assumptions C18_global_set_int.

(** The index is padded, or its ellipsis expanded, to one entry per axis. *)
Theorem C18_expand_padding : forall ndim idx, existsb is_ellipsis idx = false -> (length idx <= ndim)%nat ->
  expand_index ndim idx = idx ++ repeat (GSlice full_slice) (ndim - length idx).
Proof. exact SliceProps0.expand_no_ellipsis. Qed.
Print Assumptions C18_expand_padding.

Theorem C18_expand_ellipsis : forall ndim a b,
  existsb is_ellipsis a = false -> existsb is_ellipsis b = false ->
  (length a + length b <= ndim)%nat ->
  expand_index ndim (a ++ GEllipsis :: b)
  = a ++ repeat (GSlice full_slice) (ndim - length a - length b) ++ b.
Proof. exact SliceProps0.expand_ellipsis. Qed.
Print Assumptions C18_expand_ellipsis.

Example C18_example :
  global_get_all (seq 0 7) 3 (GSlice (mkslice (Some 2) (Some (-2)) None))
  = [Ok (RMany [2]); Ok (RMany [3; 4]); Ok (RMany [])]%nat
  /\ global_set_all (seq 0 7) 3 (GSlice (mkslice (Some 2) (Some (-2)) None)) 9%nat
  = [Ok [0; 1; 9]; Ok [9; 9]; Ok [5; 6]]%nat
  /\ global_get_all (seq 0 7) 3 (GInt 4) = [Ok RNone; Ok (ROne 4%nat); Ok RNone].
Proof. repeat split. Qed.

(** C19.  False: a negative integer is found on no rank. *)
Theorem C19_global_negative_refuted : exists (data : list nat) size k, (1 <= size)%nat /\
  (1 <= k <= length data)%nat /\
  ~ exists r x, nth_error (global_get_all data size (GInt (- Z.of_nat k))) r = Some (Ok (ROne x)).
Proof. exact SliceProps0.global_negative_refuted. Qed.
Print Assumptions C19_global_negative_refuted.

(** For every array and every negative (or too large) integer the read gives
    None everywhere and the assignment is silently ignored. *)
Theorem C19_global_int_ignored : forall A (data : list A) size i v, (1 <= size)%nat ->
  i < 0 \/ Z.of_nat (length data) <= i ->
  global_get_all data size (GInt i) = repeat (Ok RNone) size
  /\ exists ls, global_set_all data size (GInt i) v = map Ok ls /\ concat ls = data.
Proof. exact SliceProps0.global_int_out. Qed.
Print Assumptions C19_global_int_ignored.

Example C19_example :
  global_get_all [10; 11; 12]%nat 2 (GInt (-1)) = [Ok RNone; Ok RNone]
  /\ global_set_all [10; 11; 12]%nat 2 (GInt (-1)) 99%nat = [Ok [10; 11]; Ok [12]]%nat.
Proof. split; reflexivity. Qed.

(** C20.  False in general: every rank restarts the stride at its first
    element. *)
Theorem C20_global_step_refuted : exists (data : list nat) size s, (1 <= size)%nat /\ positive_step s /\
  concat (map data_of (global_get_all data size (GSlice s))) <> py_slice data s.
Proof. exact SliceProps0.global_step_refuted. Qed.
Print Assumptions C20_global_step_refuted.

(** True when every rank starting after the slice's start does so in phase
    with the stride. *)
Theorem C20_global_step_aligned_partial : forall A (data : list A) size s, (1 <= size)%nat -> positive_step s ->
  Aligned s (length data) size ->
  Forall (fun r => exists x, r = Ok x) (global_get_all data size (GSlice s))
  /\ concat (map data_of (global_get_all data size (GSlice s))) = py_slice data s.
Proof. exact SliceProps0.global_get_slice. Qed.
Print Assumptions C20_global_step_aligned_partial.

Theorem C20_global_step_set_partial : forall A (data : list A) size s v, (1 <= size)%nat -> positive_step s ->
  Aligned s (length data) size ->
  exists ls, global_set_all data size (GSlice s) v = map Ok ls /\ concat ls = py_assign data s v.
Proof. exact SliceProps0.global_set_slice. Qed.
Print Assumptions C20_global_step_set_partial.

(** 8 elements on 2 ranks, step 2 from 0: in phase; 6 elements: not. *)
Example C20_example :
  Aligned (mkslice None None (Some 2)) 8 2
  /\ global_get_all (seq 0 8) 2 (GSlice (mkslice None None (Some 2)))
     = [Ok (RMany [0; 2]); Ok (RMany [4; 6])]%nat
  /\ global_get_all (seq 0 6) 2 (GSlice (mkslice None None (Some 2)))
     = [Ok (RMany [0; 2]); Ok (RMany [3; 5])]%nat.
Proof.
  split; [|split; reflexivity]. intros [|[|r]] H; [|reflexivity|lia]. intros a Ha; vm_compute in Ha; discriminate.
Qed.
