(** C34, C82: conversions between common and distributed datasets. *)
From Coq Require Import List Arith ZArith Bool Lia.
From Verif Require Import PyBase PartModel PartSpec SliceModel RedModel RedSpec RedProofs DistModel DistProofs.
Import ListNotations.
Open Scope nat_scope.

(** C34.  True of axis zero. *)
Theorem C34_axis_zero_partial : forall A (G : list nat -> A) gshape a m r, r < m -> Names (length gshape) a 0 ->
  exists arr, common_to_distributed gshape a G r m = Ok arr /\ IsShare G gshape m 0 r arr.
Proof. exact DistProofs.axis0_share. Qed.
Print Assumptions C34_axis_zero_partial.

(** On one rank it is true of another axis that is not shorter than axis
    zero. *)
Theorem C34_one_rank_partial : forall A (G : list nat -> A) gshape a k, Names (length gshape) a k ->
  nth 0 gshape 0 <= nth k gshape 0 ->
  exists arr, common_to_distributed gshape a G 0 1 = Ok arr /\ IsShare G gshape 1 k 0 arr.
Proof. exact DistProofs.single_rank_share. Qed.
Print Assumptions C34_one_rank_partial.

(** False of other axes: the rows are selected, and here the first row is
    repeated over the whole dataset. *)
Theorem C34_wrong_data_refuted : exists (G : list nat -> nat) gshape a k m r arr,
  r < m /\ Names (length gshape) a k /\ common_to_distributed gshape a G r m = Ok arr /\
  shp arr = set_nth k (part_of (nth k gshape 0) m r) gshape /\ ~ IsShare G gshape m k r arr.
Proof.
  exists ex_global, [4; 1], 1%Z, 1, 1, 0. eexists.
  split; [lia|]. split; [split; [cbn; lia|left; reflexivity]|]. split; [vm_compute; reflexivity|].
  split; [reflexivity|]. intros [_ H]. specialize (H [2; 0]). vm_compute in H.
  assert (Some 0 = Some 20); [|discriminate]. apply H. repeat constructor.
Qed.
Print Assumptions C34_wrong_data_refuted.

(** On every rank that does not get the whole axis it fails. *)
Theorem C34_other_axes_refuted : exists gshape a k m, Names (length gshape) a k /\ 0 < m /\
  forall A (G : list nat -> A) r, r < m -> common_to_distributed gshape a G r m = Err ValueError.
Proof.
  exists [3; 4], 1%Z, 1, 2. split; [split; [cbn; lia|left; reflexivity]|]. split; [lia|].
  intros A G r Hr. apply (DistProofs.other_axis_fails A G [3; 4] 1 1 2 r); try lia.
  - split; [cbn; lia|left; reflexivity].
  - cbn. lia.
  - destruct r as [|[|r]]; [vm_compute; discriminate|vm_compute; discriminate|lia].
Qed.
Print Assumptions C34_other_axes_refuted.
Theorem C34_other_axes_fail : forall A (G : list nat -> A) gshape a k m r, r < m -> Names (length gshape) a k -> 1 <= k ->
  nth k gshape 0 <> 1 -> part_of (nth k gshape 0) m r <> nth k gshape 0 ->
  common_to_distributed gshape a G r m = Err ValueError.
Proof. exact DistProofs.other_axis_fails. Qed.
Print Assumptions C34_other_axes_fail.

Example C34_example :
  (let x := common_to_distributed [5; 2] 0 ex_global 1 3 in
   match x with Ok a => shp a = [2; 2] /\ elt a [0; 1] = Some 21 /\ elt a [1; 0] = Some 30 | Err _ => False end)
  /\ match common_to_distributed [2; 3] (-1) ex_global 0 1 with Ok a => elt a [1; 2] = Some 12 | Err _ => False end.
Proof. vm_compute. auto. Qed.

(** C82.  On two or more ranks every rank ends with the whole array. *)
Theorem C82_to_common_partial : forall A (G : list nat -> A) gshape m k locals zero crank,
  2 <= m -> k < length gshape -> (forall q, q < m -> IsShare G gshape m k q (locals q)) -> crank < m ->
  exists arr, distributed_to_common zero gshape m k locals (start_of (nth k gshape 0) m) crank = Ok arr
    /\ IsWhole G gshape arr.
Proof. exact (fun A G gshape m k locals zero crank Hm Hk Hl Hc => DistProofs.to_common G gshape m k locals Hm Hk Hl zero crank Hc). Qed.
Print Assumptions C82_to_common_partial.

(** On one rank it always fails. *)
Theorem C82_one_rank_refuted : exists (G : list nat -> nat) gshape k locals,
  k < length gshape /\ IsShare G gshape 1 k 0 (locals 0) /\
  distributed_to_common 0 gshape 1 k locals (start_of (nth k gshape 0) 1) 0 = Err IndexError.
Proof.
  exists ex_global, [2; 3], 0, (ex_locals 0 1 [2; 3]). split; [cbn; lia|]. split; [apply ex_share|reflexivity].
Qed.
Print Assumptions C82_one_rank_refuted.

Example C82_example :
  match distributed_to_common 0 [2; 5] 3 1 (ex_locals 1 3 [2; 5]) (start_of 5 3) 2 with
  | Ok a => map (elt a) [[0; 0]; [1; 1]; [1; 2]; [0; 4]] = [Some 0; Some 11; Some 12; Some 4]
  | Err _ => False
  end.
Proof. vm_compute. reflexivity. Qed.
