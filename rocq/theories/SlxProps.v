(** Theorems about global slices with a step. *)
From Coq Require Import List ZArith Bool Lia.
From Verif Require Import PyBase PartModel PartSpec SliceModel SliceSpec SliceProofs SliceProps0 SlxSpec SlxProofs.
Import ListNotations.
Open Scope Z_scope.

(** * C378 *)
(** What the ranks get: each counts the steps from its own first element. *)
Theorem C378_ranks A (data : list A) size s r : (r < size)%nat -> positive_step s ->
  exists x, nth_error (global_get_all data size (GSlice s)) r = Some (Ok x) /\
  let i := start_of (length data) size r in let j := start_of (length data) size (S r) in
  data_of (Ok x) = map snd (filter (fun e => own_step s (length data) i (fst e)) (numbered i (firstn (j - i) (skipn i data)))).
Proof.
  intros Hr Hp. destruct (rank_gets A data size s r Hr Hp) as (x & G & E). exists x. split.
  - unfold global_get_all. rewrite (map_nth_error _ r (seq 0 size) (d := r)).
    + rewrite local_part_closed by assumption. rewrite G. reflexivity.
    + rewrite nth_error_nth' with (d := 0%nat) by (rewrite seq_length; assumption). rewrite seq_nth by assumption. reflexivity.
  - exact E.
Qed.
Print Assumptions C378_ranks.
(** Together they get the slice exactly if no rank starts out of phase; of equal elements a wrong one does not show. *)
Theorem C378_get A (data : list A) size s : (1 <= size)%nat -> positive_step s ->
  (InPhase s (length data) size -> concat (map data_of (global_get_all data size (GSlice s))) = py_slice data s) /\
  (NoDup data -> concat (map data_of (global_get_all data size (GSlice s))) = py_slice data s -> InPhase s (length data) size).
Proof. intros Hs Hp. split; [apply get_in_phase; assumption|apply get_needs_phase; assumption]. Qed.
Print Assumptions C378_get.
(** The same of assignments. *)
Theorem C378_set A (data : list A) size s v : (1 <= size)%nat -> positive_step s -> ~ In v data ->
  ((exists ls, global_set_all data size (GSlice s) v = map Ok ls /\ concat ls = py_assign data s v) <-> InPhase s (length data) size).
Proof.
  intros Hs Hp N. split; [intros (ls & G & E); eapply set_needs_phase; eassumption|apply set_in_phase; assumption].
Qed.
Print Assumptions C378_set.
(** Seven elements on three ranks, which start at 0, 3 and 5: steps of 3 are right up to the fourth element, and
    not up to the sixth. *)
Example C378_example :
  InPhase (mkslice None (Some 4) (Some 3)) 7 3 /\ ~ InPhase (mkslice None (Some 6) (Some 3)) 7 3 /\
  map data_of (global_get_all (seq 0 7) 3 (GSlice (mkslice None (Some 4) (Some 3)))) = [[0]; [3]; []]%nat /\
  map data_of (global_get_all (seq 0 7) 3 (GSlice (mkslice None (Some 6) (Some 3)))) = [[0]; [3]; [5]]%nat.
Proof.
  split; [|split; [|split; reflexivity]].
  - intros r Hr L. destruct r as [|[|[|r]]]; [| | |lia]; cbv zeta; vm_compute Z.of_nat; cbn [py_bound sl_start sl_stop sl_step py_step]; vm_compute Z.max; vm_compute Z.min; intro H.
    + exists 0. reflexivity.
    + exists 1. reflexivity.
    + exfalso. vm_compute in H. destruct H as [_ H]. discriminate H.
  - intro H. destruct (H 2%nat ltac:(lia) ltac:(vm_compute; lia)) as [q Q]; [vm_compute; split; reflexivity|].
    assert (E : Z.of_nat (start_of 7 3 2) = 5) by reflexivity. cbn in Q, E. lia.
Qed.
