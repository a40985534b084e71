(** Property theorems: redistribution and gathering (C21-C23, C77). *)
From Coq Require Import List Arith ZArith Lia Permutation.
From Verif Require Import PyBase PartModel PartSpec SliceModel RedModel RedSpec RedProofs.
Import ListNotations.
Open Scope nat_scope.

(** C21.  If the ranks hold the shares of a global array along axis [ka], then
    after redistribution they hold the shares of the same array along [kb]. *)
Theorem C21_redistribute_preserves : forall A (G : list nat -> A) gshape m a b ka kb locals r,
  1 <= m -> r < m -> Names (length gshape) a ka -> Names (length gshape) b kb ->
  ka <> kb \/ a = b ->
  (forall q, q < m -> IsShare G gshape m ka q (locals q)) ->
  exists arr, redistribute gshape m a b locals r = Ok arr /\ IsShare G gshape m kb r arr.
Proof. exact RedProofs.redistribute_share. Qed.
Print Assumptions C21_redistribute_preserves.

Theorem C21_redistribute_back : forall A (G : list nat -> A) gshape m a b ka kb locals,
  1 <= m -> Names (length gshape) a ka -> Names (length gshape) b kb -> ka <> kb ->
  (forall q, q < m -> IsShare G gshape m ka q (locals q)) ->
  exists there, (forall q, q < m -> redistribute gshape m a b locals q = Ok (there q))
    /\ forall r, r < m -> exists back, redistribute gshape m b a there r = Ok back
         /\ same_array back (locals r).
Proof. exact RedProofs.redistribute_back. Qed.
Print Assumptions C21_redistribute_back.

(** A 3 x 5 array (entry 10 i + j) from rows to columns on 3 ranks: rank 1
    gets columns 2 and 3. *)
Definition entries (x : res (nd (option nat))) (idxs : list (list nat)) : list (option nat) :=
  match x with Ok a => map (elt a) idxs | Err _ => [] end.
Example C21_example :
  let x := redistribute [3; 5] 3 0 1 (ex_locals 0 3 [3; 5]) 1 in
  match x with Ok a => shp a | Err _ => [] end = [3; 2]
  /\ entries x [[0; 0]; [0; 1]; [1; 0]; [1; 1]; [2; 0]; [2; 1]]
     = [Some 2; Some 3; Some 12; Some 13; Some 22; Some 23].
Proof. split; vm_compute; reflexivity. Qed.
Example C21_example_share : forall q, q < 3 -> IsShare ex_global [3; 5] 3 0 q (ex_locals 0 3 [3; 5] q).
Proof. intros. apply ex_share. Qed.

(** C22.  Every rank makes the same number of steps (the loop bound [csize]);
    in each step the destinations are a permutation of the ranks, sender and
    receiver name each other, and the tags agree... *)
Theorem C22_step_is_permutation : forall n i, i < n ->
  Permutation (map (fun r => send_to n r i) (seq 0 n)) (seq 0 n).
Proof. exact RedProofs.step_permutation. Qed.
Print Assumptions C22_step_is_permutation.

Theorem C22_partners_match : forall n r i, r < n -> i < n ->
  send_to n r i < n /\ recv_from n r i < n
  /\ recv_from n (send_to n r i) i = r /\ send_to n (recv_from n r i) i = r.
Proof. exact RedProofs.partners. Qed.
Print Assumptions C22_partners_match.

Theorem C22_tags_agree : forall n r i, r < n -> i < n ->
  send_tag n r i = recv_tag n (send_to n r i) i.
Proof. exact RedProofs.tags_agree. Qed.
Print Assumptions C22_tags_agree.

(** ... every ordered pair communicates in exactly one step, and no two
    messages share a tag. *)
Theorem C22_each_pair_once : forall n p q, p < n -> q < n ->
  exists i, i < n /\ send_to n p i = q /\ forall j, j < n -> send_to n p j = q -> j = i.
Proof. exact RedProofs.each_pair_once. Qed.
Print Assumptions C22_each_pair_once.

Theorem C22_tags_distinct : forall n p i q j, p < n -> i < n -> q < n -> j < n ->
  send_tag n p i = send_tag n q j -> p = q /\ i = j.
Proof. exact RedProofs.tags_distinct. Qed.
Print Assumptions C22_tags_distinct.

Example C22_example :
  map (fun r => (send_to 4 r 3, recv_from 4 r 3, send_tag 4 r 3, recv_tag 4 r 3)) (seq 0 4)
  = [(3, 1, 3, 4); (0, 2, 4, 9); (1, 3, 9, 14); (2, 0, 14, 3)].
Proof. reflexivity. Qed.

(** C23. *)
Theorem C23_allgather : forall A (G : list nat -> A) gshape m a k locals,
  1 <= m -> Names (length gshape) a k ->
  (forall q, q < m -> IsShare G gshape m k q (locals q)) ->
  exists arr, allgather gshape m a locals = Ok arr /\ IsWhole G gshape arr.
Proof. exact RedProofs.allgather_whole. Qed.
Print Assumptions C23_allgather.

(** [gather] is right when the root's message to itself has arrived by the
    time its send completes ([delivered = true]).  What is missing: the code
    does not wait for that message. *)
Theorem C23_gather_partial : forall A (G : list nat -> A) gshape m a k locals root,
  1 <= m -> root < m -> Names (length gshape) a k ->
  (forall q, q < m -> IsShare G gshape m k q (locals q)) ->
  (exists arr, gather gshape m a locals root true root = Ok (Some arr) /\ IsWhole G gshape arr)
  /\ forall d r, r <> root -> gather gshape m a locals root d r = Ok None.
Proof. exact RedProofs.gather_whole. Qed.
Print Assumptions C23_gather_partial.

Theorem C23_gather_refuted : exists (G : list nat -> nat) gshape m locals root,
  1 <= m /\ root < m /\ (forall q, q < m -> IsShare G gshape m 0 q (locals q))
  /\ exists arr, gather gshape m 0 locals root false root = Ok (Some arr) /\ ~ IsWhole G gshape arr.
Proof. exact RedProofs.gather_refuted. Qed.
Print Assumptions C23_gather_refuted.

Example C23_example :
  entries (allgather [3; 5] 2 (-1) (ex_locals 1 2 [3; 5])) [[0; 0]; [1; 2]; [1; 3]; [2; 4]]
  = [Some 0; Some 12; Some 13; Some 24].
Proof. vm_compute; reflexivity. Qed.

(** C77.  False: naming the current axis by its negative number raises. *)
Theorem C77_redistribute_negative_refuted : exists (G : list nat -> nat) gshape m locals r,
  1 <= m /\ r < m /\ Names (length gshape) (-1) 0 /\ (forall q, q < m -> IsShare G gshape m 0 q (locals q))
  /\ redistribute gshape m 0 (-1) locals r = Err ValueError.
Proof. exact RedProofs.redistribute_refuted. Qed.
Print Assumptions C77_redistribute_negative_refuted.

(** With a negative number for another axis it works. *)
Theorem C77_redistribute_negative_other_partial : forall A (G : list nat -> A) gshape m a ka kb locals r,
  1 <= m -> r < m -> Names (length gshape) a ka -> kb < length gshape -> ka <> kb ->
  (forall q, q < m -> IsShare G gshape m ka q (locals q)) ->
  exists arr, redistribute gshape m a (Z.of_nat kb - Z.of_nat (length gshape)) locals r = Ok arr
    /\ IsShare G gshape m kb r arr.
Proof.
  exact (fun A G gshape m a ka kb locals r Hm Hr Ha Hb Hab Hl =>
    RedProofs.redistribute_share A G gshape m a _ ka kb locals r Hm Hr Ha
      (conj Hb (or_intror eq_refl)) (or_introl Hab) Hl).
Qed.
Print Assumptions C77_redistribute_negative_other_partial.

(** An axis number that names nothing is refused, whatever the number of
    ranks. *)
Theorem C77_redistribute_missing_axis : forall A gshape m a b (locals : nat -> nd (option A)) r,
  a <> b -> (forall k, ~ Names (length gshape) b k) ->
  redistribute gshape m a b locals r = Err (if m =? 1 then AxisException else IndexError).
Proof. exact RedProofs.redistribute_missing. Qed.
Print Assumptions C77_redistribute_missing_axis.

Example C77_example :
  redistribute [4] 2 0 (-1) (ex_locals 0 2 [4]) 1 = Err ValueError
  /\ redistribute [4] 1 0 2 (ex_locals 0 1 [4]) 0 = Err AxisException
  /\ entries (redistribute [3; 5] 3 0 (-1) (ex_locals 0 3 [3; 5]) 1) [[0; 0]; [2; 1]] = [Some 2; Some 23].
Proof. split; [|split]; vm_compute; reflexivity. Qed.
