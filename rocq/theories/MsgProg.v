(** The programs of the ranks (see [MsgModel]). *)
From Coq Require Import List Arith ZArith Bool.
From Verif Require Import PyBase PartModel SliceModel RedModel MsgModel.
Import ListNotations.
Open Scope nat_scope.

(** * mpiarray.py lines 784-852, [MPIArray.redistribute]

    Buffers of a rank: [base] the send buffer, [base + 1] the receive buffer,
    [base + 2] the target array, [self] the local array.  The blocks of line 798
    are views of the local array.  Sendrecv (lines 827-835) starts a receive and a
    send and waits for both.  An exception ([Err]) is the content of a buffer
    here; the code would stop. *)
Section RedistributeProg.
  Context {A : Type} (gshape : list nat) (csize ka kb : nat) (sac eac sar ear : list nat).
  Variables (base self : nat).
  Definition cell : Type := res (nd (option A)).
  Definition no_cell : cell := Err OtherException.

  Definition red_init (r : nat) : op cell :=
    Local [] [base; base + 1; base + 2]
      (fun _ => [Ok (nd_empty (buffer_shape gshape ka kb sac eac sar ear r));
                 Ok (nd_empty (buffer_shape gshape ka kb sac eac sar ear r));
                 Ok (nd_empty (target_shape gshape kb sac eac r))]).
  (** Lines 820-822. *)
  Definition red_fill (r i : nat) : op cell :=
    let st := send_to csize r i in
    let sendsl := RedModel.upd (RedModel.upd full_box ka (0, nth r ear 0 - nth r sar 0))
                      kb (0, nth st eac 0 - nth st sac 0) in
    Local [base; self] [base] (fun l =>
      [rbind (nth 0 l no_cell) (fun sb => rbind (nth 1 l no_cell) (fun me =>
       assign sb sendsl (array_split me (nth 0 sac 0 :: eac) kb (st + 1))))]).
  (** Lines 846-850. *)
  Definition red_store (r i : nat) : op cell :=
    let q := recv_from csize r i in
    let targetsl := RedModel.upd full_box ka (nth q sar 0, nth q ear 0) in
    let recvsl := RedModel.upd (RedModel.upd full_box kb (0, nth r eac 0 - nth r sac 0))
                      ka (0, nth q ear 0 - nth q sar 0) in
    Local [base + 2; base + 1] [base + 2] (fun l =>
      [rbind (nth 0 l no_cell) (fun t => rbind (nth 1 l no_cell) (fun rb =>
       assign t targetsl (view rb recvsl)))]).
  Definition red_step (i r : nat) : list (op cell) :=
    [red_fill r i;
     Irecv 0 (recv_from csize r i) (Some (recv_tag csize r i)) (base + 1);
     Isend 1 (send_to csize r i) (send_tag csize r i) base;
     Wait 0; Wait 1;
     red_store r i].
  Definition redistribute_prog (r : nat) : list (op cell) :=
    red_init r :: flat_map (fun i => red_step i r) (seq 0 csize).
End RedistributeProg.

(** Redistributions one after the other: the [j]-th from axis [axes j] to axis
    [axes (j + 1)].  Buffer 0 holds the array at first, buffer [3 j] the result
    of [j] redistributions. *)
Definition splits (gshape : list nat) (csize ax : nat) : list nat * list nat :=
  match split_all (nth ax gshape 0) csize with Ok (_, s, e) => (s, e) | Err _ => ([], []) end.
Definition redistribute_seq {A} (gshape : list nat) (csize : nat) (axes : nat -> nat) (m r : nat)
  : list (op (@cell A)) :=
  flat_map (fun j =>
    let c := splits gshape csize (axes (j + 1)) in
    let w := splits gshape csize (axes j) in
    redistribute_prog gshape csize (axes j) (axes (j + 1)) (fst c) (snd c) (fst w) (snd w)
      (3 * j + 1) (3 * j) r) (seq 0 m).

(** * mpitools.py lines 774-837, [transpose_blocks]

    [block p q] is the part of rank [p] for rank [q], buffer [q] of rank [p]; buffer
    [n + p] of rank [q] is the part [sar[p]:ear[p]] of its receive buffer. *)
Section TransposeProg.
  Context {D : Type} (n : nat) (block : nat -> nat -> D).
  (** Lines 785-806, on rank [r]. *)
  Definition tr_start (r ir ic : nat) : list (op D) :=
    (if r =? ir then [Local [] [ic] (fun _ => [block ir ic]); Isend ic ic (transpose_tag n ir ic) ic] else [])
    ++ (if r =? ic then [Irecv (n + ir) ir (Some (transpose_tag n ir ic)) (n + ir)] else []).
  Definition transpose_prog (r : nat) : list (op D) :=
    flat_map (fun ir => flat_map (tr_start r ir) (seq 0 n)) (seq 0 n)
    ++ [Barrier] ++ map Wait (seq 0 n) ++ [Barrier] ++ map (fun ir => Wait (n + ir)) (seq 0 n).
End TransposeProg.

(** * mpitools.py lines 619-649, [gather_local]

    After the sizes and starts have been gathered (lines 614-615, not
    modelled).  Buffer 0 is the local array, buffer [1 + i] on the root the section
    of the global array for rank [i]; the sections do not overlap. *)
Section GatherLocalProg.
  Context {D : Type} (n : nat) (nonempty : nat -> bool).
  Definition gather_local_prog (root r : nat) : list (op D) :=
    (if nonempty r then [Isend 0 root 0 0] else [])
    ++ (if r =? root then
          map (fun i => Irecv (1 + i) i (Some 0) (1 + i)) (filter nonempty (seq 0 n))
          ++ map (fun i => Wait (1 + i)) (filter nonempty (seq 0 n))
        else [])
    ++ (if nonempty r then [Wait 0] else []).
  (** memdata/_memh5.py lines 990-999: [dataset_distributed_to_common] makes every
      rank the root once, without waiting in between. *)
  Definition to_common_prog (r : nat) : list (op D) :=
    flat_map (fun root => gather_local_prog root r) (seq 0 n).
End GatherLocalProg.

(** * debug.py lines 38-68, [CheckMPIEnvironment.setup]

    Buffer 0 is [sends[rank]], buffer [1 + p] is [recvs[p]].  The sends are never
    waited for.  The loop of lines 49-55 waits for all receives; that it gives up
    after [timeout] seconds is not modelled. *)
Definition check_prog {D} (n r : nat) : list (op D) :=
  flat_map (fun i => [Irecv i (recv_from n r i) None (1 + recv_from n r i);
                      Isend (n + i) (send_to n r i) 0 0]) (seq 0 n)
  ++ map Wait (seq 0 n) ++ [Barrier].

(** * mpiarray.py lines 1541-1579, [MPIArray.gather]

    Buffer 0 is the local array, on the root buffer [1 + ri] the array [tbuf] of
    step [ri] and [1 + n + ri] the part [s:e] of the result.  In the step of the
    root itself both waits (lines 1559 and 1569) are for the send. *)
Section GatherProg.
  Context {D : Type} (blank : D) (n root : nat).
  Definition gather_step (r ri : nat) : list (op D) :=
    (if r =? root then [Irecv (1 + ri) ri None (1 + ri)] else [])
    ++ (if r =? ri then [Isend 0 root 0 0; Wait 0] else [])
    ++ (if r =? root then [Wait (if ri =? root then 0 else 1 + ri);
                           Local [1 + ri] [1 + n + ri] (fun l => [nth 0 l blank])] else []).
  Definition gather_prog (r : nat) : list (op D) := flat_map (gather_step r) (seq 0 n).
End GatherProg.
