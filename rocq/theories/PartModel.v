(** Model of the list and index partitioning helpers.
    Sources: /repo/caput/util/arraytools.py and /repo/caput/util/mpitools.py. *)
From Coq Require Import List Arith Bool.
From Verif Require Import PyBase.
Import ListNotations.

(** caput/util/arraytools.py lines 102-132, [split_m].  Rows of the returned
    (3, m) array are returned as a triple of lists.  Simplified: [n], [m] are
    natural numbers; [m = 0] divides by zero. *)
Definition split_m (n m : nat) : res (list nat * list nat * list nat) :=
  if m =? 0 then Err ZeroDivisionError else
  let base := n / m in
  let rem := n mod m in
  let part := map (fun i => base * 1 + (if i <? rem then 1 else 0)) (seq 0 m) in
  let bound := cumsum (0 :: part) in
  Ok (part, firstn m bound, lslice 1 (m + 1) bound).

(** caput/util/arraytools.py lines 76-84, the nested [_partition]. *)
Definition partition_bounds (N n i : nat) : res (nat * nat) :=
  if n =? 0 then Err ZeroDivisionError else
  let base := N / n in
  let rem := N mod n in
  let num_lst := repeat (base + 1) rem ++ repeat base (n - rem) in
  let cum_num_lst := cumsum (0 :: num_lst) in
  match nth_error cum_num_lst i, nth_error cum_num_lst (i + 1) with
  | Some a, Some b => Ok (a, b)
  | _, _ => Err IndexError
  end.

Inductive method := Con | Alt | Rand | OtherMethod.

(** caput/util/arraytools.py lines 50-99, [partition_list].  [perm] is the
    value returned by [np.random.permutation(N)] in this process.  Simplified:
    the index [i] is a natural number. *)
Definition partition_list {A} (perm : list nat) (full_list : list A) (i n : nat)
    (m : method) : res (list A) :=
  match partition_bounds (length full_list) n i with
  | Err e => Err e
  | Ok (start, stop) =>
      match m with
      | Con => Ok (lslice start stop full_list)
      | Alt => Ok (pick full_list (nrange i (length full_list) n))
      | Rand => Ok (pick full_list (lslice start stop perm))
      | OtherMethod => Err ValueError
      end
  end.

(** caput/util/mpitools.py lines 463-493, [partition_list_mpi]: the sub-list
    for one rank of a communicator of [size] ranks.  ([comm=None] is the
    communicator with rank 0 and size 1.) *)
Definition partition_list_mpi {A} (perm : list nat) (full_list : list A) (m : method)
    (rank size : nat) : res (list A) :=
  partition_list perm full_list rank size m.

(** caput/util/mpitools.py lines 496-503, [mpirange(a, b, s)], for a positive
    step and non-negative arguments. *)
Definition mpirange (perm : list nat) (a b s : nat) (m : method) (rank size : nat)
  : res (list nat) :=
  partition_list_mpi perm (nrange a b s) m rank size.

(** caput/util/mpitools.py lines 506-531, [split_all]. *)
Definition split_all (n size : nat) := split_m n size.

(** caput/util/mpitools.py lines 534-562, [split_local]: column [rank] of the
    table. *)
Definition split_local (n rank size : nat) : res (nat * nat * nat) :=
  match split_all n size with
  | Err e => Err e
  | Ok (part, s, e) =>
      match nth_error part rank, nth_error s rank, nth_error e rank with
      | Some p, Some a, Some b => Ok (p, a, b)
      | _, _, _ => Err IndexError
      end
  end.

(** caput/util/arraytools.py lines 135-152, [unique_ordered].  [eqb] is the
    equality used by the Python set. *)
Section Unique.
  Context {A : Type} (eqb : A -> A -> bool).
  Fixpoint unique_loop (seen : list A) (x : list A) : list A :=
    match x with
    | [] => []
    | i :: t => if existsb (eqb i) seen then unique_loop seen t
                else i :: unique_loop (i :: seen) t
    end.
  Definition unique_ordered (x : list A) : list A := unique_loop [] x.
End Unique.

(** A rank-indexed family of results, all of which must succeed. *)
Fixpoint rsequence {A} (l : list (res A)) : res (list A) :=
  match l with
  | [] => Ok []
  | Err e :: _ => Err e
  | Ok a :: t => match rsequence t with Ok r => Ok (a :: r) | Err e => Err e end
  end.

(** caput/util/mpitools.py lines 652-722, [parallel_map] run collectively on
    [size] ranks; [perms r] is the permutation drawn by rank [r] (used by
    method rand only).  The value returned on rank [r].  Barriers carry no
    data and are omitted; [allgather]/[gather] return the list of the
    contributions in rank order. *)
Definition parallel_map {A B} (f : A -> B) (glist : list A) (root : option nat)
    (m : method) (perms : nat -> list nat) (size : nat) (rank : nat)
    : res (option (list B)) :=
  if size <=? 1 then Ok (Some (map f glist)) else
  let zlist := enumerate glist in
  let flist r :=
    match partition_list_mpi (perms r) zlist m r size with
    | Ok llist => Ok (map (fun p => (fst p, f (snd p))) llist)
    | Err e => Err e
    end in
  match rsequence (map flist (seq 0 size)) with
  | Err e => Err e
  | Ok gathered =>
      let rlist := match root with
                   | None => Some gathered
                   | Some rt => if rank =? rt then Some gathered else None
                   end in
      match rlist with
      | Some rl =>
          let flatlist := concat rl in
          let sortlist := py_sorted (fun a b => fst a <=? fst b) flatlist in
          Ok (Some (map snd sortlist))
      | None => Ok None
      end
  end.

(** ** transpose_blocks *)

(** Columns [a, b) of a list of rows. *)
Definition cols {A} (a b : nat) (rows : list (list A)) : list (list A) :=
  map (lslice a b) rows.

(** Overwrite the rows of [buf] from position [a] with [block] (the effect of
    receiving into [recv_buffer[a:a+len(block)]]). *)
Definition set_rows {A} (a : nat) (block buf : list A) : list A :=
  firstn a buf ++ block ++ skipn (a + length block) buf.

(** caput/util/mpitools.py lines 747-836, [transpose_blocks], with the middle axes already flattened into rows as the [reshape]
    on line 770 does: [locals] holds, for each rank, its rows.  [nr], [nc] are
    the first and last entries of [shape] and [nm] the product of the middle
    ones.  The message sent by rank [ir] to rank [ic] is the block of columns
    of [ic]; it is received into rows [sar[ir]..ear[ir]).  The receive buffer
    starts uninitialised ([None]).  The [reshape] fails if a rank does not
    hold its share of the rows. *)
Definition transpose_blocks {A} (locals : list (list (list A))) (nr nc nm : nat)
    (size : nat) (rank : nat) : res (list (option (list A))) :=
  if size <=? 1 then
    (* lines 747-758 *)
    let rows := nth 0 locals [] in
    if length rows =? nr * nm then Ok (map Some (map (firstn nc) rows))
    else Err ValueError
  else
  match split_all nr size, split_all nc size with
  | Ok (pr, sar, ear), Ok (pc, sac, eac) =>
      let trimmed := map (map (firstn nc)) locals in
      if forallb (fun ir => length (nth ir trimmed []) =? nth ir pr 0 * nm) (seq 0 size)
      then
        let recv ir buf :=
          let block := cols (nth rank sac 0) (nth rank eac 0) (nth ir trimmed []) in
          set_rows (nth ir sar 0 * nm) (map Some block) buf in
        Ok (fold_left (fun buf ir => recv ir buf) (seq 0 size) (repeat None (nr * nm)))
      else Err ValueError
  | _, _ => Err ZeroDivisionError
  end.

(** The tag of the message from rank [ir] to rank [ic] (line 790). *)
Definition transpose_tag (size ir ic : nat) : nat := ir * size + ic.

(** ** Parallel row writes *)

(** A regular file as its bytes; writing past the end extends it.  [os.write]
    on a freshly opened descriptor writes at position 0. *)
Definition write_at {A} (pos : nat) (data file : list A) (pad : A) : list A :=
  firstn pos (file ++ repeat pad (pos - length file)) ++ data
  ++ skipn (pos + length data) file.

(** caput/util/mpitools.py lines 906-943, [lock_and_write_buffer].  The buffer
    object is [len(buf)] entries along its first axis and [bytes] its raw
    content.  The descriptor position is 0 after [os.open]; the lock region
    [offset, size] does not move it.  The two [raise] branches are kept; the
    file content is returned as left on disk. *)
Definition lock_and_write_buffer {A} (pad : A) (buf_len : nat) (bytes : list A)
    (file : list A) (offset size : nat) : list A * option exn :=
  if size <? buf_len then (file, Some OtherException) else
  let file' := write_at 0 bytes file pad in
  let nb := length bytes in
  if negb (nb =? buf_len) then (file', Some OtherException) else (file', None).

(** caput/util/mpitools.py lines 946-962, [parallel_rows_write_hdf5]: the call
    made by one rank.  [offset] is the file offset of the allocated dataset.
    [rowbytes] are the raw bytes of the local rows, [lr] rows of [nc] items. *)
Definition parallel_rows_write_rank {A} (pad : A) (file : list A) (offset nrows nc : nat)
    (rank size : nat) (local_bytes : list A) : list A * option exn :=
  match split_local nrows rank size with
  | Ok (lr, sr, _) =>
      lock_and_write_buffer pad lr local_bytes file (offset + sr * nc) (lr * nc)
  | Err e => (file, Some e)
  end.
