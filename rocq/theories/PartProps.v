(** Property theorems: partitioning (C01-C07, C09). *)
From Coq Require Import List Arith Lia Bool Permutation.
From Verif Require Import PyBase PartModel PartSpec PartProofs PartProps0.
Import ListNotations.

(** C01 *)
Theorem C01_split_m_even : forall n m, 1 <= m ->
  exists part start stop, split_m n m = Ok (part, start, stop)
    /\ EvenSplit n m part start stop.
Proof. exact PartProps0.split_m_even_pos. Qed.
Print Assumptions C01_split_m_even.

Theorem C01_zero_parts_raises : forall n, split_m n 0 = Err ZeroDivisionError.
Proof. exact PartProps0.split_m_zero. Qed.
Print Assumptions C01_zero_parts_raises.

Example C01_example : split_m 10 4 = Ok ([3; 3; 2; 2], [0; 3; 6; 8], [3; 6; 8; 10]).
Proof. reflexivity. Qed.
Example C01_example_short : split_m 2 4 = Ok ([1; 1; 0; 0], [0; 1; 2; 2], [1; 2; 2; 2]).
Proof. reflexivity. Qed.

(** C02 *)
Theorem C02_con_concatenates : forall A perm (l : list A) n, 1 <= n ->
  exists ps, rsequence (map (fun i => partition_list perm l i n Con) (seq 0 n)) = Ok ps
             /\ length ps = n /\ concat ps = l.
Proof. exact PartProps0.con_all. Qed.
Print Assumptions C02_con_concatenates.

Theorem C02_alt_positions : forall A perm (l : list A) i n, i < n ->
  exists p, partition_list perm l i n Alt = Ok p
    /\ forall k, nth_error p k = nth_error l (i + k * n).
Proof. exact PartProps0.alt_positions. Qed.
Print Assumptions C02_alt_positions.

(** Each position [x] is position [k] of piece [i] for exactly one [(i, k)]. *)
Theorem C02_alt_exactly_once : forall n x, 1 <= n ->
  exists i k, i < n /\ x = i + k * n /\
    forall i' k', i' < n -> x = i' + k' * n -> i' = i /\ k' = k.
Proof. exact PartProps0.alt_once. Qed.
Print Assumptions C02_alt_exactly_once.

Theorem C02_alt_permutes : forall A perm (l : list A) n, 1 <= n ->
  exists ps, rsequence (map (fun i => partition_list perm l i n Alt) (seq 0 n)) = Ok ps
             /\ Permutation (concat ps) l.
Proof. exact PartProps0.alt_perm. Qed.
Print Assumptions C02_alt_permutes.

Theorem C02_unknown_method : forall A perm (l : list A) i n, i < n ->
  partition_list perm l i n OtherMethod = Err ValueError.
Proof. exact PartProps0.unknown_method. Qed.
Print Assumptions C02_unknown_method.

Theorem C02_index_out_of_range : forall A perm (l : list A) i n m, 1 <= n -> n <= i ->
  partition_list perm l i n m = Err IndexError.
Proof. exact PartProps0.index_out_of_range. Qed.
Print Assumptions C02_index_out_of_range.

Example C02_example_con :
  map (fun i => partition_list [] [10;11;12;13;14] i 3 Con) [0;1;2]
  = [Ok [10;11]; Ok [12;13]; Ok [14]].
Proof. reflexivity. Qed.
Example C02_example_alt :
  map (fun i => partition_list [] [10;11;12;13;14] i 3 Alt) [0;1;2]
  = [Ok [10;13]; Ok [11;14]; Ok [12]].
Proof. reflexivity. Qed.

(** C03: the intervals of the ranks own every index exactly once, the local
    view is the column of the global table, and [mpirange] deals each value of
    the range to exactly one rank. *)
Theorem C03_owned_once : forall n size, 1 <= size ->
  exists part start stop, split_all n size = Ok (part, start, stop)
    /\ OwnedOnce n start stop
    /\ forall rank, rank < size -> exists p s e,
         split_local n rank size = Ok (p, s, e)
         /\ nth_error part rank = Some p /\ nth_error start rank = Some s
         /\ nth_error stop rank = Some e /\ p = e - s.
Proof. exact PartProps0.owned_once. Qed.
Print Assumptions C03_owned_once.

Theorem C03_mpirange_partition : forall perm a b s m size, 1 <= size -> 1 <= s ->
  m = Con \/ m = Alt ->
  exists ps, rsequence (map (fun r => mpirange perm a b s m r size) (seq 0 size)) = Ok ps
    /\ NoDup (concat ps)
    /\ forall x, In x (concat ps) <-> (a <= x < b /\ exists k, x = a + k * s).
Proof. exact PartProps0.mpirange_partition. Qed.
Print Assumptions C03_mpirange_partition.

(** For "con", rank [r] gets exactly the values at positions [s, e) of the
    range, with [s], [e] the ones [split_local] reports. *)
Theorem C03_con_matches_split_local : forall A perm (l : list A) rank size, rank < size ->
  exists p s e, split_local (length l) rank size = Ok (p, s, e)
    /\ partition_list_mpi perm l Con rank size = Ok (firstn (e - s) (skipn s l)).
Proof. exact PartProps0.con_matches_local. Qed.
Print Assumptions C03_con_matches_split_local.

Example C03_example :
  map (fun r => mpirange [] 3 20 4 Con r 2) [0; 1] = [Ok [3; 7; 11]; Ok [15; 19]]
  /\ split_local 17 2 4 = Ok (4, 9, 13).
Proof. split; reflexivity. Qed.

(** C04 *)
Theorem C04_parallel_map_is_map : forall A B (f : A -> B) (l : list A) m perms size rank,
  1 <= size -> m = Con \/ m = Alt ->
  parallel_map f l None m perms size rank = Ok (Some (map f l)).
Proof. exact PartProps0.parallel_map_all. Qed.
Print Assumptions C04_parallel_map_is_map.

Theorem C04_parallel_map_root : forall A B (f : A -> B) (l : list A) m perms size rank root,
  2 <= size -> m = Con \/ m = Alt ->
  parallel_map f l (Some root) m perms size rank =
  Ok (if rank =? root then Some (map f l) else None).
Proof. exact PartProps0.parallel_map_root. Qed.
Print Assumptions C04_parallel_map_root.

Example C04_example :
  parallel_map S [5;6;7;8;9] None Alt (fun _ => []) 3 1 = Ok (Some [6;7;8;9;10]).
Proof. reflexivity. Qed.

(** C05 is false: two ranks that draw different permutations compute one item
    twice and lose the other. *)
Theorem C05_parallel_map_rand_refuted :
  exists (l : list nat) perms size,
    1 <= size
    /\ (forall r, Permutation (perms r) (seq 0 (length l)))
    /\ forall rank, parallel_map (fun x => x) l None Rand perms size rank
       <> Ok (Some (map (fun x => x) l)).
Proof. exact PartProps0.rand_refuted. Qed.
Print Assumptions C05_parallel_map_rand_refuted.

(** True when all ranks draw the same permutation (e.g. seeded alike). *)
Theorem C05_parallel_map_rand_shared_partial :
  forall A B (f : A -> B) (l : list A) perm size rank,
  1 <= size -> Permutation perm (seq 0 (length l)) ->
  parallel_map f l None Rand (fun _ => perm) size rank = Ok (Some (map f l)).
Proof. exact PartProps0.rand_shared. Qed.
Print Assumptions C05_parallel_map_rand_shared_partial.

Example C05_example :
  parallel_map (fun x => x) [7; 8] None Rand
    (fun r => if r =? 0 then [0; 1] else [1; 0]) 2 0 = Ok (Some [7; 7])
  /\ parallel_map (fun x => x) [7; 8; 9] None Rand (fun _ => [2; 0; 1]) 2 0
     = Ok (Some [7; 8; 9]).
Proof. split; reflexivity. Qed.

(** C06: [M] is the list of global rows (middle axes flattened); rank [r]
    holds rows [start_r*nm, stop_r*nm). *)
Theorem C06_transpose_blocks : forall A (M : list (list A)) nr nc nm size part start stop,
  1 <= size -> split_m nr size = Ok (part, start, stop) ->
  length M = nr * nm ->
  let locals := map (fun r => firstn (nth r part 0 * nm) (skipn (nth r start 0 * nm) M))
                    (seq 0 size) in
  exists blocks,
    rsequence (map (fun r => transpose_blocks locals nr nc nm size r) (seq 0 size))
      = Ok (map (map Some) blocks)
    /\ (forall b, In b blocks -> length b = nr * nm)
    /\ (forall k row, nth_error M k = Some row ->
          concat (map (fun b => nth k b []) blocks) = firstn nc row)
    /\ (forall r b, nth_error blocks r = Some b -> (forall row, In row M -> nc <= length row) ->
          exists p s e, split_local nc r size = Ok (p, s, e)
          /\ forall row, In row b -> length row = p).
Proof. exact PartProps0.transpose_global. Qed.
Print Assumptions C06_transpose_blocks.

Theorem C06_tags_distinct : forall size ir ic ir' ic', ic < size -> ic' < size ->
  transpose_tag size ir ic = transpose_tag size ir' ic' -> ir = ir' /\ ic = ic'.
Proof. exact PartProofs.transpose_tag_inj. Qed.
Print Assumptions C06_tags_distinct.

Example C06_example :
  map (transpose_blocks [[[1;2;3];[4;5;6]]; [[7;8;9]]] 3 3 1 2) [0; 1]
  = [Ok [Some [1;2]; Some [4;5]; Some [7;8]]; Ok [Some [3]; Some [6]; Some [9]]].
Proof. reflexivity. Qed.

(** C07 *)
Theorem C07_unique_ordered : forall A (eqb : A -> A -> bool),
  (forall x y, eqb x y = true <-> x = y) ->
  forall x, FirstOccurrences x (unique_ordered eqb x).
Proof. exact PartProps0.unique_first. Qed.
Print Assumptions C07_unique_ordered.

Theorem C07_unique_ordered_set : forall A (eqb : A -> A -> bool),
  (forall x y, eqb x y = true <-> x = y) ->
  forall x, NoDup (unique_ordered eqb x)
    /\ forall a, In a (unique_ordered eqb x) <-> In a x.
Proof. exact PartProps0.unique_set. Qed.
Print Assumptions C07_unique_ordered_set.

Example C07_example : unique_ordered Nat.eqb [3;1;3;2;1;0;2] = [3;1;2;0].
Proof. reflexivity. Qed.

(** C09 is false: the descriptor is never positioned, so the data overwrite
    the start of the file whatever the requested offset. *)
Theorem C09_rows_written_refuted :
  exists (file : list nat) offset nrows nc data,
    let '(file', err) := parallel_rows_write_rank 0 file offset nrows nc 0 1 data in
    err = None
    /\ length data = nrows * nc
    /\ file' <> firstn offset file ++ data ++ skipn (offset + length data) file.
Proof. exact PartProps0.rows_refuted. Qed.
Print Assumptions C09_rows_written_refuted.

Theorem C09_always_overwrites_file_start : forall A (pad : A) buf_len bytes file offset size file',
  lock_and_write_buffer pad buf_len bytes file offset size = (file', None) ->
  firstn (length bytes) file' = bytes /\ skipn (length bytes) file' = skipn (length bytes) file.
Proof. exact PartProps0.overwrites_start. Qed.
Print Assumptions C09_always_overwrites_file_start.

(** Items wider than one byte (more bytes than entries on the first axis)
    always end in an exception. *)
Theorem C09_multibyte_rows_raise : forall A (pad : A) buf_len bytes file offset size,
  length bytes <> buf_len ->
  exists file', lock_and_write_buffer pad buf_len bytes file offset size
                = (file', Some OtherException).
Proof. exact PartProps0.multibyte_raises. Qed.
Print Assumptions C09_multibyte_rows_raise.

(** The only situation where the write is right: dataset at offset 0, one
    rank, one byte per row. *)
Theorem C09_rows_written_partial : forall A (pad : A) file nrows nc data,
  1 <= nc -> length data = nrows ->
  parallel_rows_write_rank pad file 0 nrows nc 0 1 data
  = (data ++ skipn (length data) file, None).
Proof. exact PartProps0.rows_partial. Qed.
Print Assumptions C09_rows_written_partial.

Example C09_example :
  parallel_rows_write_rank 0 [1;2;3;4;5;6] 2 4 1 0 1 [11;12;13;14]
  = ([11;12;13;14;5;6], None).
Proof. reflexivity. Qed.
