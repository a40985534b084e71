(** Specifications for the partitioning properties C01-C07, C09. *)
From Coq Require Import List Arith.
Import ListNotations.

(** Length and start of part [i] when [n] items are dealt evenly to [m] parts,
    the longer parts first. *)
Definition part_of (n m i : nat) : nat := n / m + (if i <? n mod m then 1 else 0).
Definition start_of (n m i : nat) : nat := i * (n / m) + Nat.min i (n mod m).

(** C01: a table of [m] part lengths, starts and ends that tiles [0, n)
    evenly. *)
Record EvenSplit (n m : nat) (part start stop : list nat) : Prop := {
  es_len_part : length part = m;
  es_len_start : length start = m;
  es_len_stop : length stop = m;
  es_first : forall s, nth_error start 0 = Some s -> s = 0;
  es_last : forall e, nth_error stop (m - 1) = Some e -> e = n;
  es_contiguous : forall i e s,
    nth_error stop i = Some e -> nth_error start (S i) = Some s -> s = e;
  es_width : forall i p s e,
    nth_error part i = Some p -> nth_error start i = Some s ->
    nth_error stop i = Some e -> s <= e /\ e = s + p;
  es_even : forall i j p q, i <= j ->
    nth_error part i = Some p -> nth_error part j = Some q -> q <= p <= q + 1
}.

(** Every index below [n] lies in exactly one of the intervals. *)
Definition OwnedOnce (n : nat) (start stop : list nat) : Prop :=
  forall x, x < n ->
  exists i, (exists s e, nth_error start i = Some s /\ nth_error stop i = Some e
                         /\ s <= x < e)
  /\ forall j s e, nth_error start j = Some s -> nth_error stop j = Some e ->
     s <= x < e -> j = i.

(** C07: [u] keeps the first occurrence of each element of [x], in order:
    position [k] of [x] is kept iff nothing equal stands before it. *)
Definition first_occurrence {A} (x : list A) (k : nat) : Prop :=
  exists a, nth_error x k = Some a /\ forall j, j < k -> nth_error x j <> Some a.

Definition FirstOccurrences {A} (x u : list A) : Prop :=
  exists pos : list nat,
    (forall i j a b, i < j -> nth_error pos i = Some a -> nth_error pos j = Some b -> a < b)
    /\ (forall k, In k pos <-> first_occurrence x k)
    /\ length u = length pos
    /\ forall i k, nth_error pos i = Some k -> nth_error u i = nth_error x k.
