(** Specification for reading several files at once, and for reading them in pieces. *)
From Coq Require Import String.
From Coq Require Import List Ascii Bool Arith ZArith Sorted.
From Verif Require Import PyBase PyStr MemModel TodModel TodSpec TxModel TxSpec.
Import ListNotations.
Open Scope list_scope.

(** The containers in the files of these names. *)
Definition Opens {V} (open : str -> res (tod V)) (names : list str) (l : list (tod V)) : Prop :=
  Forall2 (fun n x => open n = Ok x) names l.
(** The rows of a dataset of the result; none if it is absent. *)
Definition rows_out {V} (n : str) (o : out V) : list (option V) :=
  match dget n (o_dsets o) with Some q => od_rows q | None => [] end.
(** Three bounds one behind the other along each axis. *)
Definition Between {V} (axes : list str) (files : list (tod V)) (lo mid hi : bound_arg) : Prop :=
  forall a, In a axes -> exists i j k, asked lo a = Some i /\ asked mid a = Some j /\ asked hi a = Some k /\
    (0 <= i <= j)%Z /\ (j <= k)%Z /\ (j <= Z.of_nat (length (whole_index a files)))%Z.
