(** Specification for whole containers of time-ordered data. *)
From Coq Require Import String.
From Coq Require Import List Ascii Bool Arith ZArith Permutation.
From Verif Require Import PyBase PyStr MemModel AttrModel TodModel TodSpec TxModel.
Import ListNotations.
Open Scope list_scope.
Open Scope nat_scope.

(** Everything in a tree. *)
Fixpoint flatten (e : entry) : list entry :=
  e :: match e with
       | EDset _ _ => []
       | EGroup _ kids => flat_map (fun p => flatten (snd p)) kids
       end.
(** Names are absolute. *)
Definition Absolute (e : entry) : Prop := forall x, In x (flatten e) -> exists r, ename x = slash :: r.
(** A dataset along one of the axes. *)
Definition OnAxis (axes : list str) (e : entry) : Prop :=
  exists n a x, e = EDset n a /\ In x a /\ In x axes.

(** The first of the axes of a dataset that is a time axis. *)
Definition TimeAxis (axes ax : list str) (a : str) : Prop :=
  exists before rest, ax = before ++ a :: rest /\ In a axes /\ forall b, In b before -> ~ In b axes.
Definition axes_of {V} (d : dset V) : list str := match d_axis d with Some l => l | None => [] end.
Definition NoTimeAxis {V} (axes : list str) (d : dset V) : Prop := forall b, In b (axes_of d) -> ~ In b axes.

(** The index map of an axis and the rows of a dataset in one container. *)
Definition index_of {V} (a : str) (x : tod V) : list V := match dget a (x_index x) with Some l => l | None => [] end.
Definition rows_of {V} (n : str) (x : tod V) : list V := match dget n (x_dsets x) with Some d => d_rows d | None => [] end.
Definition whole_index {V} (a : str) (files : list (tod V)) : list V := flat_map (index_of a) files.
Definition whole_rows {V} (n : str) (files : list (tod V)) : list V := flat_map (rows_of n) files.

(** Containers that may be concatenated: each has the index maps of the time
    axes, they have the same datasets along the same axes, and a dataset is as
    long as its axis. *)
Definition Compatible {V} (axes : list str) (first : tod V) (files : list (tod V)) : Prop :=
  (forall x, In x files -> NoDup (map fst (x_dsets x)) /\ NoDup (map fst (x_index x))) /\
  (forall x a, In x files -> In a axes -> exists l, dget a (x_index x) = Some l) /\
  (forall x n, In x files -> In n (map fst (x_dsets x)) -> In n (map fst (x_dsets first))) /\
  (forall x n d, In x files -> dget n (x_dsets first) = Some d ->
     exists d', dget n (x_dsets x) = Some d' /\ d_axis d' = d_axis d) /\
  (forall x n d a, In x files -> dget n (x_dsets x) = Some d -> TimeAxis axes (axes_of d) a ->
     length (d_rows d) = length (index_of a x)).

(** The bounds asked for along an axis. *)
Definition asked (b : bound_arg) (a : str) : option Z :=
  match b with Scalar z => z | Mapping m => match dget a m with Some v => v | None => None end end.
(** They are in the range and in order. *)
Definition BoundsOk {V} (axes : list str) (files : list (tod V)) (start stop : bound_arg) : Prop :=
  forall a, In a axes ->
    StartIn (length (whole_index a files)) (asked start a) /\
    InOrder (length (whole_index a files)) (asked start a) (asked stop a).
Definition Wanted (datasets : option (list str)) (n : str) : Prop :=
  match datasets with None => True | Some l => In n l end.
