(** Specifications for redistribution and gathering (C21-C23). *)
From Coq Require Import List Arith ZArith.
From Verif Require Import PyBase PartSpec SliceModel RedModel.
Import ListNotations.
Open Scope nat_scope.

(** The multi-index lies inside the shape. *)
Definition InShape (idx sh : list nat) : Prop := Forall2 lt idx sh.

(** The index with [n] added on axis [k]. *)
Definition shift (k n : nat) (idx : list nat) : list nat := set_nth k (nth k idx 0 + n) idx.

(** [arr] is the share of rank [r] of the global array [G] of shape [gshape]
    distributed over [axis] on [size] ranks: the even split of that axis. *)
Definition IsShare {A} (G : list nat -> A) (gshape : list nat) (size axis r : nat)
    (arr : nd (option A)) : Prop :=
  shp arr = set_nth axis (part_of (nth axis gshape 0) size r) gshape
  /\ forall idx, InShape idx (shp arr) ->
       elt arr idx = Some (G (shift axis (start_of (nth axis gshape 0) size r) idx)).

(** [arr] is the whole array. *)
Definition IsWhole {A} (G : list nat -> A) (gshape : list nat) (arr : nd (option A)) : Prop :=
  shp arr = gshape /\ forall idx, InShape idx gshape -> elt arr idx = Some (G idx).

(** The axis number [a] (possibly negative) of an [ndim]-dimensional array
    names position [k]. *)
Definition Names (ndim : nat) (a : Z) (k : nat) : Prop :=
  (k < ndim)%nat /\ (a = Z.of_nat k \/ a = Z.of_nat k - Z.of_nat ndim)%Z.
