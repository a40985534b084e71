(** Specifications for C64 and C95. *)
From Coq Require Import String.
From Coq Require Import List Ascii Bool Arith.
From Verif Require Import PyBase PyStr ZipModel.
Import ListNotations.
Open Scope list_scope.
Open Scope nat_scope.

(** [rank] is the lowest one on its host. *)
Definition Lowest (hosts : list str) (rank : nat) : Prop :=
  exists h, nth_error hosts rank = Some h /\ forall r, r < rank -> nth_error hosts r <> Some h.
(** The names of the archives differ from each other. *)
Definition archive (c : str) : str := c ++ s_ ".zip".
Definition zarr_name (c : str) : Prop := exists t, c = t ++ s_ ".zarr".
