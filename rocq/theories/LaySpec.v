(** Arrays in memory and what gathering them should give, C297-C302. *)
From Coq Require Import List Arith ZArith.
From Verif Require Import RedModel RedSpec ArrModel ArrSpec LayModel.
Import ListNotations.

(** The array as a function of the index, whatever its layout. *)
Definition value {B} (m : mem B) (a : array) : nd (option (list B)) :=
  mknd (a_shape a) (fun idx => Some (elem m a idx)).
(** At least one byte in an item, and as many strides as axes. *)
Definition Sound (a : array) : Prop := 1 <= a_item a /\ WellFormed (a_view a).
(** Sections of different ranks do not overlap. *)
Definition Apart (sizes starts : nat -> list nat) (size : nat) : Prop :=
  forall q r i j, q < size -> r < size -> InShape i (sizes q) -> InShape j (sizes r) ->
    idx_add (starts q) i = idx_add (starts r) j -> q = r.
