(** What inverting should do to memory. *)
From Coq Require Import List Bool Arith ZArith.
From Verif Require Import RedSpec ArrModel.
Import ListNotations.

Definition WellFormed (v : view) : Prop := length (v_strides v) = length (v_shape v).
(** Index by index. *)
Definition Elementwise {V} (inv : V -> V) (m m' : mem V) (x out : view) : Prop :=
  forall idx, InShape idx (v_shape x) -> m' (addr out idx) = inv (m (addr x idx)).
(** Nothing but [out] is written. *)
Definition Untouched {V} (m m' : mem V) (out : view) : Prop :=
  forall a, (forall idx, InShape idx (v_shape out) -> addr out idx <> a) -> m' a = m a.
(** No element of [x] is at the place of a different element of [out]. *)
Definition Compatible (x out : view) : Prop :=
  forall i j, InShape i (v_shape x) -> InShape j (v_shape out) -> i <> j -> addr x i <> addr out j.
Definition Disjoint (x out : view) : Prop :=
  forall i j, InShape i (v_shape x) -> InShape j (v_shape out) -> addr x i <> addr out j.
(** All elements of an array of this shape placed at [base] on are new. *)
Definition Fresh (x : view) (base : Z) : Prop :=
  forall i, InShape i (v_shape x) -> (addr x i < base \/ base + Z.of_nat (count (v_shape x)) <= addr x i)%Z.
