(** What a search for roots is to find, without reference to the model. *)
From Coq Require Import List Bool Reals.
Import ListNotations.
Open Scope R_scope.

Definition IsRoot (f : R -> R) (x0 x1 r : R) : Prop := x0 <= r <= x1 /\ f r = 0.
(** The condition on [dx] in the documentation. *)
Definition Separated (f : R -> R) (x0 x1 dx : R) : Prop :=
  forall r s, IsRoot f x0 x1 r -> IsRoot f x0 x1 s -> r < s -> dx < s - r.
(** What [brentq] promises for a bracket. *)
Definition Brackets (f : R -> R) (brentq : R -> R -> R) : Prop :=
  forall a b, a <= b -> f a * f b <= 0 -> a <= brentq a b <= b /\ f (brentq a b) = 0.
(** The function goes through zero at [r], and nowhere else within [w] of it, upwards or downwards. *)
Definition Crosses (f : R -> R) (x0 x1 w : R) (up : bool) (r : R) : Prop :=
  forall x, x0 <= x <= x1 -> r - w <= x <= r + w ->
    (x < r -> if up then f x < 0 else 0 < f x) /\ (r < x -> if up then 0 < f x else f x < 0).
Fixpoint Ascending (l : list R) : Prop :=
  match l with
  | [] => True
  | x :: r => match r with [] => True | y :: _ => x <= y end /\ Ascending r
  end.
Fixpoint StrictlyAscending (l : list R) : Prop :=
  match l with
  | [] => True
  | x :: r => match r with [] => True | y :: _ => x < y end /\ StrictlyAscending r
  end.
