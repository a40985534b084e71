(** Spherical Bessel functions of the first kind, by their recurrence (DLMF 10.49.3
    and 10.51.1); without reference to the model. *)
From Coq Require Import Reals List.
Import ListNotations.
Open Scope R_scope.

Fixpoint sbessel2 (l : nat) (z : R) : R * R :=
  match l with
  | O => (sin z / z, sin z / z ^ 2 - cos z / z)
  | S l => let '(a, b) := sbessel2 l z in (b, (2 * INR l + 3) / z * b - a)
  end.
Definition sbessel (l : nat) (z : R) : R := fst (sbessel2 l z).
(** [g] is the derivative of [f] away from zero. *)
Definition Derivative (f g : R -> R) : Prop := forall z, z <> 0 -> derivable_pt_lim f z (g z).
