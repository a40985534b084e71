(** Specification of the symmetries of moving weighted medians. *)
From Coq Require Import List ZArith.
From Verif Require Import PyBase MedModel MedSpec.
Import ListNotations.
Open Scope Z_scope.

(** Values [c u + d] with weights [k w]. *)
Definition affine (c d k : Z) (x : datum) : datum := (c * fst x + d, k * snd x).
(** Two fractions, the second [c] times the first plus [d]. *)
Definition Related (c d : Z) (v v' : option (Z * Z)) : Prop :=
  exists a b a' b', v = Some (a, b) /\ v' = Some (a', b') /\ 0 < b /\ 0 < b' /\ a' * b = (c * a + d * b) * b'.
