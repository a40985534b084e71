(** Transits, risings and settings, without reference to the model. *)
From Coq Require Import List Bool Reals ZArith.
From Verif Require Import LsdSpec SolveSpec.
Import ListNotations.
Open Scope R_scope.

(** A body is on the meridian when the sidereal time is its right ascension, on the
    other half of the meridian when it is half a turn more. *)
Definition OnMeridian (lower : bool) (lst ra : R) : Prop := SameAngle lst (if lower then ra + 180 else ra).
(** The hour angle counted on through full turns: it grows, and less than half a turn in [w] days. *)
Record HourAngle (h lst ra : R -> R) (w : R) : Prop := {
  ha_continuous : continuity h;
  ha_angle : forall t, SameAngle (h t) (lst t - ra t);
  ha_grows : forall s t, s < t -> h s < h t;
  ha_slow : forall s t, s < t -> t - s <= w -> h t - h s < 180 }.
(** What [brentq] promises: a root between two points of which the values do not have the
    same sign, when the function is continuous in between. *)
Definition ContinuousOn (f : R -> R) (a b : R) : Prop := exists g, continuity g /\ forall x, a <= x <= b -> f x = g x.
Definition Solver (f : R -> R) (brentq : R -> R -> R) : Prop :=
  forall a b, a <= b -> ContinuousOn f a b -> f a * f b <= 0 -> a <= brentq a b <= b /\ f (brentq a b) = 0.
(** Julian days and UNIX time: there may be leap seconds in between. *)
Definition Days (to_jd : R -> R) : Prop := forall s t, s <= t -> (t - s) / 86400 <= to_jd t - to_jd s.
(** Neighbours differ. *)
Fixpoint Alternates (l : list bool) : Prop :=
  match l with
  | [] => True
  | x :: r => match r with [] => True | y :: _ => y = negb x end /\ Alternates r
  end.
