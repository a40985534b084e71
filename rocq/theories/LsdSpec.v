(** The Earth and its clocks. *)
From Coq Require Import Reals ZArith.
Open Scope R_scope.

(** The length of a stellar day in seconds, 86400 stellar seconds (IERS conventions, and the length of a UT1 second). *)
Definition day : R := 86400 * (1 + 205 / 100000000000) / (100273781191135448 / 100000000000000000).
(** [leap t]: the number of leap seconds before the UNIX time [t].  Terrestrial time runs on through leap seconds, UNIX time does not. *)
Definition Clock (tt : R -> R) (leap : R -> Z) : Prop := exists c, forall t, tt t = c + (t + IZR (leap t)) / 86400.
(** The seconds that pass between two UNIX times *)
Definition elapsed (leap : R -> Z) (a b : R) : R := (b + IZR (leap b)) - (a + IZR (leap a)).
(** The Earth turns once in a day .. *)
Definition Uniform (turns : R -> R) (leap : R -> Z) : Prop := forall a b, turns b - turns a = elapsed leap a b / day.
(** .. and has an angle, in degrees, up to full turns. *)
Definition SameAngle (x y : R) : Prop := exists k : Z, x = y + 360 * IZR k.
(** Turns of the meridian of an observer since some zero. *)
Definition meridian (turns : R -> R) (lon t : R) : R := turns t + lon / 360.
(** Leap seconds are added, never two of them within two days, fewer than 500 in all. *)
Definition Leaps (leap : R -> Z) : Prop :=
  (forall s t, s <= t -> (leap s <= leap t)%Z /\ (t <= s + 172800 -> (leap t <= leap s + 1)%Z)) /\
  forall s t, (leap t - leap s < 500)%Z.
(** The length of a sidereal day in seconds. *)
Definition sidereal_day : R := 86400 * (1 + 205 / 100000000000) / (1002737909350795 / 1000000000000000).
