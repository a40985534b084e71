(** Earth rotation angle and local stellar days.
    /repo/caput/astro/time.py: [unix_to_era] (92-116), [era_to_unix] (119-154), [leap_seconds_between] (255-293).
    /repo/caput/astro/observer.py: [unix_to_lsa] (138-156), [lsa_to_unix] (161-179), [lsd_zero] (181-189),
    [unix_to_lsd] (192-222), [lsd_to_unix] (227-250).
    /repo/caput/astro/constants.py: [UT1_second], [sidereal_second], [stellar_second] (40-54).

    Real numbers instead of floating point numbers, one time instead of an array of times.
    Skyfield's conversions are parameters: [turns t] is the rotation of the Earth at the UNIX
    time [t] in turns (its [earth_rotation_angle] is the fractional part), [tt t] the
    terrestrial time at [t] in days. *)
From Coq Require Import List Bool Reals ZArith.
From Verif Require Import PyBase SolveModel.
Open Scope R_scope.

Definition UT1_second : R := 1 + 205 / 100000000000.
Definition sidereal_second : R := 1 / (1002737909350795 / 1000000000000000) * UT1_second.
Definition stellar_second : R := 1 / (100273781191135448 / 100000000000000000) * UT1_second.
(** [%] of NumPy for a positive second argument *)
Definition rmod (x y : R) : R := x - y * IZR (Int_part (x / y)).
(** [np.rint], [np.around]: the nearest integer, the even one between two *)
Definition rint (x : R) : Z :=
  let n := Int_part x in
  if rltb (x - IZR n) (1 / 2) then n
  else if rltb (1 / 2) (x - IZR n) then (n + 1)%Z
  else if Z.even n then n else (n + 1)%Z.

(** Lines 92-116 *)
Definition unix_to_era (turns : R -> R) (t : R) : R := 360 * rmod (turns t) 1.
(** Lines 255-293 *)
Definition leap_seconds_between (tt : R -> R) (a b : R) : res Z :=
  let delta_unix := b - a in
  let delta_tt := (tt b - tt a) * 24 * 3600 in
  let time_shift := delta_tt - delta_unix in
  let time_shift_int := rint time_shift in
  if rltb (1 / 100) (Rabs (time_shift - IZR time_shift_int)) then Err RuntimeError else Ok time_shift_int.
(** Lines 119-154 *)
Definition era_to_unix (turns tt : R -> R) (era time0 : R) : res R :=
  let era0 := unix_to_era turns time0 in
  let diff_era_deg := rmod (era - era0) 360 in
  let diff_time := diff_era_deg * 240 * stellar_second in
  rbind (leap_seconds_between tt time0 (time0 + diff_time)) (fun leap =>
  Ok (time0 + diff_time - IZR leap)).

(** The observer is given by their longitude and [lsd_start_day], a UNIX time. *)
(** Lines 138-156 *)
Definition unix_to_lsa (turns : R -> R) (lon t : R) : R := rmod (unix_to_era turns t + lon) 360.
(** Lines 161-179 *)
Definition lsa_to_unix (turns tt : R -> R) (lon lsa time0 : R) : res R :=
  era_to_unix turns tt (rmod (lsa - lon) 360) time0.
(** Lines 181-189 *)
Definition lsd_zero (turns tt : R -> R) (lon start : R) : res R := lsa_to_unix turns tt lon 0 start.
(** Lines 192-222 *)
Definition unix_to_lsd (turns tt : R -> R) (lon start t : R) : res R :=
  let frac_part := unix_to_lsa turns lon t / 360 in
  rbind (lsd_zero turns tt lon start) (fun z =>
  let approx_lsd := (t - z) / (24 * 3600 * sidereal_second) in
  let whole_days := rint (approx_lsd - frac_part) in
  Ok (IZR whole_days + frac_part)).
(** Lines 227-250 *)
Definition lsd_to_unix (turns tt : R -> R) (lon start lsd : R) : res R :=
  rbind (lsd_zero turns tt lon start) (fun z =>
  let approx_unix := z + lsd * 3600 * 24 * sidereal_second in
  let start_unix := approx_unix - 12 * 3600 in
  let lsa := 360 * rmod lsd 1 in
  lsa_to_unix turns tt lon lsa start_unix).
