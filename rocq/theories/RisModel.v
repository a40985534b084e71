(** Transits, risings and settings.
    /repo/caput/astro/observer.py: [Observer.__init__] (92-101), [skyfield_obs] (111-131),
    [unix_to_lst] (252-268), [transit_times] (320-391), [rise_set_times] (393-432),
    [rise_times] (434-470), [set_times] (472-501), [solar_transit], [lunar_transit],
    [solar_setting], [lunar_setting], [solar_rising], [lunar_rising] (503-704),
    [_sr_work] (799-835), [_source_ha] (837-844), [_source_alt] (846-859).

    Real numbers instead of floating point numbers.  Given, from Skyfield: the
    apparent sidereal time of Greenwich in hours and the right ascension, declination
    and altitude in degrees of a body seen from a location, at a Julian day of
    terrestrial time; the conversions between UNIX time and that Julian day; the star
    with given coordinates; the Sun and the Moon.  From SciPy: [brentq].  The location
    of an observer in Skyfield ([_obs]) is made at the first use and kept. *)
From Coq Require Import List Bool Reals ZArith.
From Verif Require Import PyBase SolveModel LsdModel.
Import ListNotations.
Open Scope R_scope.

Record location := Loc { longitude : R; latitude : R; altitude : R }.
(** The attributes of an observer, and [_obs]. *)
Record observer := Observer { place : location; obs : option location }.
Definition new_observer (lon lat alt : R) : observer := Observer (Loc lon lat alt) None.
Definition set_longitude (o : observer) (x : R) : observer := Observer (Loc x (latitude (place o)) (altitude (place o))) (obs o).
Definition set_latitude (o : observer) (x : R) : observer := Observer (Loc (longitude (place o)) x (altitude (place o))) (obs o).
(** Lines 111-131: the location, and the observer afterwards. *)
Definition skyfield_obs (o : observer) : location * observer :=
  match obs o with
  | Some l => (l, o)
  | None => (place o, Observer (place o) (Some (place o)))
  end.

Section Sky.
Variable body : Type.
Variable star_from_ra_dec : R -> R -> body.
Variable sun moon : body.
Variable gast : R -> R.
Variable ra dec alt_of : location -> body -> R -> R.
Variable to_jd to_unix : R -> R.
Variable brentq : (R -> R) -> R -> R -> R.
Variable stellar_second : R.

(** Lines 252-268 *)
Definition unix_to_lst (o : observer) (unix : R) : R := rmod (gast (to_jd unix) * 15 + longitude (place o)) 360.
(** Lines 837-844.  [lon] is the attribute, [l] the location in Skyfield. *)
Definition source_ha (lon : R) (l : location) (source : body) (t : R) : R :=
  rmod ((gast t * 15 + lon) - ra l source t + 180) 360 - 180.
(** Lines 846-859 *)
Definition source_alt (l : location) (source : body) (t : R) : R := alt_of l source t.
(** The end of [_fixup_interval_and_step] *)
Definition fixup (t0 : R) (t1 step : option R) : res (R * R * R) :=
  rbind (fixup_interval stellar_second t0 t1 step) (fun '(a, b, s) => Ok (to_jd a, to_jd b, s)).

Inductive source := SFloat (ra : R) | SBody (b : body).
Definition to_body (s : source) : body := match s with SFloat r => star_from_ra_dec r 0 | SBody b => b end.
(** The function whose zeros are searched, lines 363-365 *)
Definition transit_function (lon : R) (l : location) (b : body) (lower : bool) (t : R) : R :=
  let ha := source_ha lon l b t in if lower then rmod ha 360 - 180 else ha.
(** Lines 320-391; the observer afterwards.  [_obs] is set when the function is first evaluated. *)
Definition transit_jds (o : observer) (s : source) (t0 : R) (t1 step : option R) (lower : bool) : res (list R) * observer :=
  match fixup t0 t1 step with
  | Err e => (Err e, o)
  | Ok (t0jd, t1jd, step) =>
      let '(l, o') := skyfield_obs o in
      let f := transit_function (longitude (place o)) l (to_body s) lower in
      match solve_all f (brentq f) t0jd t1jd step false true with
      | Err e => (Err e, o)
      | Ok r => (Ok (map fst r), o')
      end
  end.
Definition transit_times (o : observer) (s : source) (t0 : R) (t1 step : option R) (lower : bool) : res (list R) * observer :=
  let '(r, o') := transit_jds o s t0 t1 step lower in (rbind r (fun l => Ok (map to_unix l)), o').
(** With [return_dec] *)
Definition transit_times_dec (o : observer) (s : source) (t0 : R) (t1 step : option R) (lower : bool) : res (list R * list R) * observer :=
  let '(r, o') := transit_jds o s t0 t1 step lower in
  let '(l, o'') := match r with Ok (_ :: _) => skyfield_obs o' | _ => (place o', o') end in
  (rbind r (fun x => Ok (map to_unix x, match x with [] => [] | _ => map (dec l (to_body s)) x end)), o'').

(** Lines 799-835 *)
Definition sr_work (o : observer) (b : body) (t0 : R) (t1 step : option R) (diameter : R) (skip_rise skip_set : bool)
    : res (list (R * bool)) * observer :=
  match fixup t0 t1 step with
  | Err e => (Err e, o)
  | Ok (t0jd, t1jd, step) =>
      let '(l, o') := skyfield_obs o in
      let f t := source_alt l b t + diameter / 2 in
      match solve_all f (brentq f) t0jd t1jd step skip_rise skip_set with
      | Err e => (Err e, o)
      | Ok r => (Ok (map (fun x : R * bool => (to_unix (fst x), snd x)) r), o')
      end
  end.
Definition rise_set_times o b t0 t1 step diameter := sr_work o b t0 t1 step diameter false false.
Definition firsts (x : res (list (R * bool)) * observer) : res (list R) * observer := (rbind (fst x) (fun l => Ok (map fst l)), snd x).
Definition rise_times o b t0 t1 step diameter := firsts (sr_work o b t0 t1 step diameter false true).
Definition set_times o b t0 t1 step diameter := firsts (sr_work o b t0 t1 step diameter true false).

(** Lines 503-704 *)
Definition solar_transit o t0 t1 step lower := transit_times o (SBody sun) t0 t1 step lower.
Definition lunar_transit o t0 t1 step lower := transit_times o (SBody moon) t0 t1 step lower.
Definition solar_setting o t0 t1 step := set_times o sun t0 t1 step (100 / 60).
Definition lunar_setting o t0 t1 step := set_times o moon t0 t1 step (100 / 60).
Definition solar_rising o t0 t1 step := rise_times o sun t0 t1 step (100 / 60).
Definition lunar_rising o t0 t1 step := rise_times o moon t0 t1 step (100 / 60).
End Sky.
