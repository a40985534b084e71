(** The wrapper of Skyfield's loader, conversions of times, stars.
    /repo/caput/astro/skyfield.py: [SkyfieldWrapper] (33-171), [skyfield_time_to_unix] (179-196),
    [unix_to_skyfield_time] (199-224), [skyfield_star_from_ra_dec] (227-247);
    /repo/caput/astro/observer.py: the direction of [Observer.transit_RA] (273-315).

    What the loader and the network do is a parameter: every call gets an answer that may depend on
    the call and on everything before it.  Loaded objects are true.  Warnings and the texts of errors
    are left out. *)
From Coq Require Import String.
From Coq Require Import List Ascii Bool Arith ZArith QArith Reals.
From Verif Require Import PyBase PyStr TimeModel.
Import ListNotations.
Open Scope list_scope.
Open Scope nat_scope.

(** * The wrapper *)
(** Errors are [OSError]s or others. *)
Inductive fail := OSErr | OtherErr.
Inductive call := CTimescale | CLoad (name : str) | CDownload (url : str).
Inductive answer (O : Type) := Gives (o : O) | Fails (f : fail).
Arguments Gives {O} _. Arguments Fails {O} _.
Definition mirror_url : str := list_ascii_of_string "https://bao.chimenet.ca/skyfield/".
Definition leap_file : str := list_ascii_of_string "Leap_Second.dat".
Definition finals_file : str := list_ascii_of_string "finals2000A.all".

Section Wrapper.
Variable O : Type.
(** The answer to a call after a number of others *)
Variable env : nat -> call -> answer O.
(** [_ephemeris_name], [_timescale], [_ephemeris]; the calls made so far with their answers *)
Record wrapper := Wr { eph_name : str; ts_cache : option O; eph_cache : option O; log : list (call * answer O) }.
Definition ask (w : wrapper) (c : call) : answer O * wrapper :=
  let a := env (length (log w)) c in
  (a, Wr (eph_name w) (ts_cache w) (eph_cache w) (log w ++ [(c, a)])).
(** [for file in ...: self.load.download(...)] *)
Fixpoint downloads (w : wrapper) (urls : list str) : option fail * wrapper :=
  match urls with
  | [] => (None, w)
  | u :: r => match ask w (CDownload u) with
              | (Gives _, w) => downloads w r
              | (Fails f, w) => (Some f, w)
              end
  end.
(** Lines 98-129 *)
Definition timescale (w : wrapper) : answer O * wrapper :=
  match ts_cache w with
  | Some o => (Gives o, w)
  | None =>
      match ask w CTimescale with
      | (Gives o, w) => (Gives o, Wr (eph_name w) (Some o) (eph_cache w) (log w))
      | (Fails OtherErr, w) => (Fails OtherErr, w)
      | (Fails OSErr, w) =>
          match downloads w [mirror_url ++ leap_file; mirror_url ++ finals_file] with
          | (Some f, w) => (Fails f, w)
          | (None, w) => match ask w CTimescale with
                         | (Gives o, w) => (Gives o, Wr (eph_name w) (Some o) (eph_cache w) (log w))
                         | (Fails f, w) => (Fails f, w)
                         end
          end
      end
  end.
(** Lines 134-163 *)
Definition ephemeris (w : wrapper) : answer O * wrapper :=
  match eph_cache w with
  | Some o => (Gives o, w)
  | None =>
      match ask w (CLoad (eph_name w)) with
      | (Gives o, w) => (Gives o, Wr (eph_name w) (ts_cache w) (Some o) (log w))
      | (Fails OtherErr, w) => (Fails OtherErr, w)
      | (Fails OSErr, w) =>
          match downloads w [mirror_url ++ eph_name w] with
          | (Some f, w) => (Fails f, w)
          | (None, w) => match ask w (CLoad (eph_name w)) with
                         | (Gives o, w) => (Gives o, Wr (eph_name w) (ts_cache w) (Some o) (log w))
                         | (Fails f, w) => (Fails f, w)
                         end
          end
      end
  end.
(** Lines 165-172 *)
Definition reload (w : wrapper) : option fail * wrapper := downloads w [finals_file; eph_name w].
(** Any sequence of uses *)
Inductive use := UTimescale | UEphemeris | UReload.
Inductive outcome := OGot (o : O) | ODone | OFailed (f : fail).
Definition step (w : wrapper) (u : use) : outcome * wrapper :=
  match u with
  | UTimescale => let (a, w) := timescale w in (match a with Gives o => OGot o | Fails f => OFailed f end, w)
  | UEphemeris => let (a, w) := ephemeris w in (match a with Gives o => OGot o | Fails f => OFailed f end, w)
  | UReload => let (a, w) := reload w in (match a with None => ODone | Some f => OFailed f end, w)
  end.
(** The outcomes, each with the calls it took *)
Fixpoint uses (w : wrapper) (us : list use) : list (use * outcome * list (call * answer O)) :=
  match us with
  | [] => []
  | u :: r => let (o, w') := step w u in (u, o, skipn (length (log w)) (log w')) :: uses w' r
  end.
Definition fresh (name : str) : wrapper := Wr name None None [].
End Wrapper.
Arguments Wr {O} _ _ _ _.
Arguments OGot {O} _. Arguments ODone {O}. Arguments OFailed {O} _.

(** Lines 62-66: the directory; [here] is [os.path.dirname(__file__)] *)
Definition data_path (path environ : option str) (here : str) : str :=
  match path with
  | Some p => p
  | None => match environ with
            | Some p => p
            | None => here ++ list_ascii_of_string "/_skyfield_data/"
            end
  end.

(** * Times *)
(** Lines 199-224.  [timelib.calendar_date] of a Julian day number is the Gregorian date; days are
    counted by [ymd2ord], where 1970-01-01 is day 719163.  The arguments of [ts.utc]. *)
Definition floorQ (q : Q) : Z := (Qnum q / Zpos (Qden q))%Z.
Definition unix_to_skyfield_time (t : Q) : Z * Z * Z * Q :=
  let days := floorQ (t / 86400) in
  let seconds := (t - inject_Z days * 86400)%Q in
  (ord2ymd (719163 + days), seconds).
(** Lines 179-196, with what Skyfield's [utc_datetime] gives *)
Definition skyfield_time_to_unix (utc_datetime : Z * Z * Z * Q -> datetime) (st : Z * Z * Z * Q) : res Q :=
  datetime_to_unix (utc_datetime st).

(** * Stars *)
Inductive name_arg := NStr (s : str) | NSeq (l : list str).
(** Lines 227-247: right ascension and declination in degrees, names *)
Definition skyfield_star_from_ra_dec {A} (ra dec : A) (name : name_arg) : A * A * list str :=
  (ra, dec, match name with NStr s => [s] | NSeq l => l end).

(** * The direction of [transit_RA] *)
(** observer.py lines 308-309: azimuth and altitude in degrees *)
Definition transit_direction (latitude : R) : R * R := (180%R, (90 - latitude)%R).
