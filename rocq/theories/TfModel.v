(** Times as doubles.
    /repo/caput/astro/time.py: [unix_to_datetime] (157-179), [datetime_to_unix] (182-208),
    [time_of_day] (361-377), for one time.

    [TimeModel] has the same functions with rational numbers; here UNIX times are doubles (words with
    the operations of Flocq, [BtModel]).  [timedelta.total_seconds] and [datetime.fromtimestamp] are modelled
    after CPython (delta_total_seconds, long_true_divide, _PyTime_DoubleToDenominator). *)
From Coq Require Import ZArith QArith List Bool.
From Flocq Require Import Core.Zaux IEEE754.BinarySingleNaN IEEE754.Binary IEEE754.Bits.
From Verif Require Import PyBase TimeModel TruncModel BtModel InvModel.
Import ListNotations.
Open Scope Z_scope.

Definition sub64 (a b : Z) : Z := w64 (b64_minus mode_NE (f64 a) (f64 b)).
Definition million : Z := of_int 1000000.
(** [n / 10**6] for an int [n]: a division of doubles if [n] is one, otherwise the quotient with
    more than 54 bits, the last one set if it is not exact, is rounded. *)
Definition total_seconds (n : Z) : Z :=
  if Z.abs n <=? 2 ^ 53 then div64 (of_int n) million
  else let q := Z.abs n * 2 ^ 64 / 1000000 in
       let q := if Z.abs n * 2 ^ 64 mod 1000000 =? 0 then 2 * q else 2 * q + 1 in
       w64 (binary_normalize 53 1024 (eq_refl _) (eq_refl _) mode_NE (Z.sgn n * q) (-65) false).

(** The integer part of a double ([modf] in C) .. *)
Definition trunc64 (x : binary64) : Z :=
  match x with
  | B754_finite _ _ s m e _ => let a := if 0 <=? e then Zpos m * 2 ^ e else Zpos m / 2 ^ (- e) in if s then - a else a
  | _ => 0
  end.
(** .. and the nearest integer, the even one of two ([_PyTime_RoundHalfEven]) *)
Definition half_even (m k : Z) : Z :=
  let n := m / 2 ^ k in let r := 2 * (m mod 2 ^ k) in
  if r <? 2 ^ k then n else if 2 ^ k <? r then n + 1 else if Z.even n then n else n + 1.
Definition nearest_int (x : binary64) : Z :=
  match x with
  | B754_finite _ _ s m e _ => let a := if 0 <=? e then Zpos m * 2 ^ e else half_even (Zpos m) (- e) in if s then - a else a
  | _ => 0
  end.
(** The microseconds of a time stamp.  An OverflowError is an [OtherException]. *)
Definition timestamp_us (w : Z) : res Z :=
  match f64 w with
  | B754_nan _ _ _ _ _ => Err ValueError
  | B754_infinity _ _ _ => Err OtherException
  | _ => let t := trunc64 (f64 w) in
         if (t <? - 2 ^ 63) || (2 ^ 63 <=? t) then Err OtherException
         else Ok (t * 1000000 + nearest_int (f64 (mul64 (sub64 w (of_int t)) million)))
  end.
(** The datetime of a number of microseconds is computed as in [TimeModel]. *)
Definition fromtimestamp64 (w : Z) : res datetime := rbind (timestamp_us w) (fun n => fromtimestamp (n # 1000000)).
(** Differences of datetimes in microseconds *)
Definition diff_us (a b : datetime) : res Z :=
  match tz a, tz b with
  | Some x, Some y => Ok (local_us a - x * 1000000 - (local_us b - y * 1000000))
  | None, None => Ok (local_us a - local_us b)
  | _, _ => Err TypeError
  end.

(** Lines 157-179 *)
Definition unix_to_datetime64 (w : Z) : res datetime := rbind (fromtimestamp64 w) (fun dt => Ok (naive_datetime_to_utc dt)).
(** Lines 182-208 *)
Definition datetime_to_unix64 (dt : datetime) : res Z :=
  let dt := naive_datetime_to_utc dt in
  rbind (fromtimestamp64 0) (fun e => rbind (diff_us dt (naive_datetime_to_utc e)) (fun n => Ok (total_seconds n))).
(** Lines 361-377, for a double and for a datetime *)
Definition time_of_day64 (w : Z) : res Z :=
  rbind (fromtimestamp64 w) (fun dt => rbind (diff_us dt (Dt (yr dt) (mo dt) (dy dt) 0 0 0 0 (tz dt))) (fun n => Ok (total_seconds n))).
Definition time_of_day_dt (dt : datetime) : res Z := rbind (datetime_to_unix64 dt) time_of_day64.
