(** The search for roots.
    /repo/caput/astro/observer.py: [_fixup_interval_and_step] (866-894),
    [_solve_all] (897-956).

    Real numbers instead of floating point numbers.  From NumPy: [linspace]; from
    SciPy: [brentq], a parameter. *)
From Coq Require Import List Bool Reals ZArith.
From Verif Require Import PyBase.
Import ListNotations.
Open Scope R_scope.

Definition ceil (x : R) : Z := (- Int_part (- x))%Z.
(** [np.linspace(x0, x1, n, endpoint=True)] *)
Definition linspace (x0 x1 : R) (n : nat) : list R :=
  match n with
  | O => []
  | S O => [x0]
  | S m => map (fun i => x0 + INR i * ((x1 - x0) / INR m)) (seq 0 n)
  end.
(** Line 927; a negative number of points is an error. *)
Definition npoints (x0 x1 dx : R) : Z := ceil ((x1 - x0) / dx).
Definition grid (x0 x1 dx : R) : list R := linspace x0 x1 (Z.to_nat (npoints x0 x1 dx)).
Definition pairs {A} (l : list A) : list (A * A) := combine l (tl l).

Definition rltb (a b : R) : bool := if Rlt_dec a b then true else false.
Definition solve_all (f : R -> R) (brentq : R -> R -> R) (x0 x1 dx : R) (skip_increasing skip_decreasing : bool) : res (list (R * bool)) :=
  if (npoints x0 x1 dx <? 0)%Z then Err ValueError else
  Ok (flat_map (fun ab =>
        let '(xa, xb) := ab in
        let fa := f xa in let fb := f xb in
        if rltb 0 (fa * fb) then []
        else let inc := rltb fa fb in
          if skip_increasing && inc then []
          else if skip_decreasing && negb inc then []
          else [(brentq xa xb, inc)]) (pairs (grid x0 x1 dx))).

(** * The interval *)
(** [_fixup_interval_and_step] up to the conversion to Julian days: the times are
    UNIX times, [step] is in days.  [stellar_second] is positive. *)
Definition fixup_interval (stellar_second : R) (t0 : R) (t1 step : option R) : res (R * R * R) :=
  let day := 24 * 3600 in
  rbind (match t1 with
         | None => Ok (t0 + day * stellar_second)
         | Some t1 => if Rle_dec t1 t0 then Err ValueError else Ok t1
         end) (fun t1 =>
  rbind (match step with
         | None => Ok (if Rle_dec day (t1 - t0) then 1 / 5 else (t1 - t0) / (5 * day))
         | Some s => if Rle_dec (t1 - t0) (s * day) then Err ValueError else Ok s
         end) (fun step => Ok (t0, t1, step))).
