(** The decorrelation at any delay.
    /repo/caput/util/pfb.py: [PFB.decorrelation_ratio] (240-284), with the interpolation, which
    PfbModel leaves out; SciPy's [interp1d] with linear interpolation, unsorted nodes and
    a value for points outside.

    Real numbers instead of floating point numbers. *)
From Coq Require Import List Bool Reals ZArith Arith.
From Verif Require Import PyBase FftModel PfbModel.
Import ListNotations.
Open Scope R_scope.

(** Nodes in ascending order *)
Fixpoint insert (p : R * R) (l : list (R * R)) : list (R * R) :=
  match l with
  | [] => [p]
  | q :: r => if Rle_dec (fst p) (fst q) then p :: l else q :: insert p r
  end.
Fixpoint sort (l : list (R * R)) : list (R * R) := match l with [] => [] | p :: r => insert p (sort r) end.
(** The first node that is not less than [x] ends the segment. *)
Fixpoint segment (fill : R) (l : list (R * R)) (x : R) : R :=
  match l with
  | (x0, y0) :: r =>
      match r with
      | (x1, y1) :: _ => if Rle_dec x x1 then (y1 - y0) / (x1 - x0) * (x - x0) + y0 else segment fill r x
      | [] => fill
      end
  | [] => fill
  end.
Definition interp1d (fill : R) (l : list (R * R)) (x : R) : R :=
  match sort l with
  | [] => fill
  | p :: r => if Rlt_dec x (fst p) then fill else segment fill (p :: r) x
  end.

Section PFB.
Variables (ntap lblock oversample : nat).
Variable window : nat -> R.
Let N : nat := (ntap * lblock)%nat.
Let n : nat := npad ntap lblock oversample.
(** [decorrelation_ratio] *)
Definition ratio (k : nat) : R := irfft (nwf ntap lblock oversample) (wfpad ntap lblock oversample window) k.
(** [np.abs(tau) <= N] *)
Definition near (k : nat) : bool := if Rle_dec (Rabs (tau ntap lblock oversample k)) (INR N) then true else false.
(** Lines 271-273 *)
Definition nodes : list (R * R) := map (fun k => (tau ntap lblock oversample k, ratio k / ratio 0)) (filter near (seq 0 n)).
(** Lines 240-284 *)
Definition decorrelation_at (delay : R) : res R :=
  if (2 * (nwf ntap lblock oversample - 1) =? 0)%nat then Err ValueError
  else if negb (2 * (nwf ntap lblock oversample - 1) =? n)%nat then Err IndexError
  else Ok (interp1d 0 nodes delay).
End PFB.
