(** The inverse of one number, in each of the types.
    /repo/caput/algorithms/_invert_no_zero/_invert_no_zero.pyx: [_invert_no_zero] (24-44);
    /repo/caput/algorithms/_invert_no_zero/__init__.py: [invert_no_zero] (34-36) for Python's numbers
    and for integers.

    Numbers are words with the operations of Flocq ([BtModel]); arrays are in [ArrModel].
    [1.0 / array[i]] is computed in double for both sizes, since [1.0] is a double, and converted at the
    assignment.  The quotient of complex doubles is that of the C compiler and is given. *)
From Coq Require Import ZArith List Bool.
From Flocq Require Import Core.Zaux IEEE754.BinarySingleNaN IEEE754.Binary IEEE754.Bits.
From Verif Require Import PyBase TruncModel BtModel.
Import ListNotations.
Open Scope Z_scope.

Definition div64 (a b : Z) : Z := w64 (b64_div mode_NE (f64 a) (f64 b)).
(** [a < b] in C *)
Definition lt64 (a b : Z) : bool := match b64_compare (f64 a) (f64 b) with Some Lt => true | _ => false end.
Definition one64 : Z := 1023 * 2 ^ 52.
(** [DBL_MAX] and [FLT_MAX], both as doubles (line 14) *)
Definition dbl_max : Z := 2047 * 2 ^ 52 - 1.
Definition flt_max : Z := to64 (255 * 2 ^ 23 - 1).
(** Lines 31-34 *)
Definition thresh64 : Z := div64 one64 dbl_max.
Definition thresh32 : Z := div64 one64 flt_max.
(** Lines 43-44 *)
Definition inv_double (x : Z) : Z := if lt64 (fabs64 x) thresh64 then 0 else div64 one64 x.
Definition inv_float (x : Z) : Z := if lt64 (fabs64 (to64 x)) thresh32 then 0 else to32 (div64 one64 (to64 x)).

Section Complex.
(** [1.0 / z] for a complex double [z] *)
Variable reciprocal : Z * Z -> Z * Z.
(** Lines 38-39 *)
Definition inv_complex_double (z : Z * Z) : Z * Z :=
  if lt64 (fabs64 (fst z)) thresh64 && lt64 (fabs64 (snd z)) thresh64 then (0, 0) else reciprocal z.
Definition inv_complex_float (z : Z * Z) : Z * Z :=
  if lt64 (fabs64 (to64 (fst z))) thresh32 && lt64 (fabs64 (to64 (snd z))) thresh32 then (0, 0)
  else let r := reciprocal (to64 (fst z), to64 (snd z)) in (to32 (fst r), to32 (snd r)).
End Complex.

(** An integer as a double, to nearest (more than 1024 bits are not covered) *)
Definition of_int (n : Z) : Z := w64 (binary_normalize 53 1024 (eq_refl _) (eq_refl _) mode_NE n 0 false).
(** [np.where(x == 0, 0.0, 1.0 / x)] for one integer of an array *)
Definition inv_int (n : Z) : Z := if n =? 0 then 0 else div64 one64 (of_int n).
(** The same for numbers of Python: [1.0 / x] is evaluated first, by Python *)
Inductive number := PyInt (n : Z) | PyFloat (w : Z) | PyBool (b : bool).
Definition inv_number (x : number) : res Z :=
  match x with
  | PyInt n => if n =? 0 then Err ZeroDivisionError else Ok (inv_int n)
  | PyFloat w => if is_zero64 w then Err ZeroDivisionError else Ok (div64 one64 w)
  | PyBool b => if b then Ok one64 else Err ZeroDivisionError
  end.
