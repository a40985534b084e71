(** Model of /repo/caput/util/truncate.pyx: the array functions, with the products as the
    processor computes them (round to nearest even, Flocq's operations on words).

    Arrays have one axis of words; the loops [prange] do their iterations in any order [order].
    Given as arguments: [rsqrt], the C expression [1.0 / x**0.5] (an [x] below 0 is not covered), and
    [cabs] of the C library; neither has to be
    rounded correctly.  [max_abs**0.5] in line 193 is the correctly rounded root. *)
From Coq Require Import ZArith List Bool.
From Flocq Require Import Core.Zaux IEEE754.BinarySingleNaN IEEE754.Binary IEEE754.Bits.
From Verif Require Import PyBase TruncModel.
Import ListNotations.
Open Scope Z_scope.

(** Words as numbers, and back. *)
Definition f32 (x : Z) : binary32 := b32_of_bits (x mod 2 ^ 32).
Definition w32 (f : binary32) : Z := wrap 32 (bits_of_b32 f).
Definition f64 (x : Z) : binary64 := b64_of_bits (x mod 2 ^ 64).
Definition w64 (f : binary64) : Z := wrap 64 (bits_of_b64 f).
(** [a * b] in C *)
Definition mul32 (a b : Z) : Z := w32 (b32_mult mode_NE (f32 a) (f32 b)).
Definition mul64 (a b : Z) : Z := w64 (b64_mult mode_NE (f64 a) (f64 b)).
Definition fabs64 (x : Z) : Z := Z.land x (2 ^ 63 - 1).
Definition is_nan32 (x : Z) : bool := is_nan 24 128 (f32 x).
Definition is_nan64 (x : Z) : bool := is_nan 53 1024 (f64 x).
Definition is_zero32 (x : Z) : bool := match f32 x with B754_zero _ _ _ => true | _ => false end.
Definition is_zero64 (x : Z) : bool := match f64 x with B754_zero _ _ _ => true | _ => false end.

(** Lines 64-75 *)
Definition py_truncate_float (val err : Z) : res Z :=
  if is_nan32 err then Err ValueError else Ok (bit_truncate_float val err).
Definition py_truncate_double (val err : Z) : res Z :=
  if is_nan64 err then Err ValueError else Ok (bit_truncate_double val err).

(** Lines 151-152, 163-164: one element *)
Definition relative_float (prec val : Z) : Z := bit_truncate_float val (fabs32 (mul32 prec val)).
Definition relative_double (prec val : Z) : Z := bit_truncate_double val (fabs64 (mul64 prec val)).
(** Lines 103-107, 125-129: one element *)
Definition weight_float (rsqrt : Z -> Z) (fallback val inv_var : Z) : Z :=
  if is_zero32 inv_var then bit_truncate_float val (mul32 fallback val) else bit_truncate_float val (rsqrt inv_var).
Definition weight_double (rsqrt : Z -> Z) (fallback val inv_var : Z) : Z :=
  if is_zero64 inv_var then bit_truncate_double val (mul64 fallback val) else bit_truncate_double val (rsqrt inv_var).

(** * Arrays *)
(** Types other than these two, including those with the other order of bytes, are unequal to both. *)
Inductive dtype := Float32 | Float64 | OtherType.
Record array := mkarray { a_dtype : dtype; a_shape : list nat; a_writeable : bool; a_data : list Z }.
Definition dtype_eqb (a b : dtype) : bool :=
  match a, b with Float32, Float32 | Float64, Float64 | OtherType, OtherType => true | _, _ => false end.
Definition with_data (a : array) (l : list Z) : array := mkarray (a_dtype a) (a_shape a) (a_writeable a) l.
(** A typed memory view of one axis (for reading too, as it is not const). *)
Definition view (a : array) : res (list Z) :=
  if a_writeable a then match a_shape a with [_] => Ok (a_data a) | _ => Err ValueError end else Err ValueError.
Fixpoint put (i : nat) (x : Z) (l : list Z) : list Z :=
  match l, i with
  | [], _ => []
  | _ :: t, O => x :: t
  | y :: t, S i => y :: put i x t
  end.
(** The loop [val[i] = f(i, val[i])], in the order [order]. *)
Definition prange (order : list nat) (f : nat -> Z -> Z) (l : list Z) : list Z :=
  fold_left (fun l i => match nth_error l i with Some v => put i (f i v) l | None => l end) order l.

(** Lines 134-168.  The array that was given is changed; the result is it. *)
Definition bit_truncate_relative (order : list nat) (val : array) (prec : Z) : res array :=
  match a_dtype val with
  | Float32 => rbind (view val) (fun l => Ok (with_data val (prange order (fun _ => relative_float prec) l)))
  | Float64 => rbind (view val) (fun l => Ok (with_data val (prange order (fun _ => relative_double prec) l)))
  | OtherType => Err RuntimeError
  end.
(** Lines 78-131 *)
Definition bit_truncate_weights (order : list nat) (rsqrt : Z -> Z) (val inv_var : array) (fallback : Z) : res array :=
  let run elem :=
    rbind (view val) (fun l =>
    rbind (view inv_var) (fun w =>
    if (length w =? length l)%nat
    then Ok (with_data val (prange order (fun i v => elem fallback v (nth i w 0)) l))
    else Err ValueError)) in
  if dtype_eqb (a_dtype val) Float32 && dtype_eqb (a_dtype inv_var) Float32 then run (weight_float rsqrt)
  else if dtype_eqb (a_dtype val) Float64 && dtype_eqb (a_dtype inv_var) Float64 then run (weight_double rsqrt)
  else Err RuntimeError.

(** * Complex numbers: lines 171-204 *)
(** From double to float, and back *)
Definition narrow (f : binary64) : binary32 :=
  match f with
  | B754_nan _ _ _ _ _ => proj1_sig default_nan_pl32
  | B754_infinity _ _ s => B754_infinity 24 128 s
  | B754_zero _ _ s => B754_zero 24 128 s
  | B754_finite _ _ s m e _ => binary_normalize 24 128 (eq_refl _) (eq_refl _) mode_NE (cond_Zopp s (Zpos m)) e s
  end.
Definition widen (f : binary32) : binary64 :=
  match f with
  | B754_nan _ _ _ _ _ => proj1_sig default_nan_pl64
  | B754_infinity _ _ s => B754_infinity 53 1024 s
  | B754_zero _ _ s => B754_zero 53 1024 s
  | B754_finite _ _ s m e _ => binary_normalize 53 1024 (eq_refl _) (eq_refl _) mode_NE (cond_Zopp s (Zpos m)) e s
  end.
Definition to32 (x : Z) : Z := w32 (narrow (f64 x)).
Definition to64 (x : Z) : Z := w64 (widen (f32 x)).
Definition add64 (a b : Z) : Z := w64 (b64_plus mode_NE (f64 a) (f64 b)).
Definition sqrt64 (a : Z) : Z := w64 (b64_sqrt mode_NE (f64 a)).
Definition gt64 (a b : Z) : bool := match b64_compare (f64 a) (f64 b) with Some Gt => true | _ => false end.
(** Lines 185-191: one entry *)
Definition step (m : Z) (v : Z * Z) : Z :=
  let abs2 := add64 (mul64 (fst v) (fst v)) (mul64 (snd v) (snd v)) in if gt64 abs2 m then abs2 else m.
(** Lines 182-193 *)
Definition row_max (row : list (Z * Z)) : Z := sqrt64 (fold_left step row 0).
(** Line 197: [max(a, b)] of C types is [b > a ? b : a]. *)
Definition precision (cabs : Z -> Z -> Z) (prec prec_max_row max_abs : Z) (v : Z * Z) : Z :=
  let a := to64 (mul32 (to32 (cabs (fst v) (snd v))) prec) in
  let b := mul64 (to64 prec_max_row) max_abs in
  to32 (if gt64 b a then b else a).
(** Lines 180-202: one row *)
Definition truncate_row (cabs : Z -> Z -> Z) (prec prec_max_row : Z) (row : list (Z * Z)) : list (Z * Z) :=
  let max_abs := row_max row in
  map (fun v => let p := precision cabs prec prec_max_row max_abs v in
                (to64 (bit_truncate_float (to32 (fst v)) p), to64 (bit_truncate_float (to32 (snd v)) p))) row.
