(** Model of the bit truncation code.
    Sources: /repo/caput/util/truncate.hpp and /repo/caput/util/truncate.pyx.

    Machine integers are [Z]; each C operation that could leave the type is
    followed by the two's complement wrap [wrap w] (signed overflow is
    undefined in C; wrapping is what the compilers used do; the theorems show
    that it does not occur for the inputs they cover).  Shift counts are taken
    modulo the width (x86), which matters for the negative shift on line 219.
    Conversions from floating point to integer that do not fit give the most
    negative integer (x86 cvttss2si / cvttsd2si). *)
From Coq Require Import ZArith List Bool.
Import ListNotations.
Open Scope Z_scope.

(** Two's complement reduction to [w] bits. *)
Definition wrap (w x : Z) : Z := (x + 2 ^ (w - 1)) mod 2 ^ w - 2 ^ (w - 1).

(** [x << s] and [x >> s] (arithmetic) on [w]-bit signed integers. *)
Definition shl (w x s : Z) : Z := wrap w (Z.shiftl x (s mod w)).
Definition shr (w x s : Z) : Z := Z.shiftr x (s mod w).

(** The statements [x |= x >> s] of lines 53-57, 90-95, 123-127, 137-142. *)
Definition smear (w : Z) (shifts : list Z) (x : Z) : Z :=
  fold_left (fun g s => Z.lor g (shr w g s)) shifts x.

(** truncate.hpp lines 49-77 ([bit_truncate], [w = 32]) and lines 86-115
    ([bit_truncate_64], [w = 64]); the two differ only in the type and in the
    list of shifts. *)
Definition bit_truncate_w (w : Z) (shifts : list Z) (val err : Z) : Z :=
  let gran := wrap w (smear w shifts err + 1) in
  let bitmask := wrap w (gran - 1) in
  let tie := if shl w (Z.land val bitmask) 1 =? gran then 1 else 0 in
  let val_t := Z.lor (wrap w (val - shr w gran 1)) bitmask in
  let val_t := wrap w (val_t + 1) in
  let val_t := wrap w (val_t - (if err =? 0 then 1 else 0)) in
  wrap w (val_t - Z.land val_t (wrap w (tie * gran))).

Definition shifts32 := [1; 2; 4; 8; 16].
Definition shifts64 := [1; 2; 4; 8; 16; 32].
Definition bit_truncate (val err : Z) : Z := bit_truncate_w 32 shifts32 val err.
Definition bit_truncate_64 (val err : Z) : Z := bit_truncate_w 64 shifts64 val err.

(** [__builtin_popcount] on a [w]-bit integer. *)
Definition popcount (w : nat) (x : Z) : Z :=
  Z.of_nat (length (filter (fun i => Z.testbit x (Z.of_nat i)) (seq 0 w))).

(** truncate.hpp lines 122-129 and 136-144, [count_zeros], [count_zeros_64]. *)
Definition count_zeros_w (w : nat) (shifts : list Z) (x : Z) : Z :=
  popcount w (Z.lnot (smear (Z.of_nat w) shifts x)).

(** Decoding of an IEEE word: finite values are integer multiples of the
    smallest denormal (2^-149 for float, 2^-1074 for double), here that
    integer. [mw] mantissa bits, [ew] exponent bits. *)
Inductive fval := Fin (units : Z) | Inf (neg : bool) | NaN.

Definition exp_field (mw ew x : Z) : Z := Z.land (Z.shiftr x mw) (2 ^ ew - 1).
Definition man_field (mw x : Z) : Z := Z.land x (2 ^ mw - 1).
Definition neg_bit (mw ew x : Z) : bool := Z.testbit x (mw + ew).

Definition decode (mw ew x : Z) : fval :=
  let p := exp_field mw ew x in
  let f := man_field mw x in
  let s := if neg_bit mw ew x then -1 else 1 in
  if p =? 2 ^ ew - 1 then (if f =? 0 then Inf (neg_bit mw ew x) else NaN)
  else if p =? 0 then Fin (s * f)
  else Fin (s * ((f + 2 ^ mw) * 2 ^ (p - 1))).

(** Product of two floats followed by the conversion to a [w]-bit integer.
    One factor is always a power of two, zero or infinite, so the product is
    exact or out of range in a way the conversion does not see.  [unit] is the
    exponent of the common denominator (149 or 1074). *)
Definition mul_to_int (w unit : Z) (a b : fval) : Z :=
  match a, b with
  | Fin x, Fin y =>
      let q := Z.quot (x * y) (2 ^ (2 * unit)) in
      if (- 2 ^ (w - 1) <=? q) && (q <? 2 ^ (w - 1)) then q else - 2 ^ (w - 1)
  | _, _ => - 2 ^ (w - 1)
  end.

(** truncate.hpp lines 156-163, [fast_pow]: argument reduced to int8_t. *)
Definition fast_pow (e : Z) : Z := wrap 32 (Z.shiftl (127 + wrap 8 e) 23).
(** truncate.hpp lines 175-182, [fast_pow_double]: argument int16_t. *)
Definition fast_pow_double (e : Z) : Z := wrap 64 (Z.shiftl (1023 + wrap 16 e) 52).

(** truncate.hpp lines 194-228 ([_bit_truncate_float]) and 240-281
    ([_bit_truncate_double]); the same statements on both formats.  [scale]
    is the decoded [fast_pow(...)]. *)
Definition bit_truncate_fp (w mw ew unit : Z) (shifts : list Z) (scale : Z -> fval)
    (val err : Z) : Z :=
  let val_pre := shr w val mw in
  let val_pow := Z.land val_pre (2 ^ ew - 1) in
  let val_s := shr w val_pre ew in
  let val_man := Z.land val (2 ^ mw - 1) + 2 ^ mw in
  let int_err := mul_to_int w unit (decode mw ew err) (scale val_pow) in
  let high := Z.land (int_err mod 2 ^ w) (2 ^ (w - 1) + 2 ^ (w - 2)) in
  let int_err := if high =? 0 then int_err else 2 ^ (w - 2) - 1 in
  let tr_man := bit_truncate_w w shifts val_man int_err in
  let z_count := count_zeros_w (Z.to_nat w) shifts tr_man in
  let val_pow := val_pow - (z_count - ew) in
  let tr_man := Z.land (shl w tr_man (z_count - ew)) (2 ^ mw - 1) in
  let val_pow := if z_count =? w then 0 else val_pow in
  Z.lor tr_man (shl w (Z.lor val_pow (shl w val_s ew)) mw).

Definition bit_truncate_float (val err : Z) : Z :=
  bit_truncate_fp 32 23 8 149 shifts32 (fun p => decode 23 8 (fast_pow (150 - p))) val err.

Definition bit_truncate_double (val err : Z) : Z :=
  bit_truncate_fp 64 52 11 1074 shifts64
    (fun p => decode 52 11 (fast_pow_double (1075 - p))) val err.

(** truncate.pyx lines 103-107, one element of [_bit_truncate_weights_float].
    [inv_sigma] is the float [1.0 / inv_var**0.5] and [rel] the float
    [fallback * val]; both products are computed by the FPU and supplied. *)
Definition bit_truncate_weight_elem (val : Z) (inv_var_is_zero : bool)
    (inv_sigma rel : Z) : Z :=
  if inv_var_is_zero then bit_truncate_float val rel
  else bit_truncate_float val inv_sigma.

(** truncate.pyx lines 151-152, one element of [_bit_truncate_relative_float]:
    the tolerance is [fabs] of the same product. *)
Definition fabs32 (x : Z) : Z := Z.land x (2 ^ 31 - 1).
Definition bit_truncate_relative_elem (val rel : Z) : Z :=
  bit_truncate_float val (fabs32 rel).
