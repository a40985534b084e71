(** Specifications for bit truncation (C10-C13). *)
From Coq Require Import ZArith.
Open Scope Z_scope.

(** [g] is the smallest power of two above [e] (for [e > 0]). *)
Definition IsGranularity (e g : Z) : Prop :=
  (exists p, 0 <= p /\ g = 2 ^ p) /\ e < g /\ g <= 2 * e.

(** [r] is a multiple of [g] nearest to [v]; half-way cases go to the multiple
    with even quotient. *)
Definition NearestTieEven (g v r : Z) : Prop :=
  exists k, r = k * g
    /\ (forall j, Z.abs (v - r) <= Z.abs (v - j * g))
    /\ (2 * Z.abs (v - r) = g -> Z.even k = true).

(** A signed [w]-bit word. *)
Definition Word (w x : Z) : Prop := - 2 ^ (w - 1) <= x < 2 ^ (w - 1).

(** The value of a finite IEEE number with [mw] mantissa and [ew] exponent
    bits, given as the signed integer with the same bits, in units of the
    smallest positive denormal; [None] for infinities and NaN. *)
Definition ieee_units (mw ew x : Z) : option Z :=
  let p := (x / 2 ^ mw) mod 2 ^ ew in
  let f := x mod 2 ^ mw in
  let s := if x <? 0 then -1 else 1 in
  if p =? 2 ^ ew - 1 then None
  else if p =? 0 then Some (s * f)
  else Some (s * ((f + 2 ^ mw) * 2 ^ (p - 1))).
