(** The expansions of Debye (DLMF 10.19.3 and 10.19.6, Gradshteyn and Ryzhik 8.452 and 8.453) of Bessel
    functions to the second order, as spherical Bessel functions; without reference to the model. *)
From Coq Require Import Reals.
Open Scope R_scope.

Definition U1 (p : R) : R := (3 * p - 5 * p ^ 3) / 24.
Definition U2 (p : R) : R := (81 * p ^ 2 - 462 * p ^ 4 + 385 * p ^ 6) / 1152.
(** At [z = nu / cosh a], [nu = l + 1/2], with [u1] and [u2] in the place of [U1] and [U2]. *)
Definition debye_low (u1 u2 : R -> R) (l a : R) : R :=
  let nu := l + 1 / 2 in
  sqrt (PI / (2 * (nu / cosh a))) * (exp (nu * (tanh a - a)) / sqrt (2 * PI * (nu * tanh a)) *
    (1 + u1 (/ tanh a) / nu + u2 (/ tanh a) / nu ^ 2)).
(** At [z = nu / cos b]; the coefficients are [U1] and [U2] at [i cot b]. *)
Definition V1 (p : R) : R := (3 * p + 5 * p ^ 3) / 24.
Definition V2 (p : R) : R := - (81 * p ^ 2 + 462 * p ^ 4 + 385 * p ^ 6) / 1152.
Definition debye_high (v1 v2 : R -> R) (l b : R) : R :=
  let nu := l + 1 / 2 in
  let x := nu * tan b - nu * b - PI / 4 in
  sqrt (PI / (2 * (nu / cos b))) * (sqrt (2 / (PI * (nu * tan b))) *
    (cos x * (1 + v2 (/ tan b) / nu ^ 2) + sin x * (v1 (/ tan b) / nu))).
