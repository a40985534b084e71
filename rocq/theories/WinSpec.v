(** What the windows of a filter bank are, apart from the code. *)
From Coq Require Import List Reals.
Open Scope R_scope.

(** The cardinal sine [f]: 1 at 0, [sin (pi x) / (pi x)] elsewhere *)
Definition is_sinc (f : R -> R) : Prop :=
  f 0 = 1 /\ forall x, PI * x * f x = sin (PI * x).
(** The number [n] of a window *)
Definition at_ (w : list R) (n : nat) : R := nth n w 0.
(** The sinc is sampled [lblock] times in each of its [ntap] unit intervals, its peak after half of the samples *)
Definition place (ntap lblock n : nat) : R := INR n / INR lblock - INR ntap / 2.
(** A raised cosine with peak [a + b] in the middle of [M] samples, [a - b] at both ends *)
Definition raised (a b : R) (M n : nat) : R :=
  a - b * cos (2 * PI * INR n / INR (M - 1)).
