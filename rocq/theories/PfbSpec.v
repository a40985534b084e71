(** Specification of the filter bank, C149-C152. *)
From Coq Require Import List Bool Reals ZArith Arith.
From Verif Require Import PyBase FftModel.
Import ListNotations.
Open Scope R_scope.

Fixpoint rsum (n : nat) (f : nat -> R) : R := match n with O => 0 | S m => rsum m f + f m end.
(** The filter bank: a transform of length [lblock] of the weighted sum of [ntap] blocks *)
Definition taps (ntap lblock : nat) (w ts : nat -> R) (b j : nat) : R :=
  rsum ntap (fun a => ts ((b + a) * lblock + j)%nat * w (a * lblock + j)%nat).
Definition channel (ntap lblock : nat) (w ts : nat -> R) (b f : nat) : Cx :=
  csum lblock (fun j => cmul (rc (taps ntap lblock w ts b j)) (root lblock (- Z.of_nat (j * f)))).
(** The transform of a window at any frequency, in units of the width of a channel *)
Definition response (N lblock : nat) (w : nat -> R) (r : R) : Cx :=
  csum N (fun t => cmul (rc (w t)) (cos (2 * PI * INR t * r / INR lblock), - sin (2 * PI * INR t * r / INR lblock))).
(** The correlation of the window with itself moved by [d] samples *)
Definition autocorrelation (N : nat) (w : nat -> R) (d : nat) : R :=
  rsum (N - d) (fun t => w t * w (t + d)%nat).
(** The alternating sum *)
Definition alternating (N : nat) (w : nat -> R) : R := rsum N (fun t => if Nat.even t then w t else - w t).
