(** Specifications for the quickselect with rounded sums. *)
From Coq Require Import List ZArith Reals.
From Verif Require Import MedModel MedSpec GqModel GqSpec.
Import ListNotations.
Open Scope R_scope.

(** The elements of an answer. *)
Definition members {D} (a : answer D) : list D := match a with One x => [x] | Mean x y => [x; y] end.
(** The value [v] is one at which the cumulative weight passes the target [t], but for [e]: the
    weight below [v] is at most [t + e] and the weight up to [v] at least [t - e]. *)
Definition NearQuantile (z : list datum) (t e : R) (v : Z) : Prop :=
  IZR (weight_below z v) <= t + e /\ t - e <= IZR (weight_upto z v).
