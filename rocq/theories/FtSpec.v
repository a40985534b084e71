(** Specification of the moving weighted median with doubles. *)
From Coq Require Import List ZArith Reals Bool.
From Flocq Require Import Core.Core.
From Verif Require Import PyBase MedModel MedSpec TruncModel TruncSpec BtModel BtSpec GqSpec.
Import ListNotations.
Open Scope Z_scope.

(** Rounding to the nearest double, ties to even. *)
Definition nearest64 (x : R) : R := round radix2 (FLT_exp (-1074) 53) ZnearestE x.
(** One output cell for the elements [w] of its window, in units of [2 ^ -1074]: the lower or the
    higher median exactly; their mean up to the rounding of the addition and of the division; without
    weight a NaN ([None]) when [nan], else a zero. *)
Definition fcell_ok (nan : bool) (m : method) (w : list datum) (v : option Z) : Prop :=
  (weighty w <> [] -> exists x, v = Some x /\
     match m with
     | MLower => exists u, quantile_lower (weighty w) (weight_total (weighty w)) 2 u /\ Units x u
     | MHigher => exists u, quantile_higher (weighty w) (weight_total (weighty w)) 2 u /\ Units x u
     | MSplit => exists lo hi, quantile_lower (weighty w) (weight_total (weighty w)) 2 lo /\
                   quantile_higher (weighty w) (weight_total (weighty w)) 2 hi /\
                   IsDouble x (nearest64 (nearest64 (IZR (lo + hi) / 2 ^ 1074) / 2))
     end) /\
  (weighty w = [] -> if nan then v = None else exists x, v = Some x /\ Units x 0).
(** Values small enough for the sum of two not to overflow. *)
Definition small_values (l : list datum) : Prop := Forall (fun x => Z.abs (fst x) < 2 ^ 2096) l.
(** Whatever the roundings: the values averaged are values of the window that have weight; one of
    them for the methods other than [MSplit]. *)
Definition shape_cell (nan : bool) (m : method) (w : list datum) (v : option (list Z)) : Prop :=
  (weighty w <> [] -> exists vals, v = Some vals /\ vals <> [] /\ (m <> MSplit -> length vals = 1%nat) /\
     Forall (fun x => exists d, In d (weighty w) /\ Units x (fst d)) vals) /\
  (weighty w = [] -> v = if nan then None else Some [0]).
