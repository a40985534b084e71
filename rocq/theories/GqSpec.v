(** Specifications for the quickselect over any numbers. *)
From Coq Require Import List ZArith Bool Reals.
From Flocq Require Import Core.Zaux Core.Raux.
From Verif Require Import PyBase MedModel MedSpec TruncSpec BtSpec GqModel.
Import ListNotations.

(** All that is asked of [<]: of two numbers at most one is below the other.  (True of doubles with
    NaN.) *)
Definition asymmetric {D} (lt : D -> D -> bool) : Prop := forall x y, lt x y = true -> lt y x = false.
(** The answer consists of data. *)
Definition of_data {D W} (l : list (D * W)) (a : answer D) : Prop :=
  match a with
  | One x => In x (map fst l)
  | Mean x y => In x (map fst l) /\ In y (map fst l)
  end.

(** A finite double and its value, in units of the smallest positive one. *)
Definition Units (w u : Z) : Prop := Word 64 w /\ ieee_units 52 11 w = Some u.
(** A weight that is [n] times [2 ^ e]. *)
Definition Multiple (e w n : Z) : Prop := Word 64 w /\ (0 <= n)%Z /\ IsDouble w (IZR n * bpow radix2 e).
(** Data and weights with their values. *)
Definition Row (weight : Z -> Z -> Prop) (l : list (Z * Z)) (z : list datum) : Prop :=
  Forall2 (fun x y => Units (fst x) (fst y) /\ weight (snd x) (snd y)) l z.
(** An answer and its value. *)
Definition answer_units {D} (units : D -> Z -> Prop) (a : answer D) (b : answer Z) : Prop :=
  match a, b with
  | One x, One u => units x u
  | Mean x y, Mean u v => units x u /\ units y v
  | _, _ => False
  end.
(** [a] is the weighted median of the data [z]. *)
Definition IsMedian (z : list datum) (m : method) (a : answer Z) : Prop :=
  exists b, answer_units Units a b /\ median_answer (effective z) m (fraction b).
