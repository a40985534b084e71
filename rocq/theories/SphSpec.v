(** Geometry of vectors with three components, without reference to the model. *)
From Coq Require Import Reals List ZArith.
Import ListNotations.
Open Scope R_scope.

Definition vec : Type := R * R * R.
Definition dotp (u v : vec) : R := let '(a, b, c) := u in let '(x, y, z) := v in a * x + b * y + c * z.
Definition len (u : vec) : R := sqrt (dotp u u).
Definition cross (u v : vec) : vec := let '(a, b, c) := u in let '(x, y, z) := v in (b * z - c * y, c * x - a * z, a * y - b * x).
Definition unit (u : vec) : Prop := dotp u u = 1.
Definition zero : vec := (0, 0, 0).
Definition neg (u : vec) : vec := let '(a, b, c) := u in (- a, - b, - c).
(** [a] is the angle between two vectors. *)
Definition Angle (u v : vec) (a : R) : Prop := 0 <= a <= PI /\ dotp u v = len u * len v * cos a.
(** Three orthogonal unit vectors, right-handed. *)
Definition Basis (u v w : vec) : Prop := unit u /\ unit v /\ unit w /\ dotp u v = 0 /\ dotp u w = 0 /\ dotp v w = 0 /\ cross u v = w.
(** The direction with latitude and longitude. *)
Definition direction (long lat : R) : vec := (cos lat * cos long, cos lat * sin long, sin lat).
(** .. with polar angle and azimuth *)
Definition polar (theta phi : R) : vec := (sin theta * cos phi, sin theta * sin phi, cos theta).
Definition times (k : R) (u : vec) : vec := let '(a, b, c) := u in (k * a, k * b, k * c).
(** Shapes, last axis first: [a] can be broadcast to [s]. *)
Fixpoint FitsRev (a s : list nat) : Prop :=
  match a, s with
  | [], _ => True
  | _ :: _, [] => False
  | x :: a, y :: s => (x = y \/ x = 1%nat) /\ FitsRev a s
  end.
Definition Fits (a s : list nat) : Prop := FitsRev (rev a) (rev s).
(** [s] is the smallest shape to which all of them can be broadcast. *)
Definition Joint (l : list (list nat)) (s : list nat) : Prop :=
  Forall (fun a => Fits a s) l /\ forall r, Forall (fun a => Fits a r) l -> Fits s r.
(** The point a fraction [f] of the way from [u] to [v], at an angle [th] from each other. *)
Definition Between (u v : vec) (th f : R) (s : R * R) : Prop :=
  Angle u (polar (fst s) (snd s)) (f * th) /\ Angle (polar (fst s) (snd s)) v ((1 - f) * th).
(** The pair of numbers at [a] and [a'], divided by its length. *)
Definition Normalised (m m' : Z -> option R) (a a' : Z) : Prop :=
  forall x y, m a = Some x -> m a' = Some y -> (x <> 0 \/ y <> 0)%R ->
  exists k x' y', (0 < k)%R /\ m' a = Some x' /\ m' a' = Some y' /\ x = (k * x')%R /\ y = (k * y')%R /\ (x' ^ 2 + y' ^ 2 = 1)%R.
