(** Specifications for the truncation of arrays (C346-C352). *)
From Coq Require Import ZArith Reals List.
From Verif Require Import TruncSpec BtModel.
Import ListNotations.
Open Scope R_scope.

(** The float with the bits of the signed integer [x] is the finite number [v]; likewise for double. *)
Definition IsFloat (x : Z) (v : R) : Prop := exists u, ieee_units 23 8 x = Some u /\ v = IZR u / 2 ^ 149.
Definition IsDouble (x : Z) (v : R) : Prop := exists u, ieee_units 52 11 x = Some u /\ v = IZR u / 2 ^ 1074.

(** The array after the loop has the entries [f i (l i)]. *)
Definition Entrywise (f : nat -> Z -> Z) (l l' : list Z) : Prop :=
  length l' = length l /\ forall i v, nth_error l i = Some v -> nth_error l' i = Some (f i v).
(** Each index below [n] once. *)
Definition Order (n : nat) (order : list nat) : Prop := NoDup order /\ forall i, In i order <-> (i < n)%nat.
(** An array that the loops take. *)
Definition Plain (d : dtype) (a : array) (n : nat) : Prop :=
  a_dtype a = d /\ a_writeable a = true /\ a_shape a = [n] /\ length (a_data a) = n.
(** Complex numbers, as pairs of doubles, of modulus at most [M] *)
Definition Doubles (row : list (Z * Z)) (M : R) : Prop :=
  forall v, In v row -> Word 64 (fst v) /\ Word 64 (snd v)
    /\ exists x y, IsDouble (fst v) x /\ IsDouble (snd v) y /\ (x * x + y * y <= M * M)%R.
