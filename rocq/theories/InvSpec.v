(** What an inverse is (C353-C357). *)
From Coq Require Import ZArith Reals.
From Verif Require Import TruncSpec BtSpec.
Open Scope R_scope.

(** [r] is a float, and none is nearer to [v]; the same for doubles. *)
Definition NearestFloat (v : R) (w : Z) : Prop :=
  Word 32 w /\ exists r, IsFloat w r /\ forall w' s, Word 32 w' -> IsFloat w' s -> Rabs (r - v) <= Rabs (s - v).
Definition NearestDouble (v : R) (w : Z) : Prop :=
  Word 64 w /\ exists r, IsDouble w r /\ forall w' s, Word 64 w' -> IsDouble w' s -> Rabs (r - v) <= Rabs (s - v).
