(** Specification for SysModel.v, without its helper functions. *)
From Coq Require Import String.
From Coq Require Import List Ascii Bool Arith ZArith.
From Verif Require Import PyBase PyStr.
Import ListNotations.
Open Scope list_scope.
Open Scope nat_scope.

(** [pat] does not occur in [s]. *)
Definition absent (pat s : str) : Prop := forall a b, s <> a ++ pat ++ b.
(** [s ++ pat ++ …] has its first [pat] right after [s]. *)
Definition first_at (pat s : str) : Prop := absent pat (s ++ removelast pat).

(** The number written as a list of decimal digits. *)
Fixpoint number (ds : list nat) : Z :=
  match ds with [] => 0%Z | d :: t => (Z.of_nat d * 10 ^ Z.of_nat (length t) + number t)%Z end.
Definition written (ds : list nat) : str := map (fun d => ascii_of_nat (48 + d)) ds.
Definition digit_list (ds : list nat) : Prop := ds <> [] /\ forall d, In d ds -> d < 10.

(** A path as found in /proc/<pid>/cgroup: printable, without blanks at the ends. *)
Definition visible (c : ascii) : Prop := 32 < nat_of_ascii c.
Definition path_like (p : str) : Prop := p <> [] /\ forall c, In c p -> visible c.

(** Sum of a function over a list. *)
Fixpoint total {A} (f : A -> Z) (l : list A) : Z := match l with [] => 0%Z | a :: t => (f a + total f t)%Z end.
