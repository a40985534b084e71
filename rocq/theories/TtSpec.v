(** Specification of the task, C145-C148. *)
From Coq Require Import List Bool Reals Arith.
From Verif Require Import PyBase PyStr TtModel.
Import ListNotations.
Open Scope R_scope.

Definition index_in (sh k : list nat) : Prop := Forall2 lt k sh.
(** The parts of an index which belong to the axes of the weights, in the order of the data *)
Fixpoint project {A} (das was : list str) (k : list A) : list A :=
  match das, k with
  | a :: das, i :: k => if mem a was then i :: project das was k else project das was k
  | _, _ => []
  end.
(** The axes of the weights are axes of the data, in the same order. *)
Inductive subseq : list str -> list str -> Prop :=
| sub_nil : subseq [] []
| sub_skip a s t : subseq s t -> subseq s (a :: t)
| sub_take a s t : subseq s t -> subseq (a :: s) (a :: t).
(** The position of a name *)
Fixpoint place (a : str) (l : list str) : nat :=
  match l with [] => 0 | b :: l => if seqb a b then 0 else S (place a l) end.
(** Weights by name: for each axis of the weights, the part of the index on the axis of that name *)
Definition by_name (das was : list str) (k : list nat) : list nat :=
  map (fun a => nth (place a das) k 0%nat) was.
(** A truncation with a tolerance, which is not negative (C12, C13) *)
Definition truncates (trunc : R -> R -> R) : Prop := forall v e, 0 <= e -> Rabs (trunc v e - v) <= e.
