(** What the flow tasks should do. *)
From Coq Require Import List Arith Lia.
From Verif Require Import PyStr.
Import ListNotations.
Open Scope nat_scope.

(** [outs] are the successive complete blocks of [k] inputs, [rest] the others. *)
Definition Blocks {A} (k : nat) (inputs : list A) (outs : list (list A)) (rest : list A) : Prop :=
  inputs = concat outs ++ rest /\ (forall b, In b outs -> length b = k) /\ length rest < k.
(** The outputs that are there. *)
Fixpoint given {A} (l : list (option A)) : list A :=
  match l with [] => [] | Some x :: l => x :: given l | None :: l => given l end.
(** The last element satisfying [P]. *)
Definition LastWith {A} (P : A -> Prop) (l : list A) (x : A) : Prop :=
  exists a b, l = a ++ x :: b /\ P x /\ forall y, In y b -> ~ P y.
