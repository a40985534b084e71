(** When a global slice with a step is right, without reference to the model. *)
From Coq Require Import List ZArith Bool.
From Verif Require Import PyBase PartSpec SliceModel SliceSpec.
Import ListNotations.
Open Scope Z_scope.

(** Every rank whose block starts inside of the slice, behind its first element, starts at an element of it. *)
Definition InPhase (s : pslice) (n size : nat) : Prop :=
  forall r, (r < size)%nat -> (start_of n size r < start_of n size (S r))%nat ->
    let a := py_bound (Z.of_nat n) 0 (sl_start s) in
    let b := py_bound (Z.of_nat n) (Z.of_nat n) (sl_stop s) in
    a < Z.of_nat (start_of n size r) < b -> (py_step (sl_step s) | Z.of_nat (start_of n size r) - a).

(** The elements that a rank with the elements from [off] chooses: the steps are counted from its first one. *)
Definition own_step (s : pslice) (n : nat) (off x : nat) : bool :=
  let a := py_bound (Z.of_nat n) 0 (sl_start s) in
  let b := py_bound (Z.of_nat n) (Z.of_nat n) (sl_stop s) in
  (a <=? Z.of_nat x) && (Z.of_nat x <? b) && ((Z.of_nat x - Z.max a (Z.of_nat off)) mod py_step (sl_step s) =? 0).
(** Elements with their positions. *)
Definition numbered {A} (from : nat) (l : list A) : list (nat * A) := combine (seq from (length l)) l.
