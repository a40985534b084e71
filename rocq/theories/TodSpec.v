(** Specification for the concatenation of time-ordered data. *)
From Coq Require Import List ZArith.
From Verif Require Import PyBase TodModel.
Import ListNotations.
Open Scope Z_scope.

(** Python's [l[a:b]]. *)
Definition clip (n : nat) (z : Z) : nat :=
  Z.to_nat (Z.min (Z.of_nat n) (Z.max 0 (if z <? 0 then Z.of_nat n + z else z))).
Definition bound (n : nat) (default : nat) (b : option Z) : nat :=
  match b with None => default | Some z => clip n z end.
Definition py_slice {A} (a b : option Z) (l : list A) : list A :=
  let i := bound (length l) 0 a in
  let j := bound (length l) (length l) b in
  firstn (j - i) (skipn i l).

(** The concatenation of all inputs. *)
Definition all_index {A B} (files : list (todfile A B)) : list A := flat_map f_index files.
Definition all_data {A B} (files : list (todfile A B)) : list B := flat_map f_data files.
Definition FilesOk {A B} (files : list (todfile A B)) : Prop :=
  files <> [] /\ forall f, In f files -> length (f_data f) = length (f_index f).

(** A start bound that is not before the beginning. *)
Definition StartIn (n : nat) (a : option Z) : Prop :=
  match a with None => True | Some z => - Z.of_nat n <= z end.
(** The bounds in the order in which they are used (a lower bound past a
    higher one selects nothing in Python). *)
Definition resolve (n : nat) (default : Z) (b : option Z) : Z :=
  match b with None => default | Some z => if z <? 0 then Z.of_nat n + z else z end.
Definition InOrder (n : nat) (a b : option Z) : Prop :=
  resolve n 0 a <= Z.min (Z.of_nat n) (resolve n (Z.of_nat n) b).

Definition Ascending (l : list Z) : Prop :=
  forall i j x y, (i < j)%nat -> nth_error l i = Some x -> nth_error l j = Some y -> x <= y.
