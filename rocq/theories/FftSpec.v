(** Specification of the transforms, C140-C144. *)
From Coq Require Import List Bool Reals ZArith Arith.
From Verif Require Import PyBase FftModel.
Import ListNotations.
Open Scope R_scope.

(** The indices of an array *)
Definition index_of (sh k : list nat) : Prop := Forall2 lt k sh.
(** The same array *)
Definition same (x y : arr) : Prop :=
  ashape x = ashape y /\ forall k, index_of (ashape x) k -> aval x k = aval y k.
(** The result of a call is this array *)
Definition gives (r : res arr) (y : arr) : Prop := exists z, r = Ok z /\ same z y.

(** The value of the transform at the frequency [k]: the sum over the axis of
    [x(j) exp(-2 pi i j k / n)], one axis after the other *)
Fixpoint spectrum (sh axes : list nat) (x : fn) (k : list nat) : Cx :=
  match axes with
  | [] => x k
  | a :: r => csum (nth a sh 0%nat) (fun j =>
      cmul (root (nth a sh 0%nat) (- Z.of_nat (j * nth a k 0%nat))) (spectrum sh r x (upd k a j)))
  end.

(** Circular convolution over the axes: the sum of [x(i) y(j)] over all [i], [j] with
    [i + j = k] on each axis, up to multiples of its length *)
Fixpoint circular (sh axes : list nat) (P : list nat -> list nat -> Cx) (i j : list nat) : Cx :=
  match axes with
  | [] => P i j
  | a :: r => csum (nth a sh 0%nat) (fun m =>
      circular sh r P (upd i a m)
        (upd j a (Z.to_nat ((Z.of_nat (nth a i 0%nat) - Z.of_nat m) mod Z.of_nat (nth a sh 0%nat)))))
  end.
Definition circular_conv sh axes (x y : fn) : fn := fun k => circular sh axes (fun i j => cmul (x i) (y j)) k k.
(** Linear convolution: [i + j = k] exactly *)
Fixpoint linear (axes : list nat) (P : list nat -> list nat -> Cx) (i j : list nat) : Cx :=
  match axes with
  | [] => P i j
  | a :: r => csum (S (nth a i 0%nat)) (fun m => linear r P (upd i a m) (upd j a (nth a i 0%nat - m)))
  end.
Definition linear_conv axes (x y : fn) : fn := fun k => linear axes (fun i j => cmul (x i) (y j)) k k.
(** [x] vanishes from the index [p a] on, on each of the axes *)
Definition supported (axes : list nat) (p : nat -> nat) (x : fn) : Prop :=
  forall i a, In a axes -> (p a <= nth a i 0)%nat -> x i = C0.
