(** Specifications for [copy_datasets_filter] (C58). *)
From Coq Require Import String.
From Coq Require Import List Ascii Bool Arith ZArith.
From Verif Require Import PyBase PyStr SliceModel RedModel RedSpec FiltModel.
Import ListNotations.
Open Scope list_scope.
Open Scope nat_scope.

(** The positions a selection stands for on an axis of length [n]: those of
    the Python slice, or each index in turn, negative ones from the end. *)
Inductive Stands : fsel -> nat -> list nat -> Prop :=
  | St_slice : forall s n zs, slice_positions s (Z.of_nat n) = Ok zs -> Stands (FSlice s) n (map Z.to_nat zs)
  | St_list : forall l n ps, Forall2 (fun z p => p < n /\ (z = Z.of_nat p \/ z = Z.of_nat p - Z.of_nat n)%Z) l ps ->
      Stands (FList l) n ps
  | St_arr : forall l n ps, Stands (FList l) n ps -> Stands (FArr l) n ps.
(** What the selections take from the axis called [a]. *)
Inductive Takes (sel : list (str * fsel)) : str -> nat -> list nat -> Prop :=
  | Tk_sel : forall a s n ps, In (a, s) sel -> Stands s n ps -> Takes sel a n ps
  | Tk_all : forall a n, ~ In a (map fst sel) -> Takes sel a n (seq 0 n).
(** One list of positions per axis. *)
Inductive TakesAll (sel : list (str * fsel)) : list str -> list nat -> list (list nat) -> Prop :=
  | Ta_nil : TakesAll sel [] [] []
  | Ta_cons : forall a n ps axes sh P, Takes sel a n ps -> TakesAll sel axes sh P -> TakesAll sel (a :: axes) (n :: sh) (ps :: P).
(** The element at [idx] of the selected array is the one at [src] of the whole one. *)
Inductive Picks : list (list nat) -> list nat -> list nat -> Prop :=
  | Pk_nil : Picks [] [] []
  | Pk_cons : forall p x y P idx src, nth_error p x = Some y -> Picks P idx src -> Picks (p :: P) (x :: idx) (y :: src).
Definition Selected {A} (P : list (list nat)) (G R : nd A) : Prop :=
  shp R = map (@length nat) P /\ forall idx src, Picks P idx src -> elt R idx = elt G src.
