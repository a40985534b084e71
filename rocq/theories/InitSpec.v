(** Specifications for the creation of containers (C93). *)
From Coq Require Import String.
From Coq Require Import List Ascii Bool Arith.
From Verif Require Import PyBase PyStr ContModel RedModel RedSpec InitModel.
Import ListNotations.
Open Scope list_scope.
Open Scope nat_scope.

Section Init.
Context {M A : Type}.
Variable mlen : M -> nat.
Variable arange : nat -> M.
Variable zero : A.
(** The definition of an axis: the argument, a number standing for that many
    indices; only without an argument that of the other container. *)
Inductive Defines (kwargs : list (str * @kwarg M)) (axes_from : option (@cont M A)) (a : str) : M -> Prop :=
  | D_map : forall m, In (a, KMap m) kwargs -> Defines kwargs axes_from a m
  | D_int : forall n, In (a, KInt n) kwargs -> Defines kwargs axes_from a (arange n)
  | D_from : forall c m, ~ In a (map fst kwargs) -> axes_from = Some c -> In (a, m) (k_index c) -> Defines kwargs axes_from a m.
(** The shape of a dataset follows from its axes. *)
Inductive HasShape (index : list (str * M)) : list axis -> list nat -> Prop :=
  | S_nil : HasShape index [] []
  | S_name : forall a m axs sh, In (a, m) index -> HasShape index axs sh -> HasShape index (AName a :: axs) (mlen m :: sh)
  | S_len : forall n axs sh, HasShape index axs sh -> HasShape index (ALen n :: axs) (n :: sh).
(** What a new dataset is like. *)
Definition Fresh (distributed allow_chunked : bool) (index : list (str * M)) (d : ispec) (x : @idset A) : Prop :=
  b_axes x = i_axes d /\ HasShape index (i_axes d) (shp (b_val x)) /\ (forall idx, elt (b_val x) idx = zero) /\
  (distributed && i_distributed d = false -> b_dist x = None) /\
  (distributed && i_distributed d = true -> exists k a, b_dist x = Some k /\ nth_error (i_axes d) k = Some a /\
     (forall j, j < k -> nth_error (i_axes d) j <> Some a) /\ (forall b, i_dist d = Some b -> a = b) /\ (i_dist d = None -> k = 0)) /\
  (allow_chunked = false -> b_chunks x = None) /\ (i_chunks d = None -> b_chunks x = None) /\
  (forall cs, allow_chunked = true -> i_chunks d = Some cs -> exists r, b_chunks x = Some r /\ length r = length (shp (b_val x)) /\
     forall i c l, nth_error cs i = Some c -> nth_error (shp (b_val x)) i = Some l -> nth_error r i = Some (Nat.min c l)).
(** The specification makes sense for these axes. *)
Definition Sensible (axes : list str) (d : ispec) : Prop :=
  (forall a, In (AName a) (i_axes d) -> In a axes) /\
  match i_dist d with Some a => In a (i_axes d) | None => i_axes d <> [] end /\
  (forall cs, i_chunks d = Some cs -> length (i_axes d) <= length cs).
End Init.
(** Same shape and same values inside it. *)
Definition SameArray {A} (a b : nd A) : Prop := shp a = shp b /\ forall idx, InShape idx (shp a) -> elt a idx = elt b idx.
