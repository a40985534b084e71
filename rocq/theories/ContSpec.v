(** Specifications for containers. *)
From Coq Require Import String.
From Coq Require Import List Ascii Bool Arith ZArith Sorting.Sorted.
From Verif Require Import PyBase PyStr MemModel ContModel.
Import ListNotations.
Open Scope list_scope.
Open Scope nat_scope.

(** * The order of names *)
(** [a] comes before [b]: at the first difference its byte is smaller, or it ends there. *)
Inductive before : str -> str -> Prop :=
  | B_end : forall c s, before [] (c :: s)
  | B_char : forall x y a b, nat_of_ascii x < nat_of_ascii y -> before (x :: a) (y :: b)
  | B_next : forall x a b, before a b -> before (x :: a) (x :: b).
Definition listed (l : list str) : Prop := StronglySorted before l.

(** * Inheritance *)
Section Classes.
Context {D : Type}.
Variable env : nat -> @cls D.
Variable mro : nat -> list nat.
(** Resolution orders: a class comes first in its own, each class appears
    once, and the order of a class has the orders of all its bases in it. *)
Definition mro_ok : Prop := forall c, (exists r, mro c = c :: r) /\ NoDup (mro c) /\
  forall k, In k (mro c) -> incl (mro k) (mro c).
(** Dictionaries have every key once. *)
Definition specs_ok : Prop := forall c d, c_spec (env c) = Some d -> NoDup (map fst d).

(** The class itself declares dataset [n] as [v]. *)
Definition declares (k : nat) (n : str) (v : D) : Prop := exists d, c_spec (env k) = Some d /\ In (n, v) d.
(** [v] is the declaration of [n] in the most derived class that has one. *)
Definition most_derived (order : list nat) (n : str) (v : D) : Prop :=
  exists p k q, order = p ++ k :: q /\ declares k n v /\ forall k' v', In k' p -> ~ declares k' n v'.
Definition has_axis (k : nat) (a : str) : Prop := exists l, c_axes (env k) = Some l /\ In a l.
End Classes.

(** * Selections *)
Section Select.
Context {S : Type}.
Variable whole : S.
(** What is applied to one axis. *)
Inductive axis_gets (args : list (str * S)) : axis -> S -> Prop :=
  | G_sel : forall a s, In (a, s) args -> axis_gets args (AName a) s
  | G_whole : forall a, ~ In a (map fst args) -> axis_gets args (AName a) whole
  | G_len : forall n, axis_gets args (ALen n) whole.
Definition selected (args : list (str * S)) (axs : list axis) : Prop := exists a s, In (a, s) args /\ In (AName a) axs.
End Select.

(** * Redistribution *)
(** The entry [a] names axis [i] of a dataset with [n] dimensions. *)
Inductive names_axis (n : nat) (labels : option (list str)) : axarg -> nat -> Prop :=
  | N_label : forall ls s i, labels = Some ls -> nth_error ls i = Some s ->
      (forall j, j < i -> nth_error ls j <> Some s) -> i < n -> names_axis n labels (XName s) i
  | N_pos : forall i, i < n -> names_axis n labels (XInt (Z.of_nat i)) i
  | N_neg : forall i, i < n -> names_axis n labels (XInt (Z.of_nat i - Z.of_nat n)) i.
(** The first entry that names an axis of the dataset. *)
Inductive first_axis (n : nat) (labels : option (list str)) : list axarg -> option nat -> Prop :=
  | F_none : first_axis n labels [] None
  | F_here : forall a r i, names_axis n labels a i -> first_axis n labels (a :: r) (Some i)
  | F_skip : forall a r o, (forall i, ~ names_axis n labels a i) -> first_axis n labels r o -> first_axis n labels (a :: r) o.
(** The distributed datasets anywhere below. *)
Fixpoint dist_datasets (name : str) (x : node) : list (str * node) :=
  match x with
  | NGroup l => flat_map (fun y => dist_datasets (fst y) (snd y)) l
  | NDist _ _ => [(name, x)]
  | NOther => []
  end.
