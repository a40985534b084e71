(** Specifications for file lists (C65, C66, C94). *)
From Coq Require Import String.
From Coq Require Import List Ascii Bool Arith Permutation Sorted.
From Verif Require Import PyBase PyStr AttrModel GlobModel.
Import ListNotations.
Open Scope list_scope.
Open Scope nat_scope.

Definition Magic (s : str) : Prop := In (ch "*") s \/ In (ch "?") s \/ In (ch "[") s.
Definition Zarr (s : str) : Prop := exists t, s = t ++ s_ ".zarr".

Section Files.
Variables (isfile isdir : str -> bool) (glob : str -> list str).
Definition There (s : str) : Prop := (Zarr s /\ isdir s = true) \/ (~ Zarr s /\ isfile s = true).
(** The files named by an argument, in order. *)
Inductive Names : farg -> list str -> Prop :=
  | N_path : forall s, ~ Magic s -> There s -> Names (FStr s) [s]
  | N_glob : forall p l, Magic p -> Permutation (glob p) l -> StronglySorted (fun a b => sleb a b = true) l -> Names (FStr p) l
  | N_list : forall args l, NamesOf args l -> Names (FList args) l
with NamesOf : list farg -> list str -> Prop :=
  | N_nil : NamesOf [] []
  | N_cons : forall x xs l m, Names x l -> NamesOf xs m -> NamesOf (x :: xs) (l ++ m).
(** Patterns only find readable names which are no patterns themselves. *)
Definition Sane : Prop := forall p n, Magic p -> In n (glob p) -> ~ Magic n /\ There n.
End Files.
Scheme Names_ind2 := Induction for Names Sort Prop with NamesOf_ind2 := Induction for NamesOf Sort Prop.
