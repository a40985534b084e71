(** Specification for LoadModel.v, without its helper functions. *)
From Coq Require Import List Ascii Bool Arith.
From Verif Require Import PyBase PyStr.
Import ListNotations.

(** A dictionary given as the list of its entries, without repeated keys. *)
Definition entry {V} (l : list (str * V)) (k : str) (v : V) : Prop := In (k, v) l.
Definition no_entry {V} (l : list (str * V)) (k : str) : Prop := forall v, ~ In (k, v) l.
Definition dict {V} (l : list (str * V)) : Prop := NoDup (map fst l).

(** Dictionaries laid over one another, the last on top: the entry that shows. *)
Inductive shows {V} (k : str) : list (list (str * V)) -> V -> Prop :=
| shows_top ls l v : entry l k v -> shows k (ls ++ [l]) v
| shows_below ls l v : no_entry l k -> shows k ls v -> shows k (ls ++ [l]) v.
Definition hidden {V} (k : str) (ls : list (list (str * V))) : Prop := forall l, In l ls -> no_entry l k.
