(** What container tasks should do. *)
From Coq Require Import String.
From Coq Require Import List Ascii Bool Arith.
From Verif Require Import PyStr MemModel GlobModel CtaskModel.
Import ListNotations.
Open Scope list_scope.

(** A tree with a number that is not finite, in a dataset of numbers. *)
Inductive NotFinite : node -> Prop :=
| NF_data : forall l, In NaN l \/ In Inf l -> NotFinite (DNum l)
| NF_group : forall items n, In n items -> NotFinite n -> NotFinite (Grp items).
(** The text of a format string, given the values of the variables. *)
Inductive Formats (show : aval -> str) (lookup : str -> option aval) : fstring -> str -> Prop :=
| F_nil : Formats show lookup [] []
| F_lit : forall s f r, Formats show lookup f r -> Formats show lookup (Lit s :: f) (s ++ r)
| F_var : forall n v f r, lookup n = Some v -> Formats show lookup f r -> Formats show lookup (Var n :: f) (show v ++ r).
(** The text of an attribute as a tag. *)
Definition default_name : fstring := [Var (s_ "output_root"); Var (s_ "tag"); Lit (s_ ".h5")].
Definition default_tag : fstring := [Var (s_ "tag")].
