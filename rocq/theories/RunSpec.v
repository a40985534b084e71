(** What templates, job scripts and jobs should be. *)
From Coq Require Import String.
From Coq Require Import List Ascii Bool Arith ZArith.
From Verif Require Import PyBase PyStr MemModel RunModel.
Import ListNotations.
Open Scope list_scope.

(** The text of a value under a format specification. *)
Definition Field (show_list : list str -> str) (v : val) (spec s : str) : Prop :=
  (spec = [] /\ s = show_val show_list v) \/ (spec = s_ "s" /\ v = VStr s) \/ (spec = s_ "d" /\ exists z, v = VInt z /\ s = show_int z).
(** Names of fields: not numbers, no punctuation with a meaning. *)
Definition Name (n : str) : Prop :=
  (forall c, In c (s_ "{}[.!:") -> ~ In c n) /\ exists c, In c n /\ (nat_of_ascii c < 48 \/ 57 < nat_of_ascii c).
(** Formatting: texts stand for themselves, doubled braces for one, fields for
    their values. *)
Inductive Formats (show_list : list str -> str) (look : str -> option val) : str -> str -> Prop :=
| F_nil : Formats show_list look [] []
| F_char : forall c s r, c <> "{"%char -> c <> "}"%char -> Formats show_list look s r -> Formats show_list look (c :: s) (c :: r)
| F_open : forall s r, Formats show_list look s r -> Formats show_list look ("{" :: "{" :: s)%char ("{"%char :: r)
| F_close : forall s r, Formats show_list look s r -> Formats show_list look ("}" :: "}" :: s)%char ("}"%char :: r)
| F_field : forall n v t s r, Name n -> look n = Some v -> Field show_list v [] t -> Formats show_list look s r ->
    Formats show_list look (("{"%char :: n) ++ "}"%char :: s) (t ++ r)
| F_spec : forall n spec v t s r, Name n -> look n = Some v -> Field show_list v spec t -> Formats show_list look s r ->
    Formats show_list look (("{"%char :: n) ++ (":"%char :: spec) ++ "}"%char :: s) (t ++ r).

(** [a] somewhere in [s] *)
Definition Inside (a s : str) : Prop := exists x y, s = x ++ a ++ y.
