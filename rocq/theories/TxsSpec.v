(** Specification for concatenating what was concatenated before. *)
From Coq Require Import String.
From Coq Require Import List Ascii Bool Arith ZArith.
From Verif Require Import PyBase PyStr MemModel TodModel TodSpec TxModel TxSpec.
Import ListNotations.
Open Scope list_scope.

(** A container that was filled, as an input: cells that were never written are left out. *)
Definition written {V} (l : list (option V)) : list V := flat_map (fun c => match c with Some v => [v] | None => [] end) l.
Definition as_input {V} (o : out V) : tod V :=
  mktod (o_attrs o) (o_history o) (map (fun p => (fst p, written (snd p))) (o_index o)) (o_reverse o)
    (map (fun p => (fst p, mkdset (od_axis (snd p)) (od_attrs (snd p)) (written (od_rows (snd p))))) (o_dsets o)).
(** There are times. *)
Definition Some_times {V} (axes : list str) (files : list (tod V)) : Prop := forall a, In a axes -> whole_index a files <> [].
