(** What the extensions are meant to do. *)
From Coq Require Import List Ascii Bool Arith ZArith.
From Verif Require Import PyBase PyStr PipeModel ExtModel.
Import ListNotations.
Open Scope list_scope.
Open Scope nat_scope.

Section Chain.
Context {V : Type}.
Notation pv := (pv V).

(** [None] is not passed on. *)
Definition some_of (l : list pv) : list pv :=
  filter (fun v => match v with PNone => false | _ => true end) l.
(** The functions one after the other, on a whole list. *)
Fixpoint through (fs : list (pv -> pv)) (l : list pv) : list pv :=
  match fs with
  | [] => l
  | f :: r => through r (some_of (map f l))
  end.
Definition not_tuple (v : pv) : Prop := forall l, v <> PTuple l.
End Chain.

(** The directory part of a path: up to the last slash. *)
Definition in_dir (f : str) : Prop := In "/"%char f.

(** There is exactly one source of data if [process] takes some, and none
    otherwise. *)
Definition one_source (c : iocfg) (p : procspec) (n_in : nat) : Prop :=
  (p_nargs p = 0 /\ input_root c = none_ /\ n_in = 0) \/
  (p_nargs p = 1 /\ input_root c = none_ /\ n_in = 1) \/
  (p_nargs p = 1 /\ input_root c <> none_ /\ n_in = 0).
Definition plain_args (p : procspec) : Prop :=
  p_varargs p = false /\ p_varkw p = false /\ p_kwonly p = false /\ p_defaults p = false.

Section Files.
Context {V U : Type}.
(** The files read and written. *)
Definition reads (l : list (eff V)) : list str :=
  flat_map (fun e => match e with ERead f => [f] | _ => [] end) l.
Definition writes (l : list (eff V)) : list (str * V) :=
  flat_map (fun e => match e with EWrite f v => [(f, v)] | _ => [] end) l.
Definition all_effects (ls : list (list (eff V) * res (option V))) : list (eff V) := flat_map fst ls.
Definition succeeded (x : list (eff V) * res (option V)) : Prop := exists v, snd x = Ok v.
End Files.
