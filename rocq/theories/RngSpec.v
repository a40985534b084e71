(** Which numbers go where, and how arguments are bound. *)
From Coq Require Import String.
From Coq Require Import List Ascii Bool Arith ZArith.
From Verif Require Import PyBase PyStr MemModel RngModel.
Import ListNotations.
Open Scope list_scope.
Open Scope nat_scope.

Section Draws.
Context {G V : Type}.
Variable draw : G -> V * G.
Fixpoint after (g : G) (k : nat) : G := match k with 0 => g | S k => after (snd (draw g)) k end.
Definition nth_draw (g : G) (k : nat) : V := fst (draw (after g k)).
End Draws.
(** The smallest size of parts with which [threads] parts suffice. *)
Definition PartSize (n threads step : nat) : Prop := n <= threads * step /\ forall s, n <= threads * s -> step <= s.

(** Signatures of NumPy's methods. *)
Definition signatures : list (str * list str) := [
  (s_ "random", [s_ "size"; s_ "dtype"; s_ "out"]);
  (s_ "integers", [s_ "low"; s_ "high"; s_ "size"; s_ "dtype"; s_ "endpoint"]);
  (s_ "uniform", [s_ "low"; s_ "high"; s_ "size"]);
  (s_ "normal", [s_ "loc"; s_ "scale"; s_ "size"]);
  (s_ "standard_normal", [s_ "size"; s_ "dtype"; s_ "out"]);
  (s_ "poisson", [s_ "lam"; s_ "size"]);
  (s_ "power", [s_ "a"; s_ "size"])].
(** The data type of the numbers if none is asked for. *)
Definition default_dtype (name : str) : dtype := if existsb (seqb name) [s_ "integers"; s_ "poisson"] then int64 else float64.
(** A call gives [v] for the parameter [name]. *)
Definition Given (sig : list str) (args : list val) (kwargs : list (str * val)) (name : str) (v : val) : Prop :=
  (exists i, nth_error sig i = Some name /\ nth_error args i = Some v) \/ dget name kwargs = Some v.
(** A call that Python accepts: no parameter twice, no unknown ones. *)
Definition Accepted (sig : list str) (args : list val) (kwargs : list (str * val)) : Prop :=
  length args <= length sig /\ forall k v, dget k kwargs = Some v -> exists i, nth_error sig i = Some k /\ length args <= i.
