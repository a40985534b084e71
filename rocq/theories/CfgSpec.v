(** What is claimed of reading a configuration. *)
From Coq Require Import String.
From Coq Require Import List Ascii Bool Arith ZArith QArith.
From Verif Require Import PyBase PyStr MemModel CfgModel.
Import ListNotations.
Open Scope list_scope.
Open Scope nat_scope.

(** The property object [id] is declared under the name [x], in the class at
    position [n] of the resolution order. *)
Definition declared (mro : list cls) (n : nat) (x : str) (id : nat) : Prop :=
  exists c, nth_error mro n = Some c /\ In (x, EProp id) c.

(** Classes are dictionaries, every property object is declared in one place
    only and exists. *)
Definition well_formed (mro : list cls) (h : heap) : Prop :=
  (forall c, In c mro -> NoDup (map fst c)) /\
  (forall n x id, declared mro n x id -> id < length h) /\
  (forall n x id n' x', declared mro n x id -> declared mro n' x' id -> n = n' /\ x = x').

(** What a property object remembers is right for the class. *)
Definition remembers (mro : list cls) (h : heap) : Prop :=
  forall n x id, declared mro n x id -> p_name (pget h id) = None \/ p_name (pget h id) = Some x.

(** The key under which a property is looked up. *)
Definition key_of (h : heap) (x : str) (id : nat) : str :=
  match p_key (pget h id) with Some k => k | None => x end.
Definition in_config (config : dict) (k : str) : Prop := exists v, dget k config = Some v.

(** No name is declared twice. *)
Definition no_redeclaration (mro : list cls) : Prop :=
  forall n m x id id', declared mro n x id -> declared mro m x id' -> n = m.
(** The declaration in force, seen from the instance. *)
Definition in_force (mro : list cls) (n : nat) (x : str) (id : nat) : Prop :=
  declared mro n x id /\ forall m c, m < n -> nth_error mro m = Some c -> ~ In x (map fst c).

(** Two heaps hold the same properties, but for what they remember: the name,
    and the name as key. *)
Definition same_up_to_memory (mro : list cls) (h h' : heap) : Prop :=
  forall n x id, declared mro n x id ->
    p_type (pget h id) = p_type (pget h' id) /\ p_default (pget h id) = p_default (pget h' id) /\
    key_of h x id = key_of h' x id.

(** A value of a number as a float, the order of floats with infinities. *)
Definition flt_le (a b : flt) : Prop :=
  match a, b with
  | FNan, _ | _, FNan => False
  | FInf true, _ => True
  | _, FInf false => True
  | FInf false, _ | _, FInf true => False
  | FFin p, FFin q => (p <= q)%Q
  end.

(** Equality of values as Python means it. *)
Inductive same : pyv -> pyv -> Prop :=
| same_none : same VNone VNone
| same_num : forall a b x y, number a = Some (FFin x) -> number b = Some (FFin y) -> (x == y)%Q -> same a b
| same_inf : forall n, same (VFloat (FInf n)) (VFloat (FInf n))
| same_str : forall s, same (VStr s) (VStr s)
| same_list : forall l m, Forall2 same l m -> same (VList l) (VList m)
| same_tuple : forall l m, Forall2 same l m -> same (VTuple l) (VTuple m)
| same_dict : forall l m, length l = length m ->
    Forall (fun kx => exists y, dget (fst kx) m = Some y /\ same (snd kx) y) l -> same (VDict l) (VDict m).

(** Small and capital letters. *)
Definition letters : list (ascii * ascii) := combine (list_ascii_of_string "abcdefghijklmnopqrstuvwxyz") (list_ascii_of_string "ABCDEFGHIJKLMNOPQRSTUVWXYZ").
