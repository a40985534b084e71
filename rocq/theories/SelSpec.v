(** Selections as documented: [<axis>_range] before [<axis>_index] before
    [<axis>_map] (io.py, lines 226-237). *)
From Coq Require Import String.
From Coq Require Import List Ascii Bool Arith ZArith.
From Verif Require Import PyStr MemModel SelModel.
Import ListNotations.
Open Scope list_scope.

Inductive kind := Range | Index | Map.
Definition kind_name (k : kind) : str := match k with Range => s_ "range" | Index => s_ "index" | Map => s_ "map" end.
(** The key of a kind of selection on an axis. *)
Definition key_of (axis : str) (k : kind) : str := axis ++ s_ "_" ++ kind_name k.
(** Values of the right form, and what they select. *)
Inductive Int : yaml -> Prop := Int_int : forall z, Int (YInt z) | Int_bool : forall b, Int (YBool b).
Inductive Means : kind -> yaml -> selector -> Prop :=
| Means_range2 : forall a b, Int a -> Int b -> Means Range (YList [a; b]) (SRange [a; b])
| Means_range3 : forall a b c, Int a -> Int b -> Int c -> Means Range (YList [a; b; c]) (SRange [a; b; c])
| Means_index : forall l, l <> [] -> (forall v, In v l -> Int v) -> Means Index (YList l) (SIndex l)
| Means_map : forall l, l <> [] -> Means Map (YList l) (SIndex l).
(** Keys of the documented forms. *)
Definition Allowed (allow_index_map : bool) (k : str) (kd : kind) : Prop :=
  (kd = Map -> allow_index_map = true) /\ ((exists axis, k = key_of axis kd) \/ k = kind_name kd).
(** The selection of an axis, by rank of the kinds. *)
Definition First (rank : list kind) (selections : list (str * yaml)) (axis : str) (kd : kind) : Prop :=
  exists a b, rank = a ++ kd :: b /\ dget (key_of axis kd) selections <> None /\ forall k, In k a -> dget (key_of axis k) selections = None.
Definition documented : list kind := [Range; Index; Map].
