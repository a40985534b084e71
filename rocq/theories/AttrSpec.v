(** Which attributes a file keeps, and as what. *)
From Coq Require Import String.
From Coq Require Import List Ascii Bool Arith ZArith.
From Verif Require Import PyBase PyStr MemModel JsonModel JsonSpec.
Import ListNotations.
Open Scope list_scope.

(** The string is not taken for tagged JSON. *)
Definition tagged (s : str) : Prop := exists r, s = s_ "!!_memh5_json:" ++ r.
Definition untagged (v : av) : Prop := match v with AStr s => ~ tagged s | _ => True end.

(** What HDF5 attributes can hold: texts without NUL, integers of 64 bits,
    one-dimensional lists of one kind, and dictionaries as text. *)
Definition h5_text (s : str) : Prop := ~ In (ascii_of_nat 0) s.
Definition h5_int (z : Z) : Prop := (- 2 ^ 63 <= z < 2 ^ 63)%Z.
Definition h5_list (l : list av) : Prop :=
  (exists zs, l = map AInt zs /\ Forall h5_int zs) \/ (exists bs, l = map ABool bs)
  \/ (exists fs, l = map AFloat fs) \/ (exists ss, l = map AStr ss /\ Forall h5_text ss).
Definition h5_value (v : av) : Prop :=
  match v with
  | AStr s => ~ tagged s /\ h5_text s
  | AInt z => h5_int z
  | ABool _ => True
  | AFloat lit => FloatText lit
  | ADict _ => jsonlike v
  | AList l => h5_list l
  | _ => False
  end.
(** Lists come back as arrays. *)
Definition h5_back (v : av) : av := match v with AList l => AArr l | _ => v end.

(** What the encoder can write. *)
Fixpoint encodable (v : av) : Prop :=
  match v with
  | ANpInt _ => False
  | ABytes s => Forall (fun c => nat_of_ascii c < 128) s
  | AList l | AArr l => (fix all (l : list av) : Prop := match l with [] => True | x :: r => encodable x /\ all r end) l
  | ADict kv => (fix all (l : list (str * av)) : Prop := match l with [] => True | (_, x) :: r => encodable x /\ all r end) kv
  | _ => True
  end.
