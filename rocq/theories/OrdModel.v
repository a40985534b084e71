(** Model of the byte orders of /repo/caput/util/typeutils.py lines 156-195 and 251-271.

    A data type is a scalar type with its byte order and its number of bytes, or a list of named fields,
    without gaps, shapes and titles.  An array is its data type and the bytes of its elements; [sys.byteorder] is
    an argument. *)
From Coq Require Import List Bool Arith.
From Verif Require Import PyBase PyStr.
Import ListNotations.
Open Scope nat_scope.

Inductive arch := LittleArch | BigArch.
Inductive order := Equal | Less | Greater | Bar.       (* "=", "<", ">", "|" *)
Inductive odtype :=
| Scalar (o : order) (size : nat)
| Compound (fields : list (str * odtype)).
Record oarray := mkoarray { odt : odtype; elements : list (list nat) }.

(** [dtype.byteorder]: "|" of compound types. *)
Definition byteorder (t : odtype) : order := match t with Scalar o _ => o | Compound _ => Bar end.
(** [dtype.newbyteorder], of all fields; "|" is kept. *)
Fixpoint newbyteorder (o : order) (t : odtype) : odtype :=
  match t with
  | Scalar Bar n => Scalar Bar n
  | Scalar _ n => Scalar o n
  | Compound l => Compound (map (fun f => match f with (name, t) => (name, newbyteorder o t) end) l)
  end.
(** [ndarray.view]: the same bytes. *)
Definition view (a : oarray) (t : odtype) : oarray := mkoarray t (elements a).

(** Lines 178-195. *)
Definition has_matching_byteorder (sys : arch) (o : order) : bool :=
  match o, sys with
  | Less, LittleArch => true
  | Greater, BigArch => true
  | _, _ => false
  end.
(** Lines 156-175. *)
Definition check_byteorder (sys : arch) (o : order) : bool :=
  match o with
  | Equal => false
  | _ => if has_matching_byteorder sys o then true else false
  end.
(** Lines 251-271. *)
Definition ensure_native_byteorder (sys : arch) (a : oarray) : oarray :=
  if check_byteorder sys (byteorder (odt a)) then view a (newbyteorder Equal (odt a)) else a.
