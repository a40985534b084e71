(** Model of [TOData.from_mult_files], /repo/caput/containers/tod.py lines 74-138.  [open] is
    [cls.from_file] with the other keyword arguments, on the name of a file. *)
From Coq Require Import String.
From Coq Require Import List Ascii Bool Arith ZArith.
From Verif Require Import PyBase PyStr MemModel TodModel TxModel.
Import ListNotations.
Open Scope list_scope.

Definition from_mult_files {V} (axes : list str) (glob : str -> list str) (open : str -> res (tod V)) (disk : bool)
    (files : files_arg) (start stop : bound_arg) (datasets : option (list str)) : res (out V) :=
  rbind (ensure_file_list glob files) (fun names =>
  rbind (rmap open names) (fun l =>
  snd (concatenate_all axes disk true l start stop datasets))).
