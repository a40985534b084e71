(** What [list_of_filelists] returns for lists among its arguments; see [GlobSpec] for [Names]. *)
From Coq Require Import String.
From Coq Require Import List Ascii.
From Verif Require Import PyBase PyStr GlobModel GlobSpec.
Import ListNotations.
Open Scope list_scope.

Section Files.
Variables (isfile isdir : str -> bool) (glob : str -> list str).
(** The names found by a string come one by one, each element of a list becomes the list of its names. *)
Inductive Lists : list farg -> list farg -> Prop :=
| L_nil : Lists [] []
| L_str s args r : (In (ch "*") s \/ isfile s = true) -> Lists args r -> Lists (FStr s :: args) (map FStr (glob s) ++ r)
| L_list l names args r : Forall2 (Names isfile isdir glob) l names -> Lists args r ->
    Lists (FList l :: args) (map (fun n => FList (map FStr n)) names ++ r).
End Files.
