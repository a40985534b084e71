(** Axis selections from the configuration,
    /repo/caput/pipeline/tasklib/io.py: [SelectionsMixin] (214-313).

    Keys are strings; values are what YAML gives.  A boolean is an [int] for
    [isinstance]. *)
From Coq Require Import String.
From Coq Require Import List Ascii Bool Arith ZArith.
From Verif Require Import PyBase PyStr MemModel AttrModel ContModel.
Import ListNotations.
Open Scope list_scope.
Open Scope nat_scope.

Inductive yaml :=
| YInt (z : Z) | YBool (b : bool) | YStr (s : str) | YNone | YFloat (* any *)
| YList (l : list yaml) | YDict (l : list (str * yaml)).
(** What is passed on to [from_file]: a slice or a list. *)
Inductive selector := SRange (args : list yaml) | SIndex (l : list yaml).
Definition is_int (v : yaml) : bool := match v with YInt _ | YBool _ => true | _ => false end.
Definition is_object (v : yaml) : bool := true.
(** [_parse_range], lines 291-302 *)
Definition parse_range (x : yaml) : res selector :=
  match x with
  | YList l =>
      if (3 <? length l) || (length l <? 2) then Err ValueError
      else if forallb is_int l then Ok (SRange l) else Err ValueError
  | _ => Err ValueError
  end.
(** [_parse_index], lines 304-313 *)
Definition parse_index (type_ : yaml -> bool) (x : yaml) : res selector :=
  match x with
  | YList l =>
      if length l =? 0 then Err ValueError
      else if forallb type_ l then Ok (SIndex l) else Err ValueError
  | _ => Err ValueError
  end.
Definition underscore : ascii := "_"%char.
(** Lines 264-272 *)
Definition parser (allow_index_map : bool) (type_ : str) : option (yaml -> res selector) :=
  if seqb type_ (s_ "range") then Some parse_range
  else if seqb type_ (s_ "index") then Some (parse_index is_int)
  else if seqb type_ (s_ "map") then (if allow_index_map then Some (parse_index is_object) else None)
  else None.
(** [*axis, type_ = k.split("_")] and [axis_name], lines 279-280 *)
Definition key_parts (k : str) : str * str :=
  let parts := split underscore k in (join underscore (removelast parts), last parts []).
Definition sel_name (axis : str) : str := axis ++ s_ "_sel".
Definition sel_step (allow_index_map : bool) (selections : list (str * yaml)) (sel : res (list (str * selector))) (k : str) : res (list (str * selector)) :=
  rbind sel (fun sel =>
    let '(axis, type_) := key_parts k in
    match parser allow_index_map type_ with
    | None => Err ValueError
    | Some f => match dget k selections with
                | None => Err KeyError
                | Some v => rbind (f v) (fun s => Ok (dput (sel_name axis) s sel))
                end
    end).
(** [_resolve_sel], lines 260-289 *)
Definition resolve_sel (allow_index_map : bool) (selections : list (str * yaml)) : res (list (str * selector)) :=
  fold_left (sel_step allow_index_map selections) (sort_names (map fst selections)) (Ok []).
