(** Model of [MemDiskGroup], /repo/caput/memdata/_memh5.py lines 1611-2257, and
    of the names a [Container] allows, /repo/caput/containers/_core.py lines
    143-154.

    The first part is about a group that wraps a tree in memory ([MemModel]).
    The wrapped [MemGroup] is given absolute paths only, so that its own name
    does not matter; it is called "/" here. *)
From Coq Require Import String.
From Coq Require Import List Ascii Bool Arith ZArith.
From Verif Require Import PyBase PyStr MemModel.
Import ListNotations.
Open Scope list_scope.
Open Scope nat_scope.

(** [group_name_allowed] and [dataset_name_allowed] of a class. *)
Record rules := mkrules { group_allowed : str -> bool; dataset_allowed : str -> bool }.
(** Lines 1984-2030. *)
Definition base_rules : rules := mkrules (fun _ => true) (fun _ => true).
(** containers/_core.py lines 143-154. *)
Definition container_rules : rules :=
  mkrules (fun _ => false) (fun name => seqb (fst (path_split name)) [slash]).

Section Group.
Context {D V : Type}.
Notation node := (node D V).
Variable r : rules.

Definition name_allowed (path : str) (value : node) : bool :=
  match value with Grp _ _ => group_allowed r path | Dset _ => dataset_allowed r path end.
(** Lines 1777-1792.  Simplified: the name of a dataset is its path. *)
Definition mgetitem (root : node) (self name : str) : res (str * node) :=
  rbind (getitem root self name) (fun '(path, value) =>
  if name_allowed path value then Ok (path, value) else Err KeyError).
(** [name in self]: [Mapping.__contains__]. *)
Definition mcontains (root : node) (self name : str) : res bool :=
  match mgetitem root self name with
  | Ok _ => Ok true
  | Err KeyError => Ok false
  | Err e => Err e
  end.
(** Lines 1800-1807, run to its end. *)
Fixpoint iter_loop (root : node) (self : str) (keys : list str) : res (list str) :=
  match keys with
  | [] => Ok []
  | key :: rest =>
      match mgetitem root self key with
      | Ok _ => rbind (iter_loop root self rest) (fun l => Ok (key :: l))
      | Err KeyError => iter_loop root self rest
      | Err e => Err e
      end
  end.
Definition miter (root : node) (self : str) : res (list str) :=
  rbind (getitem root [slash] self) (fun '(_, n) =>
  match n with
  | Grp _ kids => iter_loop root self (map fst kids)
  | Dset _ => Err AttributeError
  end).
(** Lines 1794-1798. *)
Definition mlen (root : node) (self : str) : res nat := rbind (miter root self) (fun l => Ok (length l)).

(** Lines 2032-2044. *)
Definition mcreate_dataset (root : node) (self name : str) (d : D) : node * res (str * node) :=
  let path := path_join self name in
  if dataset_allowed r path then create_dataset root [slash] path d else (root, Err ValueError).
(** Lines 2098-2123; the name of the group returned. *)
Definition mcreate_group (root : node) (self name : str) : node * res str :=
  let path := path_join self name in
  if group_allowed r path then
    let '(root, x) := create_group root [slash] path in (root, rbind x (fun _ => Ok path))
  else (root, Err ValueError).
(** Lines 318-352 and 354-380 with these methods. *)
Definition mrequire_dataset (root : node) (self name : str) (d : D) : node * res (str * node) :=
  match mgetitem root self name with
  | Ok (path, Dset d') => (root, Ok (path, Dset d'))
  | Ok (_, Grp _ _) => (root, Err TypeError)
  | Err KeyError => mcreate_dataset root self name d
  | Err e => (root, Err e)
  end.
Definition mrequire_group (root : node) (self name : str) : node * res str :=
  match mgetitem root self name with
  | Ok (path, Grp _ _) => (root, Ok path)
  | Ok (_, Dset _) => (root, Err TypeError)
  | Err KeyError => mcreate_group root self name
  | Err e => (root, Err e)
  end.
(** Lines 300-309: [parent] is a [MemGroup]. *)
Definition mdelitem (root : node) (self name : str) : node * res unit :=
  match mcontains root self name with
  | Err e => (root, Err e)
  | Ok false => (root, Err KeyError)
  | Ok true =>
      let '(parent_path, name) := path_split (path_join self name) in
      match getitem root [slash] parent_path with
      | Err e => (root, Err e)
      | Ok (_, Dset _) => (root, Err TypeError)
      | Ok (parent, Grp _ _) => delitem root parent name
      end
  end.
Definition mrun_call (root : node) (c : call D) : node * option exn :=
  match c with
  | CreateGroup s n => let '(t, x) := mcreate_group root s n in (t, outcome x)
  | RequireGroup s n => let '(t, x) := mrequire_group root s n in (t, outcome x)
  | CreateDataset s n d => let '(t, x) := mcreate_dataset root s n d in (t, outcome x)
  | RequireDataset s n d => let '(t, x) := mrequire_dataset root s n d in (t, outcome x)
  | Delete s n => let '(t, x) := mdelitem root s n in (t, outcome x)
  end.
Fixpoint mrun_calls (root : node) (cs : list (call D)) : node * list (option exn) :=
  match cs with
  | [] => (root, [])
  | c :: rest =>
      let '(root, o) := mrun_call root c in
      let '(root, os) := mrun_calls root rest in
      (root, o :: os)
  end.
End Group.
