(** Model of the storage tree and of paths in /repo/caput/memdata/_memh5.py.
    A group or root is a dictionary with attributes, a dataset an opaque value
    of type [D] (not a structured array: indexing it with a string is an
    IndexError).  A Python reference to a storage is its location from the
    root.  Every mutating method returns the new root and how it ended.  The
    MPI barriers are not modelled. *)
From Coq Require Import String.
From Coq Require Import List Ascii Bool Arith.
From Verif Require Import PyBase PyStr.
Import ListNotations.
Open Scope list_scope.

(** *** Dictionaries: insertion order, assignment keeps the place of a key *)
Fixpoint dget {V} (k : str) (l : list (str * V)) : option V :=
  match l with
  | [] => None
  | (k', v) :: r => if seqb k k' then Some v else dget k r
  end.
Fixpoint dput {V} (k : str) (v : V) (l : list (str * V)) : list (str * V) :=
  match l with
  | [] => [(k, v)]
  | (k', v') :: r => if seqb k k' then (k', v) :: r else (k', v') :: dput k v r
  end.
Fixpoint ddel {V} (k : str) (l : list (str * V)) : list (str * V) :=
  match l with
  | [] => []
  | (k', v') :: r => if seqb k k' then ddel k r else (k', v') :: ddel k r
  end.

(** Lines 104-128 [_Storage], 130-181 [_StorageRoot], 1013-1027 [MemDataset]. *)
Inductive node (D V : Type) :=
| Dset (d : D)
| Grp (attrs : list (str * V)) (kids : list (str * node D V)).
Arguments Dset {D V} _. Arguments Grp {D V} _ _.

(** Lines 2732-2746, [format_abs_path]. *)
Definition isabs (p : str) : bool := startswith [slash] p.
Definition nonempty (p : str) : bool := match p with [] => false | _ => true end.
Definition format_abs_path (path : str) : res str :=
  if negb (isabs path) then Err ValueError
  else Ok (fold_left path_join (filter nonempty (split slash path)) [slash]).

Section Tree.
Context {D V : Type}.
Notation node := (node D V).

(** Lines 166-171: [out = out[part]] along the path. *)
Fixpoint crawl (n : node) (parts : list str) : res node :=
  match parts with
  | [] => Ok n
  | part :: rest =>
      match n with
      | Dset _ => Err IndexError
      | Grp _ kids =>
          match dget part kids with
          | Some m => crawl m rest
          | None => Err KeyError
          end
      end
  end.

(** Lines 155-171, [_StorageRoot.__getitem__]. *)
Definition root_getitem (root : node) (key : str) : res node :=
  if negb (existsb (ceqb slash) key) then crawl root [key]
  else rbind (format_abs_path key) (fun key =>
       if seqb key [slash] then Ok root
       else crawl root (tl (split slash key))).
(** The location of what it returns. *)
Definition root_loc (key : str) : list str :=
  if negb (existsb (ceqb slash) key) then [key]
  else match format_abs_path key with
       | Ok key => if seqb key [slash] then [] else tl (split slash key)
       | Err _ => []
       end.

(** [storage[k] = v] and [del storage[k]] on the storage at a location. *)
Fixpoint update_at (n : node) (loc : list str) (f : list (str * node) -> list (str * node)) : node :=
  match n with
  | Dset _ => n
  | Grp a kids =>
      match loc with
      | [] => Grp a (f kids)
      | p :: r => match dget p kids with
                  | Some m => Grp a (dput p (update_at m r f) kids)
                  | None => n
                  end
      end
  end.

(** Lines 278-298, [_BaseGroup.__getitem__]: the name and the storage of the
    object returned. *)
Definition getitem (root : node) (self name : str) : res (str * node) :=
  rbind (format_abs_path (path_join self name)) (fun path =>
  rbind (root_getitem root path) (fun out => Ok (path, out))).

(** Lines 706-718: the loop of [create_group].  [cur] is the location of
    [parent_storage].  The assignment to [parent_name] inside the try block is
    kept when the lookup raises, and done once more in the except block. *)
Fixpoint create_loop (parts : list str) (parent_name : str) (cur : list str) (root : node)
  : node * res unit :=
  match parts with
  | [] => (root, Ok tt)
  | part :: rest =>
      let parent_name := path_join parent_name part in
      match root_getitem root parent_name with
      | Ok (Grp _ _) => create_loop rest parent_name (root_loc parent_name) root
      | Ok (Dset _) => (root, Err ValueError)
      | Err KeyError =>
          create_loop rest (path_join parent_name part) (cur ++ [part])
                      (update_at root cur (dput part (Grp [] [])))
      | Err e => (root, Err e)
      end
  end.

(** Lines 682-722, [create_group]; the name of the group returned. *)
Definition create_group (root : node) (self name : str) : node * res str :=
  match format_abs_path (path_join self name) with
  | Err e => (root, Err e)
  | Ok path =>
      match getitem root self name with
      | Ok _ => (root, Err ValueError)
      | Err KeyError =>
          match create_loop (split slash path) [slash] [] root with
          | (root, Err e) => (root, Err e)
          | (root, Ok _) => (root, rbind (getitem root self name) (fun g => Ok (fst g)))
          end
      | Err e => (root, Err e)
      end
  end.

(** Lines 354-380, [require_group]. *)
Definition require_group (root : node) (self name : str) : node * res str :=
  match getitem root self name with
  | Ok (path, Grp _ _) => (root, Ok path)
  | Ok (_, Dset _) => (root, Err TypeError)
  | Err KeyError => create_group root self name
  | Err e => (root, Err e)
  end.

(** Lines 725-908, [create_dataset], for a common dataset of acceptable
    arguments. *)
Definition create_dataset (root : node) (self name : str) (d : D) : node * res (str * node) :=
  let '(parent_name, name) := path_split (path_join self name) in
  match format_abs_path parent_name with
  | Err e => (root, Err e)
  | Ok parent_name =>
      match require_group root self parent_name with
      | (root, Err e) => (root, Err e)
      | (root, Ok g) =>
          let root := update_at root (root_loc g) (dput name (Dset d)) in
          (root, getitem root self (path_join parent_name name))
      end
  end.

(** Lines 318-352, [require_dataset]. *)
Definition require_dataset (root : node) (self name : str) (d : D) : node * res (str * node) :=
  match getitem root self name with
  | Ok (path, Dset d') => (root, Ok (path, Dset d'))
  | Ok (_, Grp _ _) => (root, Err TypeError)
  | Err KeyError => create_dataset root self name d
  | Err e => (root, Err e)
  end.

(** Lines 300-309, [__delitem__]. *)
Definition delitem (root : node) (self name : str) : node * res unit :=
  match getitem root self name with
  | Err e => (root, Err e)
  | Ok _ =>
      let '(parent_path, name) := path_split (path_join self name) in
      match root_getitem root parent_path with
      | Err e => (root, Err e)
      | Ok (Dset _) => (root, Err TypeError)
      | Ok (Grp _ kids) =>
          match dget name kids with
          | None => (root, Err KeyError)
          | Some _ => (update_at root (root_loc parent_path) (ddel name), Ok tt)
          end
      end
  end.

(** A history of method calls, each on a group object of some name. *)
Inductive call :=
| CreateGroup (self name : str)
| RequireGroup (self name : str)
| CreateDataset (self name : str) (d : D)
| RequireDataset (self name : str) (d : D)
| Delete (self name : str).
Definition outcome {A} (r : res A) : option exn := match r with Ok _ => None | Err e => Some e end.
Definition run_call (root : node) (c : call) : node * option exn :=
  match c with
  | CreateGroup s n => let '(t, r) := create_group root s n in (t, outcome r)
  | RequireGroup s n => let '(t, r) := require_group root s n in (t, outcome r)
  | CreateDataset s n d => let '(t, r) := create_dataset root s n d in (t, outcome r)
  | RequireDataset s n d => let '(t, r) := require_dataset root s n d in (t, outcome r)
  | Delete s n => let '(t, r) := delitem root s n in (t, outcome r)
  end.
Fixpoint run_calls (root : node) (cs : list call) : node * list (option exn) :=
  match cs with
  | [] => (root, [])
  | c :: rest =>
      let '(root, o) := run_call root c in
      let '(root, os) := run_calls root rest in
      (root, o :: os)
  end.
(** Line 398-401: a new MemGroup. *)
Definition new_root : node := Grp [] [].
End Tree.
Arguments call : clear implicits.
