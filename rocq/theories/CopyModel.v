(** Model of [deep_group_copy], /repo/caput/memdata/_memh5.py lines 2431-2679.

    The source is a group of an in-memory tree; the target is a group of a tree
    in memory, or of an HDF5 or zarr file, whose tree is taken to behave like
    one in memory ([MemModel]).  The loop is given fuel: [None] means that it did
    not end within it.

    Simplified: the data of a dataset are the list of its elements, all numbers,
    byte strings (ASCII) or texts; an index is what numpy does with it, that is,
    a list of positions for every length.  A distributed dataset carries its
    axis.  Not modelled: compression arguments, [postprocess], and that sharing
    makes the two trees hold the same object. *)
From Coq Require Import String.
From Coq Require Import List Ascii Bool Arith ZArith.
From Verif Require Import PyBase PyStr MemModel JsonModel AttrModel.
Import ListNotations.
Open Scope list_scope.
Open Scope nat_scope.

Inductive data := DNum (l : list Z) | DBytes (l : list str) | DUni (l : list str).
Record dset := mkdset { dat : data; dattrs : list (str * av); daxis : option nat }.
Notation tree := (node dset av).

(** [None] is [slice(None)]. *)
Definition selection := option (nat -> list nat).
Definition nths {A} (l : list A) (ps : list nat) : res (list A) :=
  fold_right (fun p acc => match nth_error l p with
                           | Some x => rbind acc (fun r => Ok (x :: r))
                           | None => Err IndexError
                           end) (Ok []) ps.
Definition index (s : selection) (d : data) : res data :=
  match s with
  | None => Ok d
  | Some f => match d with
              | DNum l => rbind (nths l (f (length l))) (fun r => Ok (DNum r))
              | DBytes l => rbind (nths l (f (length l))) (fun r => Ok (DBytes r))
              | DUni l => rbind (nths l (f (length l))) (fun r => Ok (DUni r))
              end
  end.

Record opts := mkopts {
  selections : option (list (str * selection));
  convert_dataset_strings : bool;
  convert_attribute_strings : bool;
  where_to : target;
  skip_distributed : bool;
  shallow : bool;
  shared : list str }.
Definition to_file (o : opts) : bool := match where_to o with Mem => false | _ => true end.

(** Lines 2516-2530.  [dset.name[1:]] *)
Definition get_selection (o : opts) (name : str) : selection :=
  match selections o with
  | None => None
  | Some d => match dget name d with
              | Some s => s
              | None => match dget (tl name) d with Some s => s | None => None end
              end
  end.

(** /repo/caput/util/typeutils.py lines 274-332. *)
Definition ascii_text (s : str) : bool := forallb (fun c => nat_of_ascii c <? 128) s.
Definition ensure_bytestring (d : data) : res data :=
  match d with
  | DUni l => if forallb ascii_text l then Ok (DBytes l) else Err ValueError
  | _ => Ok d
  end.
Definition ensure_unicode (d : data) : data := match d with DBytes l => DUni l | _ => d end.
Definition check_unicode (d : data) : res data := match d with DUni _ => Err TypeError | _ => Ok d end.

(** Lines 2532-2585: the data to write ([None]: none), the distributed axis and
    whether the name is added to the list of skipped ones.  [entry] of line 2575
    is the dataset itself. *)
Definition prepare (o : opts) (name : str) (d : dset) : res (option data * option nat * bool) :=
  let selection := get_selection o name in
  if to_file o && (match daxis d with Some _ => true | None => false end) then
    if negb (skip_distributed o) then Err ValueError
    else match selection with Some _ => Err ValueError | None => Ok (None, None, true) end
  else
    rbind (index selection (dat d)) (fun data =>
    rbind (if convert_dataset_strings o then
             if to_file o then ensure_bytestring data else Ok (ensure_unicode data)
           else if to_file o then check_unicode (dat d)
           else Ok data) (fun data =>
    Ok (Some data, if to_file o then None else daxis d, false))).
(** What a dataset without data holds: shape and fill value. *)
Definition blank (d : data) : data :=
  match d with
  | DNum l => DNum (map (fun _ => 0%Z) l)
  | DBytes l => DBytes (map (fun _ => []) l)
  | DUni l => DUni (map (fun _ => []) l)
  end.

(** [attrs] of what is at a location. *)
Definition node_attrs (n : tree) : list (str * av) := match n with Dset d => dattrs d | Grp a _ => a end.
Definition with_attrs (n : tree) (a : list (str * av)) : tree :=
  match n with
  | Dset d => Dset (mkdset (dat d) a (daxis d))
  | Grp _ kids => Grp a kids
  end.
Fixpoint alter_at (n : tree) (loc : list str) (f : tree -> tree) : tree :=
  match loc with
  | [] => f n
  | p :: r => match n with
              | Dset _ => n
              | Grp a kids => match dget p kids with
                              | Some m => Grp a (dput p (alter_at m r f) kids)
                              | None => n
                              end
              end
  end.

(** Lines 2617-2637; an empty name in [shared] (an IndexError) is not
    considered. *)
Definition starts_slash (k : str) : bool := match k with c :: _ => ceqb c slash | [] => false end.
Definition is_shared (o : opts) (key : str) : bool :=
  negb (to_file o) &&
  (shallow o || existsb (fun k => seqb (if starts_slash k then k else slash :: k) key) (shared o)).

(** Lines 2644-2675: one turn of the loop; [g1], [g2] are the names of the
    groups, [t1], [t2] the trees.  What is pushed on the stack, the new target
    and the names skipped.  [g1._get_storage()[key]] looks up an absolute path
    in the root only; in the dictionary of another group no key has a slash. *)
Definition push (t1 : tree) (key : str) (kids : list (str * tree)) : res (list (str * tree)) :=
  fold_right (fun k acc => rbind acc (fun r => rbind (getitem t1 key k) (fun e => Ok (e :: r))))
             (Ok []) (py_sorted sleb (map fst kids)).
Definition put_entry (o : opts) (t1 : tree) (g1 g2 key : str) (n : tree) (t2 : tree)
  : tree * res (list (str * tree) * list str) :=
  match n with
  | Grp _ kids =>
      let '(t2, r) := if seqb key g1 then (t2, Ok key) else create_group t2 g2 key in
      (t2, rbind r (fun _ => rbind (push t1 key kids) (fun es => Ok (es, []))))
  | Dset d =>
      if is_shared o key then
        match get_selection o key with
        | Some _ => (t2, Err ValueError)
        | None =>
            let '(parent_name, name) := path_split (path_join g2 key) in
            match format_abs_path parent_name with
            | Err e => (t2, Err e)
            | Ok parent_name =>
                match getitem t2 g2 parent_name with
                | Err e => (t2, Err e)
                | Ok (_, Dset _) => (t2, Err AttributeError)
                | Ok (loc, Grp _ _) =>
                    match (if seqb g1 [slash] then root_getitem t1 key else Err KeyError) with
                    | Err e => (t2, Err e)
                    | Ok x => (update_at t2 (root_loc loc) (dput name x), Ok ([], []))
                    end
                end
            end
        end
      else
        match prepare o key d with
        | Err e => (t2, Err e)
        | Ok (x, ax, skipped) =>
            let x := match x with Some x => x | None => blank (dat d) end in
            let '(t2, r) := create_dataset t2 g2 key (mkdset x [] ax) in
            (t2, rbind r (fun _ => Ok ([], if skipped then [key] else [])))
        end
  end.
Definition put_attrs (o : opts) (g2 key : str) (n : tree) (t2 : tree) : tree * res unit :=
  match getitem t2 g2 key with
  | Err e => (t2, Err e)
  | Ok (loc, tgt) =>
      match copyattrs (node_attrs n) (where_to o) (convert_attribute_strings o) (node_attrs tgt) with
      | Err e => (t2, Err e)
      | Ok a => (alter_at t2 (root_loc loc) (fun m => with_attrs m a), Ok tt)
      end
  end.
Fixpoint copy_loop (o : opts) (t1 : tree) (g1 g2 : str) (fuel : nat) (stack : list (str * tree))
    (t2 : tree) (names : list str) : option (tree * res (list str)) :=
  match stack with
  | [] => Some (t2, Ok names)
  | (key, n) :: rest =>
      match fuel with
      | 0 => None
      | S fuel =>
          match put_entry o t1 g1 g2 key n t2 with
          | (t2, Err e) => Some (t2, Err e)
          | (t2, Ok (es, skipped)) =>
              match put_attrs o g2 key n t2 with
              | (t2, Err e) => Some (t2, Err e)
              | (t2, Ok _) => copy_loop o t1 g1 g2 fuel (es ++ rest) t2 (names ++ skipped)
              end
          end
      end
  end.
(** The group [g1] of the tree [t1] into the group [g2] of the tree [t2]. *)
Definition deep_group_copy (o : opts) (t1 : tree) (g1 : str) (t2 : tree) (g2 : str) (fuel : nat)
  : option (tree * res (list str)) :=
  match getitem t1 g1 [] with
  | Err e => Some (t2, Err e)
  | Ok (name, n) => copy_loop o t1 name g2 fuel [(name, n)] t2 []
  end.
