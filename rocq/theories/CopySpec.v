(** What a copy of a tree is. *)
From Coq Require Import List Ascii Bool Arith ZArith.
From Verif Require Import PyBase PyStr MemModel MemSpec JsonModel AttrModel CopyModel.
Import ListNotations.
Open Scope nat_scope.

(** What is at a path. *)
Fixpoint find (n : tree) (p : list str) : option tree :=
  match p with
  | [] => Some n
  | x :: p => match n with
              | Grp _ kids => match dget x kids with Some m => find m p | None => None end
              | Dset _ => None
              end
  end.
(** A tree as it is built by calls with names that do not end in a slash. *)
Definition TreeOK (t : tree) : Prop := forall p a kids, find t p = Some (Grp a kids) ->
  NoDup (map fst kids) /\ Forall (fun k => k <> [] /\ ~ In slash k) (map fst kids).
Definition GroupAt (t : tree) (p : list str) : Prop := exists a kids, find t p = Some (Grp a kids).
(** The target holds nothing of those names yet. *)
Definition Fresh (t1 t2 : tree) : Prop := forall k, find t1 [k] <> None -> find t2 [k] = None.

(** Equal attributes: the order of a dictionary does not count. *)
Definition SameAttrs (a b : list (str * av)) : Prop := forall k, dget k a = dget k b.
(** An entry of the copy: the data are [x], the attributes those of the
    source. *)
Definition CopiedDset (P : data -> Prop) (a : list (str * av)) (axis : option nat) (n : option tree) : Prop :=
  exists x b, n = Some (Dset (mkdset x b axis)) /\ P x /\ SameAttrs b a.
Definition CopiedGroup (a : list (str * av)) (n : option tree) : Prop :=
  exists b kids, n = Some (Grp b kids) /\ SameAttrs b a.

(** The selection asked for a dataset. *)
Definition Selected (sels : option (list (str * selection))) (p : list str) (s : selection) : Prop :=
  match sels with
  | None => s = None
  | Some d => dget (canonical p) d = Some s \/
              dget (canonical p) d = None /\
              (dget (join slash p) d = Some s \/ dget (join slash p) d = None /\ s = None)
  end.
(** What has to be in the copy of data: the selected part, and for files texts
    turned to byte strings if asked for. *)
Definition recode (file bytes : bool) (d : data) : data :=
  if negb bytes then d
  else match file, d with
       | true, DUni l => DBytes l
       | false, DBytes l => DUni l
       | _, _ => d
       end.

(** The part asked for can be taken, and a file can hold it. *)
Definition Feasible (o : opts) (p : list str) (d : dset) : Prop :=
  exists s y, Selected (selections o) p s /\ index s (dat d) = Ok y /\
  (to_file o = true -> daxis d = None /\
     match y with
     | DUni l => convert_dataset_strings o = true /\ Forall (Forall (fun c => nat_of_ascii c < 128)) l
     | _ => True
     end).
Definition Asked (o : opts) (p : list str) (d : dset) (x : data) : Prop :=
  exists s y, Selected (selections o) p s /\ index s (dat d) = Ok y /\
  x = recode (to_file o) (convert_dataset_strings o) y.
(** Attributes are copied one by one, as [copyattrs] does (C30, C31). *)
Definition AttrsFeasible (o : opts) (a : list (str * av)) : Prop :=
  forall k v, dget k a = Some v -> exists w, copy_value (convert_attribute_strings o) (where_to o) v = Ok w.
Definition AttrsCopied (o : opts) (a b : list (str * av)) : Prop := forall k,
  match dget k a with
  | None => dget k b = None
  | Some v => exists w, copy_value (convert_attribute_strings o) (where_to o) v = Ok w /\ dget k b = Some w
  end.
Definition is_dist (d : dset) : bool := match daxis d with Some _ => true | None => false end.
