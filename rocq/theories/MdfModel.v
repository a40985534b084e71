(** Model of how a [MemDiskGroup] is made, closed, saved and read again,
    /repo/caput/memdata/_memh5.py lines 1643-1775, 1839-1980, 2201-2257 and
    2304-2338.  What is in the groups is left to the other models. *)
From Coq Require Import String.
From Coq Require Import List Ascii Bool Arith ZArith.
From Verif Require Import PyBase PyStr MemModel JsonModel AttrModel LoadModel GlobModel.
Import ListNotations.
Open Scope list_scope.
Open Scope nat_scope.

Inductive format := FHdf5 | FZarr.
Definition is_hdf5 (f : option format) : bool := match f with Some FHdf5 => true | _ => false end.

(** What can be wrapped: groups in memory, of HDF5 files (the file itself or a
    group in it) and of zarr stores. *)
Inductive group := Memory (distributed : bool) (comm : option nat) | H5Group (file : bool) | ZarrGroup.
(** The first argument of the constructor. *)
Inductive source := Nothing | Wrapped (g : group) | Group (g : group) | FileName (name : str).
Record mdg := mkmdg { storage : group; toclose : bool }.

(** Where the code runs: [mpitools.world], whether zarr is installed, the
    format a name stands for (C66, C99). *)
Record setting := mksetting { s_world : option nat; s_zarr : bool; s_guess : str -> format }.
Definition opened_as (f : format) : group := match f with FHdf5 => H5Group true | FZarr => ZarrGroup end.

(** Lines 2304-2338; opening itself succeeds. *)
Definition get_file (w : setting) (name : str) (f : option format) : res (group * bool) :=
  let f := match f with Some f => f | None => s_guess w name end in
  match f with
  | FZarr => if s_zarr w then Ok (ZarrGroup, true) else Err RuntimeError
  | FHdf5 => Ok (H5Group true, true)
  end.
Definition or_world (w : setting) (comm : option nat) : option nat :=
  match comm with Some c => Some c | None => s_world w end.
Definition eq_comm (a b : option nat) : bool :=
  match a, b with Some x, Some y => x =? y | None, None => true | _, _ => false end.

(** Lines 1643-1696.  The first component: whether a file was opened.  A new
    [MemGroup] that is distributed has a communicator (lines 133-143). *)
Definition init (w : setting) (src : source) (distributed : bool) (comm : option nat) (f : option format)
  : bool * res mdg :=
  let comm := or_world w comm in
  let distributed := match comm with None => false | Some _ => distributed end in
  let '(opened, data) :=
    match src with
    | Nothing => (false, Ok (Memory distributed comm, false))
    | Wrapped g => (false, Ok (g, false))
    | Group g => (false, Ok (g, false))
    | FileName name =>
        match get_file w name f with
        | Err e => (false, Err e)
        | Ok (g, toclose) => (true, Ok (g, if is_hdf5 f then false else toclose))
        end
    end in
  (opened, rbind data (fun '(g, toclose) =>
     if distributed then
       match g with
       | H5Group _ | ZarrGroup => Err ValueError
       | Memory d c => if negb d then Err ValueError
                       else if negb (eq_comm comm c) then Err ValueError
                       else Ok (mkmdg g toclose)
       end
     else Ok (mkmdg g toclose))).

(** Lines 1809-1815. *)
Definition ondisk (m : mdg) : bool :=
  match storage m with H5Group file => file | ZarrGroup => true | Memory _ _ => false end.
(** Lines 1769-1772: whether [close] closes the file. *)
Definition closes (m : mdg) : bool := ondisk m && toclose m.
(** Lines 247-255, [distributed] and [comm]. *)
Definition is_distributed (m : mdg) : bool := match storage m with Memory d _ => d | _ => false end.
Definition comm_of (m : mdg) : option nat := match storage m with Memory _ c => c | _ => None end.

(** *** Reading: lines 1839-1980, when the file can be read *)
(** Lines 1950-1966: what is wrapped, and whether it is closed in the end.
    [is_group]: an open group was given. *)
Definition read_storage (disk : bool) (f : format) (given : option group) (distributed : bool) (comm : option nat) : mdg :=
  if disk then
    match given with
    | Some g => mkmdg g false
    | None => mkmdg (opened_as f) (is_hdf5 (Some f))
    end
  else mkmdg (Memory (match comm with None => false | Some _ => distributed end) comm) false.

(** Lines 1924-1928: the [*_sel] arguments, and the others. *)
Definition sel_suffix : str := s_ "_sel".
Fixpoint take_sel {A} (kwargs : list (str * A)) (sel : list (str * A)) (rest : list (str * A))
  : list (str * A) * list (str * A) :=
  match kwargs with
  | [] => (sel, rest)
  | (k, v) :: t =>
      if endswith sel_suffix k then take_sel t (dput (firstn (length k - 4) k) v sel) rest
      else take_sel t sel (rest ++ [(k, v)])
  end.

(** *** Classes *)
Definition class_key : str := s_ "__memh5_subclass".
Record classes := mkclasses {
  c_world : world;                     (* what can be imported *)
  c_mdg : cls -> bool;                 (* [issubclass(c, MemDiskGroup)] *)
  c_base : cls;                        (* [MemDiskGroup] itself *)
  c_select : cls -> list (str * nat) -> option (list (str * nat)) }.   (* [_make_selections] *)
(** Lines 1709-1726.  The name [new_cls] is not bound after a warning. *)
Definition resolve_subclass (c : classes) (cl : cls) (clspath : option av) : res cls :=
  match clspath with
  | None => Ok cl
  | Some (AStr p) =>
      match import_class (c_world c) p with
      | Good k => if c_mdg c k then Ok k else Err RuntimeError
      | Bad e => Err (match e_kind e with
                      | ModuleMissing | KeyErr => UnboundLocalError
                      | AttributeErr => AttributeError
                      | TypeErr => TypeError
                      | _ => OtherException
                      end)
      end
  | Some _ => Err AttributeError       (* no [split] *)
  end.
(** Lines 1704-1707 and 1750-1753. *)
Definition new_class (c : classes) (cl : cls) (detect : bool) (attrs : list (str * av)) : res cls :=
  if detect then resolve_subclass c cl (dget class_key attrs) else Ok cl.

(** Lines 1924-1938: the selections and whether a warning is given. *)
Definition selections_of (c : classes) (cl : cls) (detect : bool) (kwargs : list (str * nat))
  : option (list (str * nat)) * bool :=
  let sel := fst (take_sel kwargs [] []) in
  (c_select c cl sel, match sel with [] => false | _ => true end && negb detect && (cl =? c_base c)).

(** Lines 2238-2243: the attributes with the class of the object. *)
Definition with_class (module name : str) (attrs : list (str * av)) : list (str * av) :=
  match dget class_key attrs with
  | Some _ => attrs
  | None => dput class_key (AStr (module ++ dot :: name)) attrs
  end.

(** *** Saving: lines 2201-2257 *)
Inductive mode := ModeR | ModeW | ModeA.
(** Opening a file for the copy.  The default modes are those of [h5py.File]
    (from version 3) and [zarr.open_group]. *)
Definition default_mode (f : format) : mode := match f with FHdf5 => ModeR | FZarr => ModeA end.
(** [exists_]: there is such a file.  Writing into a file opened for reading is
    an error. *)
Definition open_to_write (exists_ : bool) (m : mode) : res unit :=
  match m with
  | ModeR => if exists_ then Err OtherException else Err FileNotFoundError
  | _ => Ok tt
  end.
(** How the tree is copied. *)
Record copying := mkcopying { k_attrs : bool; k_datasets : bool; k_format : format }.
(** [writable]: the group can be written to (a group in memory always can).
    [cls_attrs], [cls_datasets]: what the object has for the conversions. *)
Definition save (w : setting) (g : group) (writable has_class : bool) (cls_attrs cls_datasets : option bool)
    (attrs datasets : option bool) (f : format) (m : option mode) (exists_ : bool) : res copying :=
  match f, s_zarr w with
  | FZarr, false => Err RuntimeError
  | _, _ =>
      let pick a b d := match a with Some x => x | None => match b with Some x => x | None => d end end in
      let attrs := pick attrs cls_attrs true in
      let datasets := pick datasets cls_datasets false in
      if negb has_class && negb writable then Err OtherException
      else match g with
           | H5Group true | ZarrGroup =>
               rbind (open_to_write exists_ (match m with Some m => m | None => default_mode f end)) (fun _ =>
               Ok (mkcopying true false FHdf5))
           | H5Group false => Err AttributeError     (* no [to_file] *)
           | Memory _ _ =>
               rbind (open_to_write exists_ (match m with Some m => m | None => ModeW end)) (fun _ =>
               Ok (mkcopying attrs datasets f))
           end
  end.

(** *** Locks of zarr stores: lines 1958-1960 and 1774-1775 *)
(** A group read on disk has a lock if it is distributed zarr; [self.comm] is
    looked up in the store, which has none. *)
Definition removes_lock (m : mdg) (lock : bool) (rank : nat) : bool :=
  lock && match comm_of m with None => true | Some _ => false end.

(** *** [MemGroup.from_group], lines 434-446 *)
Inductive copied := FromMemory | FromFile | Refused.
Definition from_group (src : source) : copied :=
  match src with
  | Group (Memory _ _) => FromMemory
  | FileName _ => FromFile
  | _ => Refused
  end.
