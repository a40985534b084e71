(** Model of the walk over time-ordered data and of the concatenation of whole
    containers, /repo/caput/containers/tod.py: [concatenate] (lines 312-592,
    several axes and several datasets; the arithmetic of one axis is in
    [TodModel]), [ensure_file_list] (lines 595-615), [_copy_non_time_data]
    (lines 618-703), [_dset_has_axis] (lines 706-715), and of the parts of
    [TODReader] (lines 150-309) that are not in [TodModel].

    Simplified: a dataset is the list of its rows along the axis that is
    concatenated, the other axes are inside a row; no dataset filter; no
    conversion of strings; nothing is distributed. *)
From Coq Require Import String.
From Coq Require Import List Ascii Bool Arith ZArith.
From Verif Require Import PyBase PyStr MemModel AttrModel TodModel.
Import ListNotations.
Open Scope list_scope.
Open Scope nat_scope.

Definition mem (x : str) (l : list str) : bool := existsb (seqb x) l.

(** * The walk *)

(** What is walked: a dataset with its name and its attribute "axis", or a
    group. *)
Inductive entry :=
| EDset (name : str) (axis : list str)
| EGroup (name : str) (kids : list (str * entry)).
Definition ename (e : entry) : str := match e with EDset n _ => n | EGroup n _ => n end.

(** Lines 706-715. *)
Definition dset_has_axis (e : entry) (axes : list str) : bool :=
  match e with
  | EGroup _ _ => false
  | EDset _ a => existsb (fun x => mem x axes) a
  end.

(** [[entry[k] for k in sorted(entry, reverse=True)]]; keys are distinct. *)
Definition key_le (p q : str * entry) : bool := sleb (fst p) (fst q).
Definition kids_down (kids : list (str * entry)) : list entry := rev (map snd (py_sorted key_le kids)).

(** Lines 660-678, the [while] loop.  The stack is kept with its last element
    first, so [stack += l] puts [rev l] in front.  [fuel] bounds the number of
    entries; see [entry_size]. *)
Fixpoint walk (fuel : nat) (axes : list str) (stack : list entry) (times : list str) (copies : list entry)
  : list str * list entry :=
  match fuel, stack with
  | 0, _ => (times, copies)
  | _, [] => (times, copies)
  | S fuel, e :: stack =>
      if mem (ename e) [s_ "index_map"; s_ "reverse_map"] then walk fuel axes stack times copies
      else if dset_has_axis e axes then walk fuel axes stack (times ++ [ename e]) copies
      else
        let stack := match e with EGroup _ kids => rev (kids_down kids) ++ stack | EDset _ _ => stack end in
        walk fuel axes stack times (copies ++ [e])
  end.
Fixpoint entry_size (e : entry) : nat :=
  match e with
  | EDset _ _ => 1
  | EGroup _ kids => S (list_sum (map (fun p => entry_size (snd p)) kids))
  end.
(** Line 703. *)
Definition strip_slash (n : str) : res str :=
  match n with
  | [] => Err IndexError
  | c :: r => Ok (if Ascii.eqb c slash then r else n)
  end.
Fixpoint rmap {A B} (f : A -> res B) (l : list A) : res (list B) :=
  match l with
  | [] => Ok []
  | x :: r => rbind (f x) (fun y => rbind (rmap f r) (fun ys => Ok (y :: ys)))
  end.
(** The walk over one entry: the names returned and what there is to copy. *)
Definition walk_names (axes : list str) (data : entry) : res (list str) :=
  rmap strip_slash (fst (walk (entry_size data) axes [data] [] [])).
Definition walk_copies (axes : list str) (data : entry) : list entry :=
  snd (walk (entry_size data) axes [data] [] []).

(** What a [Container] that wraps a file shows of it: its iterator passes over
    groups, see [MdgProps]. *)
Definition container_view (e : entry) : entry :=
  match e with
  | EDset n a => EDset n a
  | EGroup n kids => EGroup n (filter (fun p => match snd p with EDset _ _ => true | EGroup _ _ => false end) kids)
  end.

(** Lines 653-656: what is walked when [data] is a list, a tuple, or one
    container. *)
Inductive walked (A : Type) := WList (l : list A) | WTuple (l : list A) | WOne (x : A).
Arguments WList {A} l. Arguments WTuple {A} l. Arguments WOne {A} x.
Definition pick_first {A} (data : walked A) : res A :=
  match data with
  | WList [] => Err IndexError
  | WList (x :: _) => Ok x
  | WTuple _ => Err AttributeError   (* entry.name, line 666 *)
  | WOne x => Ok x
  end.

(** * The files *)

(** Lines 595-615.  [glob] is the content of the file system. *)
Inductive files_arg :=
| FGroup (g : str)
| FStr (pattern : str)
| FSeq (l : list str)
| FOther.
Definition ensure_file_list (glob : str -> list str) (files : files_arg) : res (list str) :=
  match files with
  | FGroup g => Ok [g]
  | FStr p => Ok (py_sorted sleb (glob p))
  | FSeq l => Ok l
  | FOther => Err ValueError
  end.
(** Lines 174-176, 183 and 195: the files of a reader and the one whose
    header is read. *)
Definition reader_files (glob : str -> list str) (files : files_arg) : res (list str * str) :=
  match files with
  | FStr p => match py_sorted sleb (glob p) with [] => Err IndexError | f :: r => Ok (f :: r, f) end
  | FSeq (f :: r) => Ok (f :: r, f)
  | FSeq [] => Err IndexError
  | FGroup _ => Err OtherException   (* files[0] of a group *)
  | FOther => Err ValueError
  end.
(** Lines 183 and 190-192: is the file of the header open afterwards?
    [opened] is what [get_file] says about having opened it, [hdf5] whether
    the caller gave the format. *)
Inductive format := HDF5 | Zarr.
Definition header_left_open (opened : bool) (file_format : option format) : bool :=
  opened && negb (match file_format with Some HDF5 => true | _ => false end).
(** Lines 228-233. *)
Definition set_time_sel (value : list Z) : res (Z * Z) :=
  match value with [a; b] => Ok (a, b) | _ => Err ValueError end.
(** Lines 246-252. *)
Definition set_dataset_sel (datasets value : list str) : res (list str) :=
  if forallb (fun n => mem n datasets) value then Ok value else Err ValueError.

(** * The concatenation *)

Section Concat.
Context {V : Type}.

(** A dataset: its attribute "axis" (None: there is none), its other
    attributes, its rows. *)
Record dset := mkdset { d_axis : option (list str); d_attrs : list (str * V); d_rows : list V }.
(** A container. *)
Record tod := mktod {
  x_attrs : list (str * V); x_history : list (str * V);
  x_index : list (str * list V); x_reverse : list (str * list V);
  x_dsets : list (str * dset) }.
(** A dataset and a container that is being filled; a cell that was never
    written is None. *)
Record odset := mkodset { od_axis : option (list str); od_attrs : list (str * V); od_rows : list (option V) }.
Record out := mkout {
  o_attrs : list (str * V); o_history : list (str * V);
  o_index : list (str * list (option V)); o_reverse : list (str * list V);
  o_dsets : list (str * odset) }.

Variable axes : list str.                     (* time_axes of the class *)

(** Lines 488-496: the axis that is concatenated. *)
Definition concat_axis (d : dset) : option str :=
  find (fun a => mem a axes) (match d_axis d with Some l => l | None => [] end).
(** What [_copy_non_time_data] finds in a container: its iterator shows the
    datasets of the root only, see [MdgProps]. *)
Definition view (x : tod) : entry :=
  EGroup [slash] (map (fun p => (fst p, EDset (slash :: fst p)
                      (match d_axis (snd p) with Some l => l | None => [] end))) (x_dsets x)).
Definition time_names (x : tod) : res (list str) := walk_names axes (view x).

(** The arguments [start] and [stop]; a mapping belongs to the caller. *)
Inductive bound_arg := Scalar (z : option Z) | Mapping (m : list (str * option Z)).
Definition as_mapping (b : bound_arg) : list (str * option Z) :=
  match b with Scalar z => map (fun a => (a, z)) axes | Mapping m => m end.
Definition bget (a : str) (m : list (str * option Z)) : option Z :=
  match dget a m with Some v => v | None => None end.
(** What the caller's object is after lines 395-398 wrote to it. *)
Definition after (b : bound_arg) (m : list (str * option Z)) : bound_arg :=
  match b with Scalar z => Scalar z | Mapping _ => Mapping m end.

(** Lines 386-392. *)
Definition total_length (files : list tod) (a : str) : Z :=
  fold_left (fun t x => (t + match dget a (x_index x) with Some l => Z.of_nat (length l) | None => 0 end)%Z) files 0%Z.
(** Lines 395-398. *)
Definition real_bounds (files : list tod) (start stop : list (str * option Z))
  : list (str * option Z) * list (str * option Z) :=
  fold_left (fun '(s, t) a =>
    let '(i, j) := start_stop_inds (bget a s) (bget a t) (total_length files a) in
    (dput a (Some i) s, dput a (Some j) t)) axes (start, stop).
Definition znum (o : option Z) : Z := match o with Some z => z | None => 0%Z end.

(** Lines 412-434. *)
Definition init_index (start stop : str -> Z) (index : list (str * list V)) : res (list (str * list (option V))) :=
  rmap (fun '(a, l) =>
    if mem a axes then rbind (np_empty (stop a - start a)) (fun e => Ok (a, e))
    else Ok (a, map Some l)) index.

(** Lines 680-701 for a container: the attributes of the root, and the
    datasets without a time axis. *)
Definition copy_common (x : tod) : list (str * odset) :=
  map (fun p => (fst p, mkodset (d_axis (snd p)) (d_attrs (snd p)) (map Some (d_rows (snd p)))))
    (filter (fun p => match concat_axis (snd p) with None => true | Some _ => false end) (x_dsets x)).

(** Lines 458-465 and 497-504: is there anything of this input to
    take, and where does it go? *)
Definition skipped (start stop cur n : Z) : bool := ((stop <=? cur) || (cur + n <=? start))%Z.

Definition axis_length (x : tod) (a : str) : Z :=
  match dget a (x_index x) with Some l => Z.of_nat (length l) | None => 0%Z end.

(** Lines 452-475: the index maps of one input. *)
Definition index_step (start stop cur : str -> Z) (x : tod) (index : list (str * list (option V))) (a : str)
  : res (list (str * list (option V))) :=
  let n := axis_length x a in
  if skipped (start a) (stop a) (cur a) n then Ok index
  else
    let '((ilo, ihi), (olo, ohi)) := get_in_out_slice (start a) (stop a) (cur a) n in
    match dget a index, dget a (x_index x) with
    | Some o, Some l => rbind (np_set o olo ohi (np_get l ilo ihi)) (fun o' => Ok (dput a o' index))
    | _, _ => Err KeyError
    end.
Fixpoint fold_res {A S} (f : S -> A -> res S) (s : S) (l : list A) : res S :=
  match l with [] => Ok s | x :: r => rbind (f s x) (fun s' => fold_res f s' r) end.

(** Lines 482-587: one dataset of one input. *)
Definition dset_step (wanted : list str) (start stop cur : str -> Z) (x : tod)
  (dsets : list (str * odset)) (name : str) : res (list (str * odset)) :=
  match dget name (x_dsets x) with
  | None => Err KeyError
  | Some d =>
      if negb (mem name wanted) then Ok dsets
      else match concat_axis d with
      | None => Err ValueError
      | Some a =>
          let n := axis_length x a in
          if skipped (start a) (stop a) (cur a) n then Ok dsets
          else
            let '((ilo, ihi), (olo, ohi)) := get_in_out_slice (start a) (stop a) (cur a) n in
            let piece := np_get (d_rows d) ilo ihi in
            rbind (match dget name dsets with
                   | Some o => Ok o
                   | None => rbind (np_empty (stop a - start a)) (fun e => Ok (mkodset (d_axis d) (d_attrs d) e))
                   end) (fun o =>
            rbind (np_set (od_rows o) olo ohi piece) (fun rows =>
            Ok (dput name (mkodset (od_axis o) (od_attrs o) rows) dsets)))
      end
  end.

(** Lines 449-590, the loop.  [disk] says that [out_group] is not in memory:
    then [out.index_map[axis]] is an array that was just read from the file,
    and writing to it changes nothing else. *)
Fixpoint main_loop (disk : bool) (wanted : list str) (start stop cur : str -> Z) (files : list tod)
  (index : list (str * list (option V))) (dsets : list (str * odset))
  : res (list (str * list (option V)) * list (str * odset)) :=
  match files with
  | [] => Ok (index, dsets)
  | x :: rest =>
      rbind (fold_res (index_step start stop cur x) index axes) (fun index' =>
      rbind (time_names x) (fun names =>
      rbind (fold_res (dset_step wanted start stop cur x) dsets names) (fun dsets' =>
      main_loop disk wanted start stop (fun a => (cur a + axis_length x a)%Z) rest
        (if disk then index else index') dsets')))
  end.

(** Lines 312-592.  The result, and the objects given for [start] and [stop]
    afterwards (they are taken to be different objects).  [is_list] says that
    the inputs came as a list. *)
Definition concatenate_all (disk is_list : bool) (files : list tod) (start stop : bound_arg) (datasets : option (list str))
  : bound_arg * bound_arg * res out :=
  match files with
  | [] => (start, stop, Err IndexError)
  | first :: _ =>
      let '(ms, mt) := real_bounds files (as_mapping start) (as_mapping stop) in
      let s a := znum (bget a ms) in
      let t a := znum (bget a mt) in
      (after start ms, after stop mt,
       rbind (init_index s t (x_index first)) (fun index =>
       rbind (pick_first (if is_list then WList files else WTuple files)) (fun x =>
       rbind (time_names x) (fun names =>
       let wanted := match datasets with None => names | Some l => l end in
       rbind (main_loop disk wanted s t (fun _ => 0%Z) files index (copy_common x)) (fun '(index', dsets') =>
       Ok (mkout (x_attrs x) [] index' (x_reverse first) dsets'))))))
  end.

End Concat.
Arguments dset V : clear implicits.
Arguments tod V : clear implicits.
Arguments odset V : clear implicits.
Arguments out V : clear implicits.
