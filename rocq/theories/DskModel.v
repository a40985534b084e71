(** Moving containers between memory and disk, and removing what is on disk.
    /repo/caput/memdata/_memh5.py: [MemDiskGroup.to_memory] (2125-2130), [to_disk] (2132-2168),
    with [save] (2201-2257) and [from_file] (1839-1980) as far as they choose files and modes;
    /repo/caput/memdata/fileformats.py: [remove_file_or_dir] (364-383).

    The content of a group is a parameter [T]; that saving and loading preserve it is the subject of
    C30, C32 and C33.  File names determine formats as given; file systems have files with contents. *)
From Coq Require Import List Bool Arith.
From Verif Require Import PyBase.
Import ListNotations.
Open Scope list_scope.
Open Scope nat_scope.

(** * Files *)
Inductive fmt := H5 | Zarr.
(** Modes of [h5py.File] and [zarr.open_group] *)
Inductive fmode := R | RPlus | W | X | A.
Definition name := nat.

Section Disk.
Variable T : Type.
(** An empty file *)
Variable empty : T.
(** What the content is after the class has been recorded (line 2243); nothing else changes *)
Variable with_class : T -> T.

Definition files := name -> option (fmt * T).
Definition put (fs : files) (n : name) (v : option (fmt * T)) : files := fun m => if m =? n then v else fs m.
Definition same_fmt (a b : fmt) : bool := match a, b with H5, H5 | Zarr, Zarr => true | _, _ => false end.
(** Opening: the new files, or an error *)
Definition open_ (fs : files) (n : name) (f : fmt) (m : fmode) : res files :=
  match m, fs n with
  | (R | RPlus), None => Err FileNotFoundError
  | (R | RPlus | A), Some (g, _) => if same_fmt f g then Ok fs else Err OtherException
  | W, _ => Ok (put fs n (Some (f, empty)))
  | X, Some _ => Err OtherException
  | (X | A), None => Ok (put fs n (Some (f, empty)))
  end.
(** What an object holds: a group in memory, the root of a file, or a group inside a file ([sub]) *)
Inductive stored := InMemory (distributed : bool) (t : T) | OnDisk (n : name) (f : fmt) (sub : bool) (writable : bool).

(** [save] with no mode (line 2161), of data in memory.  Of data on disk the file is opened with the default mode,
    that is for reading or, for zarr, for appending. *)
Definition save (fs : files) (s : stored) (n : name) (f : fmt) : res (files * stored) :=
  match s with
  | InMemory d t =>
      let t := with_class t in
      rbind (open_ fs n f W) (fun fs => Ok (put fs n (Some (f, t)), InMemory d t))
  | OnDisk m g sub writable =>
      if negb writable then Err OtherException
      else match fs m with
           | None => Err OtherException
           | Some (h, t) =>
               let fs := put fs m (Some (h, with_class t)) in
               if sub then Err AttributeError
               else rbind (open_ fs n f (match f with H5 => R | Zarr => A end)) (fun fs =>
                    match f with
                    | H5 => Err OtherException
                    | Zarr => Ok (put fs n (Some (f, with_class t)), s)
                    end)
           end
  end.
(** Lines 2154-2168.  [from_file] on disk opens with the mode given or for reading. *)
Definition to_disk (fs : files) (s : stored) (n : name) (f : fmt) (mode : option fmode) : res (files * stored) :=
  match s with
  | InMemory true _ => Err OtherException      (* NotImplementedError *)
  | _ =>
      rbind (save fs s n f) (fun '(fs, _) =>
      let m := match mode with Some m => m | None => R end in
      rbind (open_ fs n f m) (fun fs =>
      Ok (fs, OnDisk n f false (match m with R => false | _ => true end))))
  end.
(** Lines 2125-2130: [from_file] reads the file of the group by its name, [self._data.filename]: a file of HDF5 has
    one, a group in it and zarr groups have not. *)
Definition to_memory (fs : files) (s : stored) : res stored :=
  match s with
  | InMemory _ _ => Ok s
  | OnDisk n f sub _ =>
      if sub then Err AttributeError
      else match f with
           | Zarr => Err AttributeError
           | H5 => match fs n with
                   | Some (H5, t) => Ok (InMemory false t)
                   | _ => Err FileNotFoundError
                   end
           end
  end.
(** What can be read through an object *)
Definition content (fs : files) (s : stored) : option T :=
  match s with InMemory _ t => Some t | OnDisk n _ _ _ => match fs n with Some (_, t) => Some t | None => None end end.
End Disk.
Arguments InMemory {T} _ _. Arguments OnDisk {T} _ _ _ _.

(** * Removing *)
(** What has a name: nothing, a file, or a directory with files *)
Inductive entry := Missing | File | Dir (l : list name).
(** A process that removes: not started, after [os.path.isdir] (line 375), in [shutil.rmtree] with the names it has
    still to unlink (listed in the order of the directory), ended, or ended by another error *)
Inductive proc := Start | ToRemove | ToList | Unlinking (l : list name) | Ended | Failed.
Definition has (x : name) (l : list name) : bool := existsb (Nat.eqb x) l.
Definition drop (x : name) (l : list name) : list name := filter (fun y => negb (x =? y)) l.
(** One step of a process.  [FileNotFoundError] ends it (lines 376-383). *)
Definition rm_step (e : entry) (p : proc) : entry * proc :=
  match p with
  | Start => (e, match e with Dir _ => ToList | _ => ToRemove end)
  | ToRemove => match e with Missing => (e, Ended) | File => (Missing, Ended) | Dir _ => (e, Failed) end
  | ToList => match e with Dir l => (e, Unlinking l) | Missing => (e, Ended) | File => (e, Failed) end
  | Unlinking [] => match e with Dir [] => (Missing, Ended) | Missing => (e, Ended) | _ => (e, Failed) end
  | Unlinking (x :: r) => match e with
                          | Dir l => if has x l then (Dir (drop x l), Unlinking r) else (e, Ended)
                          | _ => (e, Ended)
                          end
  | Ended | Failed => (e, p)
  end.
(** Several processes: one of them makes a step *)
Fixpoint set_nth (i : nat) (p : proc) (ps : list proc) : list proc :=
  match ps, i with
  | [], _ => []
  | _ :: r, O => p :: r
  | q :: r, S i => q :: set_nth i p r
  end.
(** A number of steps *)
Inductive rm_steps : nat -> entry * list proc -> entry * list proc -> Prop :=
| rm_none s : rm_steps 0 s s
| rm_more k e ps i p e' p' s : nth_error ps i = Some p -> p <> Ended -> p <> Failed -> rm_step e p = (e', p') ->
    rm_steps k (e', set_nth i p' ps) s -> rm_steps (S k) (e, ps) s.
