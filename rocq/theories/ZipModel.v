(** Zipping of Zarr containers, /repo/caput/pipeline/tasklib/io.py:
    [ZipZarrContainers] (842-943), [SaveZarrZip] (954-1026), [WaitZarrZip]
    (1029-1062).

    [hosts] lists the host name of every rank.  The file system maps directories
    and archives to their contents; running 7z is one step that succeeds or not
    ([zips_ok]) and stores the contents of the directory as the archive.  Left
    out: messages, the search for 7z, shells. *)
From Coq Require Import String.
From Coq Require Import List Ascii Bool Arith.
From Verif Require Import PyBase PyStr MemModel AttrModel ContModel GlobModel.
Import ListNotations.
Open Scope list_scope.
Open Scope nat_scope.

(** Lines 886-895: host name to lowest rank. *)
Definition all_host_ranks (hosts : list str) : list (str * nat) := combine hosts (seq 0 (length hosts)).
Definition unique_step (d : list (str * nat)) (hr : str * nat) : list (str * nat) :=
  let '(host, rank) := hr in
  match dget host d with
  | None => dput host rank d
  | Some q => if rank <? q then dput host rank d else d
  end.
Definition unique_hosts (hosts : list str) : list (str * nat) := fold_left unique_step (all_host_ranks hosts) [].
Definition num_hosts (hosts : list str) : nat := length (unique_hosts hosts).
(** Lines 900-905 *)
Definition host_rank (hosts : list str) (rank : nat) : option nat :=
  match nth_error hosts rank with
  | None => None
  | Some me => match dget me (unique_hosts hosts) with
               | Some q => if q =? rank then index_name me (sort_names (map fst (unique_hosts hosts))) else None
               | None => None
               end
  end.
(** [l[wait :: n]] *)
Fixpoint stride {A} (wait n : nat) (l : list A) : list A :=
  match l with
  | [] => []
  | x :: l => match wait with O => x :: stride (n - 1) n l | S w => stride w n l end
  end.
(** Line 915 *)
Definition assigned {A} (hosts : list str) (rank : nat) (containers : list A) : list A :=
  match host_rank hosts rank with Some k => stride k (num_hosts hosts) containers | None => [] end.

Section Zip.
Context {V : Type}.
Variable zips_ok : str -> bool.
Variable remove : bool.
Record zfs := mkzfs { z_dir : str -> option V; z_zip : str -> option V }.
Definition put (f : str -> option V) (k : str) (v : option V) : str -> option V := fun s => if seqb s k then v else f s.
(** Lines 917-939 for one container. *)
Definition zip_one (c : str) (fs : zfs) : res zfs :=
  if negb (endswith (s_ ".zarr") c) then Err ValueError
  else match z_dir fs c with
       | None => Err ValueError
       | Some v =>
           if negb (zips_ok c) then Err RuntimeError
           else Ok (mkzfs (if remove then put (z_dir fs) c None else z_dir fs) (put (z_zip fs) (c ++ s_ ".zip") (Some v)))
       end.
(** Steps in the order in which they happen, on whatever ranks. *)
Fixpoint zip_all (l : list str) (fs : zfs) : res zfs :=
  match l with [] => Ok fs | c :: l => rbind (zip_one c fs) (zip_all l) end.
End Zip.

(** * [SaveZarrZip] *)
(** Lines 972-976 *)
Definition zip_output_name (name : str) : res str :=
  if endswith (s_ ".zarr.zip") name then Ok (firstn (length name - 4) name) else Err CaputConfigError.
(** Lines 1004-1006: does [rank] start the job of operation number [n]? *)
Definition starts (hosts : list str) (rank n : nat) : bool :=
  match host_rank hosts rank with Some k => k =? n mod num_hosts hosts | None => false end.

(** * [WaitZarrZip] *)
(** A handle on one rank: file name and, if the job is here, its return code. *)
Record handle := mkhandle { h_file : str; h_code : option nat }.
(** [finish] on one rank up to the first error; [exists_] is the file system
    after the job.  [Ok n]: passed [n] barriers. *)
Fixpoint wait_loop (exists_ : str -> bool) (l : list handle) (n : nat) : res nat * nat :=
  match l with
  | [] => (Ok n, n)
  | h :: l => match h_code h with
              | Some c => if negb (c =? 0) || negb (exists_ (h_file h)) then (Err RuntimeError, n) else wait_loop exists_ l (S n)
              | None => wait_loop exists_ l (S n)
              end
  end.
(** The handles are [None] until the first call of [next]. *)
Definition wait_next (hs : option (list handle)) (h : handle) : option (list handle) :=
  Some (match hs with None => [h] | Some l => l ++ [h] end).
Definition wait_finish (exists_ : str -> bool) (hs : option (list handle)) : res nat :=
  match hs with None => Err TypeError | Some l => fst (wait_loop exists_ l 0) end.
