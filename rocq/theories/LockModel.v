(** Model of lock_file in /repo/caput/memdata/_io.py: the file operations it
    performs, one by one, around a body that writes the temporary file. *)
From Coq Require Import String.
From Coq Require Import List Ascii Bool.
From Verif Require Import PyBase PyStr.
Import ListNotations.
Open Scope list_scope.

(** A file system: contents (a list of writes) by path. *)
Definition fs := str -> option (list nat).
Definition upd (s : fs) (p : str) (c : option (list nat)) : fs :=
  fun q => if seqb q p then c else s q.

Inductive op :=
| OpenW (p : str)                    (* open(p, "w"): create or truncate *)
| Append (p : str) (x : nat)         (* write more *)
| Remove (p : str)
| Rename (p q : str).

(** The operating system: atomic operations, FileNotFoundError if the file is
    missing. *)
Definition step (s : fs) (o : op) : res fs :=
  match o with
  | OpenW p => Ok (upd s p (Some []))
  | Append p x => match s p with
                  | Some c => Ok (upd s p (Some (c ++ [x])))
                  | None => Err FileNotFoundError end
  | Remove p => match s p with
                | Some _ => Ok (upd s p None)
                | None => Err FileNotFoundError end
  | Rename p q => match s p with
                  | Some c => Ok (upd (upd s p None) q (Some c))
                  | None => Err FileNotFoundError end
  end.

(** The states passed through (latest last, starting state excluded) and how
    it ends. *)
Fixpoint run (s : fs) (ops : list op) : list fs * option exn :=
  match ops with
  | [] => ([], None)
  | o :: rest =>
      match step s o with
      | Ok s' => let '(t, e) := run s' rest in (s' :: t, e)
      | Err e => ([], Some e)
      end
  end.
Definition last_state (s : fs) (t : list fs) : fs := last t s.

(** Lines 124-133: names. *)
Definition tmpfile (filename : str) : str :=
  let '(base, fname) := path_split filename in path_join base (dot :: fname).
Definition lockfile (filename : str) : str := tmpfile filename ++ s_ ".lock"%string.

(** Lines 102-107, [__enter__] on the rank that manages the files. *)
Definition enter_ops (rank0 : bool) (filename : str) : list op :=
  if rank0 then [OpenW (lockfile filename)] else [].

(** Lines 109-122, [__exit__]; [raised] is whether the body raised. *)
Definition exit_ops (rank0 preserve raised : bool) (filename : str) : list op :=
  if rank0 then
    (if raised then (if preserve then [] else [Remove (tmpfile filename)])
     else [Rename (tmpfile filename) filename])
    ++ [Remove (lockfile filename)]
  else [].

(** A body: writes to the temporary file, then returns or raises. *)
Inductive wop := WOpen | WAppend (x : nat).
Definition body_op (filename : str) (w : wop) : op :=
  match w with WOpen => OpenW (tmpfile filename) | WAppend x => Append (tmpfile filename) x end.

(** The with statement.  An exception of the body's own file operations (or
    the one it raises, [raises]) is passed to [__exit__]; an exception in
    [__exit__] replaces it. *)
Definition with_lock (s : fs) (rank0 preserve : bool) (filename : str) (body : list wop) (raises : option exn)
  : list fs * option exn :=
  let '(t1, e1) := run s (enter_ops rank0 filename) in
  let s1 := last_state s t1 in
  let '(t2, e2) := run s1 (map (body_op filename) body) in
  let s2 := last_state s1 t2 in
  let raised := match e2 with Some e => Some e | None => raises end in
  let '(t3, e3) := run s2 (exit_ops rank0 preserve (match raised with Some _ => true | None => false end) filename) in
  (t1 ++ t2 ++ t3, match e3 with Some e => Some e | None => raised end).
