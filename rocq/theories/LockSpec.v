(** Specification of lock_file: what may be seen in the file system. *)
From Coq Require Import List.
From Verif Require Import PyBase PyStr LockModel.
Import ListNotations.

(** The contents that the body leaves in the temporary file, starting from
    [c], or None if an append failed or nothing was opened. *)
Fixpoint contents (c : option (list nat)) (body : list wop) : option (list nat) :=
  match body with
  | [] => c
  | WOpen :: t => contents (Some []) t
  | WAppend x :: t => match c with Some l => contents (Some (l ++ [x])) t | None => None end
  end.
(** The body fails by appending to a file that was never opened. *)
Definition BodyFails (c : option (list nat)) (body : list wop) : Prop :=
  c = None /\ exists x t, body = WAppend x :: t.
(** How the body ends: it fails, or it returns or raises as it says. *)
Definition Outcome (s : fs) (f : str) (body : list wop) (raises r : option exn) : Prop :=
  (BodyFails (s (tmpfile f)) body /\ r = Some FileNotFoundError) \/
  (~ BodyFails (s (tmpfile f)) body /\ r = raises).
