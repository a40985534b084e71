(** Paths as sequences of names, and a tree of groups and datasets as a map
    from paths to entries. *)
From Coq Require Import List Ascii Bool Arith.
From Verif Require Import PyBase PyStr MemModel.
Import ListNotations.

(** The names between the slashes. *)
Definition flush (w : str) : list str := match w with [] => [] | _ => [w] end.
Fixpoint words_from (cur s : str) : list str :=
  match s with
  | [] => flush cur
  | c :: r => if ceqb c slash then flush cur ++ words_from [] r else words_from (cur ++ [c]) r
  end.
Definition words (s : str) : list str := words_from [] s.

(** The canonical way of writing a path. *)
Definition canonical (ws : list str) : str := slash :: join slash ws.

(** What [name] means for a group called [self]. *)
Definition absolute (s : str) : Prop := exists r, s = slash :: r.
Definition target (self name : str) : list str :=
  match name with
  | c :: _ => if ceqb c slash then words name else words self ++ words name
  | [] => words self
  end.
(** The name does not end in a slash and is not empty. *)
Definition plain_end (name : str) : Prop := exists p c, name = p ++ [c] /\ c <> slash.

Inductive entry (D : Type) := EGroup | EData (d : D).
Arguments EGroup {D}. Arguments EData {D} _.

Section Map.
Context {D : Type}.
Definition state := list str -> option (entry D).
Definition empty_state : state := fun p => match p with [] => Some EGroup | _ => None end.

Fixpoint prefix (p q : list str) : bool :=
  match p, q with
  | [], _ => true
  | x :: p, y :: q => seqb x y && prefix p q
  | _, _ => false
  end.
(** Some strict prefix of the path is a dataset. *)
Definition blocked (s : state) (p : list str) : bool :=
  existsb (fun k => match s (firstn k p) with Some (EData _) => true | _ => false end)
          (seq 0 (length p)).

Definition with_groups (s : state) (p : list str) : state :=
  fun q => if prefix q p then match s q with Some x => Some x | None => Some EGroup end else s q.
Definition with_data (s : state) (p : list str) (d : D) : state :=
  fun q => if prefix p q then (if prefix q p then Some (EData d) else None) else s q.
Definition without (s : state) (p : list str) : state :=
  fun q => if prefix p q then None else s q.

Definition missing (s : state) (p : list str) : exn := if blocked s p then IndexError else KeyError.

Definition s_create_group (s : state) (p : list str) : state * option exn :=
  match s p with
  | Some _ => (s, Some ValueError)
  | None => if blocked s p then (s, Some IndexError) else (with_groups s p, None)
  end.
Definition s_require_group (s : state) (p : list str) : state * option exn :=
  match s p with
  | Some EGroup => (s, None)
  | Some (EData _) => (s, Some TypeError)
  | None => s_create_group s p
  end.
(** A dataset replaces whatever was there before, a group with all it holds. *)
Definition s_create_dataset (s : state) (p : list str) (d : D) : state * option exn :=
  match s_require_group s (removelast p) with
  | (s', None) => (with_data s' p d, None)
  | (s', Some e) => (s', Some e)
  end.
Definition s_require_dataset (s : state) (p : list str) (d : D) : state * option exn :=
  match s p with
  | Some (EData _) => (s, None)
  | Some EGroup => (s, Some TypeError)
  | None => if blocked s p then (s, Some IndexError) else s_create_dataset s p d
  end.
Definition s_delete (s : state) (p : list str) : state * option exn :=
  match s p with
  | None => (s, Some (missing s p))
  | Some _ => (without s p, None)
  end.

Definition s_call (s : state) (c : call D) : state * option exn :=
  match c with
  | CreateGroup g n => s_create_group s (target g n)
  | RequireGroup g n => s_require_group s (target g n)
  | CreateDataset g n d => s_create_dataset s (target g n) d
  | RequireDataset g n d => s_require_dataset s (target g n) d
  | Delete g n => s_delete s (target g n)
  end.
Fixpoint s_calls (s : state) (cs : list (call D)) : state * list (option exn) :=
  match cs with
  | [] => (s, [])
  | c :: rest =>
      let '(s, o) := s_call s c in
      let '(s, os) := s_calls s rest in
      (s, o :: os)
  end.

(** Group objects have absolute names; datasets are named, and deletions made,
    without a slash at the end. *)
Definition proper (c : call D) : Prop :=
  match c with
  | CreateGroup g n | RequireGroup g n => absolute g
  | CreateDataset g n _ | RequireDataset g n _ | Delete g n => absolute g /\ plain_end n
  end.
End Map.
Arguments state : clear implicits.
