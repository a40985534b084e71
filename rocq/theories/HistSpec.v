(** What the history is to hold. *)
From Coq Require Import List Bool Arith.
From Verif Require Import PyBase HistModel.
Import ListNotations.
Open Scope list_scope.
Open Scope nat_scope.

(** Code points. *)
Definition valid_text (s : text) : Prop := Forall (fun c => c < 17 * (256 * 256)) s.

Section H.
Context {R : Type}.
(** The calls that are accepted: all but those with the reserved name "order". *)
Definition accepted (calls : list (text * option R)) : list (text * option R) :=
  filter (fun c => if list_eq_dec Nat.eq_dec (fst c) [111; 114; 100; 101; 114] then false else true) calls.
(** The last record given under a name. *)
Fixpoint last_record (name : text) (calls : list (text * option R)) : option (option R) :=
  match calls with
  | [] => None
  | (k, r) :: rest =>
      match last_record name rest with
      | Some r' => Some r'
      | None => if list_eq_dec Nat.eq_dec name k then Some r else None
      end
  end.
End H.
