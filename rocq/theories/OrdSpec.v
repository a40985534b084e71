(** What the bytes of an array stand for, and which types have an explicit order; without reference to the
    functions of the model. *)
From Coq Require Import List Bool Arith.
From Verif Require Import PyBase PyStr OrdModel.
Import ListNotations.
Open Scope nat_scope.

(** The number of which these are the bytes, the lowest first. *)
Fixpoint number (l : list nat) : nat := match l with [] => 0 | b :: r => b + 256 * number r end.

Definition lowest_first (sys : arch) (o : order) : Prop := o = Less \/ (o = Equal /\ sys = LittleArch).
Definition highest_first (sys : arch) (o : order) : Prop := o = Greater \/ (o = Equal /\ sys = BigArch).

Fixpoint osize (t : odtype) : nat :=
  match t with Scalar _ n => n | Compound l => list_sum (map (fun f => match f with (_, t) => osize t end) l) end.

Inductive oval := VNumber (n : nat) | VBytes (l : list nat) | VFields (l : list (str * oval)).
(** The value of bytes. *)
Inductive Value (sys : arch) : odtype -> list nat -> oval -> Prop :=
| Low o l : lowest_first sys o -> Value sys (Scalar o (length l)) l (VNumber (number l))
| High o l : highest_first sys o -> Value sys (Scalar o (length l)) l (VNumber (number (rev l)))
| Raw l : Value sys (Scalar Bar (length l)) l (VBytes l)
| Nothing : Value sys (Compound []) [] (VFields [])
| Fields name t fs l r v vs : Value sys t l v -> Value sys (Compound fs) r (VFields vs) ->
    Value sys (Compound ((name, t) :: fs)) (l ++ r) (VFields ((name, v) :: vs)).

(** Some part has the order of the architecture, written out. *)
Definition own (sys : arch) : order := match sys with LittleArch => Less | BigArch => Greater end.
Inductive Explicit (sys : arch) : odtype -> Prop :=
| Here n : Explicit sys (Scalar (own sys) n)
| There name t fs : In (name, t) fs -> Explicit sys t -> Explicit sys (Compound fs).
