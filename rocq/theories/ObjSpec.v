(** What the comparison and the size of objects are to be. *)
From Coq Require Import String.
From Coq Require Import List Ascii Bool Arith ZArith QArith.
From Verif Require Import PyBase PyStr MemModel ObjModel.
Import ListNotations.
Open Scope list_scope.
Open Scope nat_scope.

(** * Equality *)
(** The value of a real number: its kind, and the exact value if it is finite.
    A zero with a sign is a value of its own, not a number is equal to itself. *)
Inductive value := ValNan | ValInf (neg : bool) | ValNegZero | ValQ (q : Q).
Definition same_value (a b : value) : Prop :=
  match a, b with
  | ValNan, ValNan | ValNegZero, ValNegZero => True
  | ValInf s, ValInf t => s = t
  | ValQ p, ValQ q => Qeq p q
  | _, _ => False
  end.
Definition value_of (f : flt) : value :=
  match f with
  | FNan => ValNan
  | FInf b => ValInf b
  | FZero b => if b then ValNegZero else ValQ 0
  | FFin m e => ValQ (Qmult (inject_Z m) (Qpower 2 e))
  end.
(** A real number is the complex number with imaginary part 0. *)
Definition complex_value (s : scalar) : option (value * value) :=
  match s with
  | SNone | SStr _ => None
  | SBool b => Some (ValQ (if b then 1 else 0)%Q, ValQ 0)
  | SInt z => Some (ValQ (inject_Z z), ValQ 0)
  | SFlt f => Some (value_of f, ValQ 0)
  | SCpx a b => Some (value_of a, value_of b)
  end.
Definition same_scalar (a b : scalar) : Prop :=
  match complex_value a, complex_value b with
  | Some (r, i), Some (r', i') => same_value r r' /\ same_value i i'
  | None, None => a = b
  | _, _ => False
  end.

(** Lists and tuples are the same if their items are, dictionaries if they have
    the same keys and the same values for them. *)
Inductive same : pv -> pv -> Prop :=
| same_scalars : forall s t, same_scalar s t -> same (VS s) (VS t)
| same_seq : forall a b l m, a = VList l \/ a = VTuple l -> b = VList m \/ b = VTuple m -> Forall2 same l m -> same a b
| same_dict : forall l m, (forall k, In k (map fst l) <-> In k (map fst m)) ->
    (forall k v w, In (k, v) l -> In (k, w) m -> same v w) -> same (VDict l) (VDict m).

(** Finite floats are not zero, keys are there once, and there are no arrays. *)
Definition flt_ok (f : flt) : Prop := match f with FFin m _ => m <> 0%Z | _ => True end.
Definition scalar_ok (s : scalar) : Prop :=
  match s with SFlt f => flt_ok f | SCpx a b => flt_ok a /\ flt_ok b | _ => True end.
Fixpoint plain_value (a : pv) : Prop :=
  match a with
  | VS s => scalar_ok s
  | VList l | VTuple l => fold_right (fun x p => plain_value x /\ p) True l
  | VDict l => NoDup (map fst l) /\ fold_right (fun x p => plain_value (snd x) /\ p) True l
  | VArr _ _ => False
  end.

(** * Sizes *)
Section Size.
Variable h : nat -> obj.
(** What an object refers to. *)
Definition refers (x y : nat) : Prop :=
  (exists l, okid (h x) = KGroup l /\ In y l) \/ odict (h x) = Some y \/ In y (map snd (oattrs (h x))).
Inductive reach (x : nat) : nat -> Prop :=
| reach_self : reach x x
| reach_step : forall y z, reach x y -> refers y z -> reach x z.
Definition sizes (l : list nat) : nat := list_sum (map (fun y => osize (h y)) l).
(** The attributes in slots are those that the declaration of the most derived
    class lists, and it lists them by name. *)
Definition slots_listed (x : nat) : Prop :=
  match oslots (h x) with
  | None => oattrs (h x) = []
  | Some (DOne _) => oattrs (h x) = []
  | Some (DMany l) => NoDup (map fst (oattrs (h x))) /\ forall n, In n (map fst (oattrs (h x))) -> In n l
  end.
End Size.
