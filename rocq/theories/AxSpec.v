(** Specification of the axis bookkeeping of distributed arrays. *)
From Coq Require Import List ZArith Bool.
From Verif Require Import PyBase SliceModel AxModel.
Import ListNotations.
Open Scope nat_scope.

(** The integer [z] names axis [k] of an array with [ndim] dimensions. *)
Definition AxisName (ndim : nat) (z : Z) (k : nat) : Prop :=
  k < ndim /\ (z = Z.of_nat k \/ z = Z.of_nat k - Z.of_nat ndim)%Z.

(** The input axes that numpy keeps, in output order. *)
Definition AxesOfReduction (ndim : nat) (reduced : list nat) (keepdims : bool) (out : list nat) : Prop :=
  out = if keepdims then seq 0 ndim
        else filter (fun k => negb (existsb (Nat.eqb k) reduced)) (seq 0 ndim).

(** numpy's reading of a basic index: each item of the result names the input
    axis it consumes (None for newaxis) and the index entry applied to it. *)
Fixpoint consumed (idx : list ient) : nat :=
  match idx with
  | [] => 0
  | INew :: t | IEll :: t => consumed t
  | _ :: t => S (consumed t)
  end.

Fixpoint np_items (idx : list ient) (axes : list nat) : list (option nat * ient) :=
  match idx with
  | [] => map (fun a => (Some a, ISl full_slice)) axes
  | INew :: t => (None, INew) :: np_items t axes
  | IEll :: t =>
      let k := length axes - consumed t in
      map (fun a => (Some a, ISl full_slice)) (firstn k axes) ++ np_items t (skipn k axes)
  | e :: t => match axes with a :: axes' => (Some a, e) :: np_items t axes' | [] => [] end
  end.

(** The axes of the result: integers drop theirs. *)
Definition np_out (idx : list ient) (ndim : nat) : list (option nat) :=
  map fst (filter (fun it => match snd it with IInt _ => false | _ => true end)
                  (np_items idx (seq 0 ndim))).

(** An index that numpy accepts on [ndim] axes (up to integer bounds). *)
Definition IndexOk (idx : list ient) (ndim : nat) : Prop :=
  length (filter is_ell idx) <= 1 /\ consumed idx <= ndim.

(** The entry selects the whole of an axis of length [n] in one of the two
    ways the code recognises. *)
Definition Whole (e : ient) (n : nat) : Prop :=
  e = ISl full_slice \/ e = ISl (mkslice (Some 0%Z) (Some (Z.of_nat n)) None).

(** *** Reshape *)
Definition prodZ (l : list Z) : Z := fold_right Z.mul 1%Z l.

(** [out] completes the request [req] for data of sizes [cur]. *)
Definition Filled (cur req out : list Z) : Prop :=
  Forall2 (fun r o => r = (-1)%Z \/ o = r) req out
  /\ Forall (fun o => 0 <= o)%Z out
  /\ prodZ out = prodZ cur
  /\ (count_occ Z.eq_dec req (-1)%Z = 0
      \/ count_occ Z.eq_dec req (-1)%Z = 1
         /\ prodZ (filter (fun r => negb (r =? -1)%Z) req) <> 0%Z).

(** C order position of a multi-index. *)
Fixpoint flat (shape idx : list Z) : Z :=
  match shape, idx with
  | _ :: sh, i :: ix => (i * prodZ sh + flat sh ix)%Z
  | _, _ => 0%Z
  end.
Definition InRange (shape idx : list Z) : Prop :=
  Forall2 (fun n i => 0 <= i < n)%Z shape idx.

(** *** Broadcasting: axis [j] counted from the right (0 is the last). *)
Definition right {A} (j : nat) (l : list A) : option A := nth_error (rev l) j.

(** Number of dimensions of an operand. *)
Definition dims (o : operand) : nat :=
  match o with OpDist _ g _ _ => length g | OpArr s => length s | OpScalar => 0 end.
Definition IsDist (o : operand) : Prop :=
  match o with OpDist _ _ _ _ => True | _ => False end.
(** The axis number is in range and shapes agree in length. *)
Definition OpWf (o : operand) : Prop :=
  match o with
  | OpDist a g f l => (0 <= a < Z.of_nat (length g))%Z /\ length f = length g /\ length l = length g
  | _ => True
  end.
(** The operand fits a result distributed at position [j] from the right. *)
Definition Aligned (j glen off llen : nat) (o : operand) : Prop :=
  match o with
  | OpScalar => True
  | OpArr s => forall n, right j s = Some n -> n = 1 \/ n = llen
  | OpDist a g f l =>
      (a = Z.of_nat (length g) - 1 - Z.of_nat j)%Z /\ right j g = Some glen /\ right j f = Some off
  end.
