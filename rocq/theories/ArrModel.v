(** Array layouts and [invert_no_zero].
    /repo/caput/algorithms/_invert_no_zero/__init__.py: [invert_no_zero] (11-52);
    /repo/caput/algorithms/_invert_no_zero/_invert_no_zero.pyx:
    [_invert_no_zero] (24-44).

    Memory is a map from addresses, counted in elements, to values.  An array is a
    window into it: shape, strides, address of its first element.  From NumPy:
    the contiguity flags, [ravel] and [empty_like]. *)
From Coq Require Import List Bool Arith ZArith.
From Verif Require Import PyBase RedModel.
Import ListNotations.
Open Scope nat_scope.

Record view := mkview { v_shape : list nat; v_strides : list Z; v_off : Z }.
Fixpoint dot (idx : list nat) (strides : list Z) : Z :=
  match idx, strides with
  | i :: idx, s :: strides => (Z.of_nat i * s + dot idx strides)%Z
  | _, _ => 0%Z
  end.
(** Address of an element. *)
Definition addr (v : view) (idx : list nat) : Z := (v_off v + dot idx (v_strides v))%Z.
Definition count (shape : list nat) : nat := fold_right Nat.mul 1 shape.

(** * Flags *)
(** Dimensions in the order given, fastest first: each stride is the product of
    the lengths before it, except for lengths of one. *)
Fixpoint contiguous_from (sd : nat) (dims : list (nat * Z)) : bool :=
  match dims with
  | [] => true
  | (d, s) :: dims => if d =? 1 then contiguous_from sd dims else (s =? Z.of_nat sd)%Z && contiguous_from (d * sd) dims
  end.
Definition empty (v : view) : bool := existsb (Nat.eqb 0) (v_shape v).
Definition f_contiguous (v : view) : bool := empty v || contiguous_from 1 (combine (v_shape v) (v_strides v)).
Definition c_contiguous (v : view) : bool := empty v || contiguous_from 1 (rev (combine (v_shape v) (v_strides v))).
(** PyArray_ISFORTRAN *)
Definition is_fortran (v : view) : bool := f_contiguous v && negb (c_contiguous v).

(** * Order of elements *)
(** Position [k] in Fortran order, first index fastest. *)
Fixpoint unravel_f (shape : list nat) (k : nat) : list nat :=
  match shape with
  | [] => []
  | d :: shape => k mod d :: unravel_f shape (k / d)
  end.
Definition unravel_c (shape : list nat) (k : nat) : list nat := rev (unravel_f (rev shape) k).
Definition unravel (fortran : bool) (shape : list nat) (k : nat) : list nat := if fortran then unravel_f shape k else unravel_c shape k.

Section Values.
Context {V : Type}.
Definition mem := Z -> V.
Definition update (m : mem) (a : Z) (x : V) : mem := fun b => if (b =? a)%Z then x else m b.
(** A flattened array: the memory itself, or a copy. *)
Inductive flat := Window (base : Z) | Copied (l : nat -> V).
Definition ravel (fortran : bool) (m : mem) (v : view) : flat :=
  if (if fortran then f_contiguous v else c_contiguous v) then Window (v_off v) else Copied (fun k => m (addr v (unravel fortran (v_shape v) k))).
(** [ravel(order="A")] *)
Definition ravel_a (m : mem) (v : view) : flat := ravel (is_fortran v) m v.
Definition read (m : mem) (f : flat) (k : nat) : V := match f with Window b => m (b + Z.of_nat k)%Z | Copied l => l k end.
(** [out[i] = ..]; what is written to a copy is lost. *)
Definition write (m : mem) (f : flat) (k : nat) (x : V) : mem := match f with Window b => update m (b + Z.of_nat k)%Z x | Copied _ => m end.

Variable inv : V -> V.
(** Lines 36-44 of the pyx: the iterations in any order. *)
Fixpoint loop (m : mem) (src dst : flat) (order : list nat) : mem :=
  match order with
  | [] => m
  | k :: order => loop (write m dst k (inv (read m src k))) src dst order
  end.
Definition invert_into (m : mem) (x out : view) (order : list nat) : mem := loop m (ravel_a m x) (ravel_a m out) order.

(** [empty_like(x, order="A")] at [base] *)
Fixpoint f_strides (sd : nat) (shape : list nat) : list Z :=
  match shape with [] => [] | d :: shape => Z.of_nat sd :: f_strides (d * sd) shape end.
Definition c_strides (shape : list nat) : list Z := rev (f_strides 1 (rev shape)).
Definition new_view (fortran : bool) (shape : list nat) (base : Z) : view :=
  mkview shape (if fortran then f_strides 1 shape else c_strides shape) base.
Definition empty_like (x : view) (base : Z) : view := new_view (is_fortran x) (v_shape x) base.

(** [invert_no_zero]; other things than arrays of floating point numbers go
    another way.  The array returned and the memory afterwards. *)
Inductive input := FloatArray (x : view) | IntArray (x : view) | NotArray.
Definition shape_eqb (a b : list nat) : bool := if list_eq_dec Nat.eq_dec a b then true else false.
Definition invert_no_zero (m : mem) (i : input) (out : option view) (base : Z) (order : list nat) : res (view * mem) :=
  match i with
  | NotArray => Err TypeError
  | IntArray x =>
      (* [np.where(x == 0, 0.0, 1.0 / x)]: a new array *)
      let r := new_view false (v_shape x) base in
      Ok (r, fold_left (fun m' k => update m' (base + Z.of_nat k)%Z (inv (m (addr x (unravel_c (v_shape x) k))))) order m)
  | FloatArray x =>
      match out with
      | Some o => if shape_eqb (v_shape x) (v_shape o) then Ok (o, invert_into m x o order) else Err ValueError
      | None => let o := empty_like x base in Ok (o, invert_into m x o order)
      end
  end.
End Values.
Arguments mem V : clear implicits.
Arguments flat V : clear implicits.

(** * The inverse of one number *)
(** Doubles (binary64).  Lines 32 and 43-44 of the pyx. *)
From Coq Require Import SpecFloat.
Definition one64 : spec_float := S754_finite false 4503599627370496 (-52).
Definition dbl_max : spec_float := S754_finite false 9007199254740991 971.
Definition thresh : spec_float := SFdiv 53 1024 one64 dbl_max.
Definition inv64 (x : spec_float) : spec_float := if SFltb (SFabs x) thresh then S754_zero false else SFdiv 53 1024 one64 x.
