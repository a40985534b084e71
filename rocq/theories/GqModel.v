(** The weighted quickselect over any kinds of numbers.
    /repo/caput/algorithms/median/weighted.pyx: [_quickselect_weight] (35-123), [_max_non_zero] and
    [_min_non_zero] (126-159), [_quickselect] for one row (162-197), the check of [quantile] (213-214).

    [QselModel] has exact sums; here the data, the weights and the sums are of any types with any
    operations, so that doubles (rounding, overflow, infinities, NaN) are one instance and the exact
    model another.  An answer is the element returned, or the two whose mean is returned. *)
From Coq Require Import List ZArith Bool Arith.
From Flocq Require Import IEEE754.Binary IEEE754.Bits.
From Verif Require Import PyBase MedModel BtModel InvModel TfModel.
Import ListNotations.
Open Scope nat_scope.

(** What the code does with numbers: [D] is [data_t], [W] is [weight_t] and [S] is [double]. *)
Record ops (D W S : Type) := mkops {
  d_lt : D -> D -> bool;           (* A[i] < pivot; [a > b] is [b < a] *)
  w_pos : W -> bool;               (* w > 0 *)
  w_zero : W -> bool;              (* w == 0 *)
  w_one : W;                       (* Wt[j] = 1 *)
  s_zero : S;                      (* 0 *)
  s_add : S -> W -> S;             (* weights_left += w *)
  s_sub : S -> S -> S;             (* qs -= weights_left *)
  s_eq : S -> S -> bool;           (* qs == weights_left *)
  s_le : S -> S -> bool;           (* qs <= weights_left *)
  s_lt : S -> S -> bool;           (* q < 0 *)
  s_mul : S -> S -> S;             (* wt * q *)
  s_nat : nat -> S                 (* wt = W.shape[1] *)
}.
Arguments d_lt {D W S} _ _ _.
Arguments w_pos {D W S} _ _.
Arguments w_zero {D W S} _ _.
Arguments w_one {D W S} _.
Arguments s_zero {D W S} _.
Arguments s_add {D W S} _ _ _.
Arguments s_sub {D W S} _ _ _.
Arguments s_eq {D W S} _ _ _.
Arguments s_le {D W S} _ _ _.
Arguments s_lt {D W S} _ _ _.
Arguments s_mul {D W S} _ _ _.
Arguments s_nat {D W S} _ _.

(** Lines 106, 108 and 123: [A[i]]; line 110: [<data_t>((A[i] + A[j]) / 2)]. *)
Inductive answer (D : Type) := One (x : D) | Mean (x y : D).
Arguments One {D} _.
Arguments Mean {D} _ _.

Section Select.
Context {D W S : Type} (o : ops D W S).

(** Bounds are not checked by the code (35-36): a read outside is an [IndexError] here. *)
Definition gread (l : list (D * W)) (k : nat) : res (D * W) :=
  match nth_error l k with Some x => Ok x | None => Err IndexError end.
Fixpoint gset (k : nat) (x : D * W) (l : list (D * W)) : list (D * W) :=
  match l, k with
  | [], _ => []
  | _ :: r, O => x :: r
  | y :: r, Datatypes.S k => y :: gset k x r
  end.

(** Lines 66-68 *)
Fixpoint gup (fuel : nat) (l : list (D * W)) (pivot : D) (ii : nat) (wl : S) : res (nat * S) :=
  match fuel with
  | O => Err OtherException
  | Datatypes.S fuel =>
      rbind (gread l ii) (fun x =>
      if d_lt o (fst x) pivot then gup fuel l pivot (ii + 1) (s_add o wl (snd x)) else Ok (ii, wl))
  end.
(** Lines 72-73; position -1 is outside the array. *)
Fixpoint gdown (fuel : nat) (l : list (D * W)) (pivot : D) (jj : nat) : res nat :=
  match fuel with
  | O => Err OtherException
  | Datatypes.S fuel =>
      rbind (gread l jj) (fun x =>
      if d_lt o pivot (fst x) then
        match jj with O => Err IndexError | Datatypes.S jj => gdown fuel l pivot jj end
      else Ok jj)
  end.
(** Lines 61-93 *)
Fixpoint gpartition (fuel : nat) (l : list (D * W)) (pivot : D) (ii jj : nat) (wl : S)
  : res (list (D * W) * nat * S) :=
  match fuel with
  | O => Err OtherException
  | Datatypes.S fuel =>
      rbind (gup (Datatypes.S (length l)) l pivot ii wl) (fun '(ii, wl) =>
      rbind (gdown (Datatypes.S (length l)) l pivot jj) (fun jj =>
      if jj <=? ii then
        if ii =? jj then rbind (gread l ii) (fun x => Ok (l, jj, s_add o wl (snd x)))
        else Ok (l, jj, wl)
      else
        rbind (gread l ii) (fun x =>
        rbind (gread l jj) (fun y =>
        gpartition fuel (gset jj x (gset ii y l)) pivot (ii + 1) (jj - 1) (s_add o wl (snd y))))))
  end.

(** Lines 126-159 *)
Fixpoint gbest (better : D -> D -> bool) (l : list (D * W)) (cur : nat) (iis : list nat) : res nat :=
  match iis with
  | [] => Ok cur
  | ii :: rest =>
      rbind (gread l cur) (fun c =>
      rbind (gread l ii) (fun x =>
      if Bool.eqb (w_pos o (snd c)) (w_pos o (snd x)) then
        if better (fst x) (fst c) then gbest better l ii rest else gbest better l cur rest
      else if w_pos o (snd x) then gbest better l ii rest
      else gbest better l cur rest))
  end.
Definition gmax (l : list (D * W)) (i j : nat) : res nat :=
  gbest (fun a b => d_lt o b a) l i (seq (i + 1) (j - i)).
Definition gmin (l : list (D * W)) (i j : nat) : res nat :=
  gbest (fun a b => d_lt o a b) l i (seq (i + 1) (j - i)).

(** Lines 102-110 *)
Definition gboundary (l : list (D * W)) (jj : nat) (m : method) : res (answer D) :=
  rbind (gmax l 0 jj) (fun i =>
  rbind (gmin l (jj + 1) (length l - 1)) (fun j =>
  rbind (gread l j) (fun y =>
  rbind (gread l i) (fun x =>
  if (w_zero o (snd y) && w_pos o (snd x)) || (match m with MLower => true | _ => false end)
  then Ok (One (fst x))
  else if (w_zero o (snd x) && w_pos o (snd y)) || (match m with MHigher => true | _ => false end)
  then Ok (One (fst y))
  else Ok (Mean (fst x) (fst y)))))).

(** Lines 51-123 *)
Fixpoint gselect (fuel : nat) (l : list (D * W)) (i j : nat) (qs : S) (m : method) : res (answer D) :=
  match fuel with
  | O => Err OtherException
  | Datatypes.S fuel =>
      rbind (gread l ((i + j) / 2)) (fun pv =>
      rbind (gpartition (Datatypes.S (length l)) l (fst pv) i j (s_zero o)) (fun '(l, jj, wl) =>
      if s_eq o qs wl then gboundary l jj m
      else
        let '(i, j, qs) := if s_le o qs wl then (i, jj, qs) else (jj + 1, j, s_sub o qs wl) in
        if i =? j then rbind (gread l i) (fun x => Ok (One (fst x)))
        else gselect fuel l i j qs m))
  end.
Definition gquickselect (l : list (D * W)) (qs : S) (m : method) : res (answer D) :=
  match l with
  | [] => Err IndexError
  | _ => gselect (Datatypes.S (length l)) l 0 (length l - 1) qs m
  end.

(** Lines 178-197 for one row *)
Definition gtotal (l : list (D * W)) : S := fold_left (s_add o) (map snd l) (s_zero o).
Definition grow (l : list (D * W)) (q : S) (m : method) : res (answer D) :=
  let wt := gtotal l in
  if s_eq o wt (s_zero o) then
    gquickselect (map (fun x => (fst x, w_one o)) l) (s_mul o (s_nat o (length l)) q) m
  else gquickselect l (s_mul o wt q) m.
(** Lines 213-214 *)
Definition gquantile (l : list (D * W)) (q : S) (m : method) : res (answer D) :=
  if s_lt o q (s_zero o) || s_lt o (s_nat o 1) q then Err ValueError else grow l q m.
End Select.

(** *** Doubles (as words) for data and weights, and single precision for either *)
Definition le64 (a b : Z) : bool := match b64_compare (f64 a) (f64 b) with Some Lt | Some Eq => true | _ => false end.
Definition eq64 (a b : Z) : bool := match b64_compare (f64 a) (f64 b) with Some Eq => true | _ => false end.
Definition double_ops : ops Z Z Z := {|
  d_lt := lt64;
  w_pos := fun w => lt64 0 w;
  w_zero := fun w => eq64 w 0;
  w_one := one64;
  s_zero := 0%Z;
  s_add := add64;
  s_sub := sub64;
  s_eq := eq64;
  s_le := le64;
  s_lt := lt64;
  s_mul := mul64;
  s_nat := fun n => of_int (Z.of_nat n)
|}.
(** Integers for the data, the weights or both: [weights_left += W[ii]] converts the weight. *)
Definition int_weights (d : Z -> Z -> bool) : ops Z Z Z := {|
  d_lt := d;
  w_pos := fun w => (0 <? w)%Z;
  w_zero := fun w => (w =? 0)%Z;
  w_one := 1%Z;
  s_zero := 0%Z;
  s_add := fun s w => add64 s (of_int w);
  s_sub := sub64;
  s_eq := eq64;
  s_le := le64;
  s_lt := lt64;
  s_mul := mul64;
  s_nat := fun n => of_int (Z.of_nat n)
|}.
Definition half64 : Z := 1022 * 2 ^ 52.
(** Line 287: [quantile(A, W, 0.5)] *)
Definition double_median (l : list (Z * Z)) (m : method) : res (answer Z) := gquantile double_ops l half64 m.
Definition int_weight_median (l : list (Z * Z)) (m : method) : res (answer Z) :=
  gquantile (int_weights lt64) l half64 m.

(** *** Exact numbers: the sums of [QselModel] *)
Definition exact_ops : ops Z Z Z := {|
  d_lt := Z.ltb;
  w_pos := fun w => (0 <? w)%Z;
  w_zero := fun w => (w =? 0)%Z;
  w_one := 1%Z;
  s_zero := 0%Z;
  s_add := Z.add;
  s_sub := Z.sub;
  s_eq := Z.eqb;
  s_le := Z.leb;
  s_lt := Z.ltb;
  s_mul := Z.mul;
  s_nat := Z.of_nat
|}.
(** The answer as the fraction of [QselModel] *)
Definition fraction (a : answer Z) : Z * Z := match a with One x => (x, 1) | Mean x y => (x + y, 2) end%Z.
