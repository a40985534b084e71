(** Model of the weighted quickselect of
    /repo/caput/algorithms/median/weighted.pyx lines 35-287, index by index.
    The data array A and the weight array W are always read and permuted
    together, so they are one list of (value, weight) pairs.  Bounds checks are
    compiled out in the code (lines 35-36): here a read outside the array is an
    [IndexError], so that its absence can be stated.  Values, weights and sums
    are exact (integers). *)
From Coq Require Import List ZArith Bool Arith.
From Verif Require Import PyBase MedModel.
Import ListNotations.
Open Scope Z_scope.

Definition rd (l : list datum) (k : nat) : res datum :=
  match nth_error l k with Some x => Ok x | None => Err IndexError end.

Fixpoint upd (k : nat) (x : datum) (l : list datum) : list datum :=
  match l, k with
  | [], _ => []
  | _ :: r, O => x :: r
  | y :: r, S k => y :: upd k x r
  end.

(** Lines 66-68.  [fuel] bounds the loops; running out of it would be an
    [OtherException]. *)
Fixpoint scan_up (fuel : nat) (l : list datum) (pivot : Z) (ii : nat) (wl : Z) : res (nat * Z) :=
  match fuel with
  | O => Err OtherException
  | S fuel =>
      rbind (rd l ii) (fun x =>
      if fst x <? pivot then scan_up fuel l pivot (ii + 1) (wl + snd x) else Ok (ii, wl))
  end.

(** Lines 72-73; position -1 is outside the array. *)
Fixpoint scan_down (fuel : nat) (l : list datum) (pivot : Z) (jj : nat) : res nat :=
  match fuel with
  | O => Err OtherException
  | S fuel =>
      rbind (rd l jj) (fun x =>
      if pivot <? fst x then
        match jj with O => Err IndexError | S jj => scan_down fuel l pivot jj end
      else Ok jj)
  end.

(** Lines 61-93: the Hoare partition; the array, jj and weights_left. *)
Fixpoint partition (fuel : nat) (l : list datum) (pivot : Z) (ii jj : nat) (wl : Z)
  : res (list datum * nat * Z) :=
  match fuel with
  | O => Err OtherException
  | S fuel =>
      rbind (scan_up (S (length l)) l pivot ii wl) (fun '(ii, wl) =>
      rbind (scan_down (S (length l)) l pivot jj) (fun jj =>
      if (jj <=? ii)%nat then
        if (ii =? jj)%nat then rbind (rd l ii) (fun x => Ok (l, jj, wl + snd x))
        else Ok (l, jj, wl)
      else
        rbind (rd l ii) (fun x =>
        rbind (rd l jj) (fun y =>
        partition fuel (upd jj x (upd ii y l)) pivot (ii + 1) (jj - 1) (wl + snd y)))))
  end.

(** Lines 126-159. *)
Fixpoint best_loop (better : Z -> Z -> bool) (l : list datum) (cur : nat) (iis : list nat) : res nat :=
  match iis with
  | [] => Ok cur
  | ii :: rest =>
      rbind (rd l cur) (fun c =>
      rbind (rd l ii) (fun x =>
      if Bool.eqb (0 <? snd c) (0 <? snd x) then
        if better (fst x) (fst c) then best_loop better l ii rest else best_loop better l cur rest
      else if 0 <? snd x then best_loop better l ii rest
      else best_loop better l cur rest))
  end.
Definition max_non_zero (l : list datum) (i j : nat) : res nat :=
  best_loop (fun a b => b <? a) l i (seq (i + 1) (j - i)).
Definition min_non_zero (l : list datum) (i j : nat) : res nat :=
  best_loop (fun a b => a <? b) l i (seq (i + 1) (j - i)).

(** Lines 95-110: the target lies on the boundary after position jj. *)
Definition boundary (l : list datum) (jj : nat) (m : method) : res (Z * Z) :=
  rbind (max_non_zero l 0 jj) (fun i =>
  rbind (min_non_zero l (jj + 1) (length l - 1)) (fun j =>
  rbind (rd l j) (fun y =>
  rbind (rd l i) (fun x =>
  if ((snd y =? 0) && (0 <? snd x)) || (match m with MLower => true | _ => false end)
  then Ok (fst x, 1)
  else if ((snd x =? 0) && (0 <? snd y)) || (match m with MHigher => true | _ => false end)
  then Ok (fst y, 1)
  else Ok (fst x + fst y, 2))))).

(** Lines 51-123. *)
Fixpoint select (fuel : nat) (l : list datum) (i j : nat) (qs : Z) (m : method) : res (Z * Z) :=
  match fuel with
  | O => Err OtherException
  | S fuel =>
      rbind (rd l ((i + j) / 2)) (fun pv =>
      rbind (partition (S (length l)) l (fst pv) i j 0) (fun '(l, jj, wl) =>
      if qs =? wl then boundary l jj m
      else
        let '(i, j, qs) := if qs <=? wl then (i, jj, qs) else ((jj + 1)%nat, j, qs - wl) in
        if (i =? j)%nat then rbind (rd l i) (fun x => Ok (fst x, 1))
        else select fuel l i j qs m))
  end.

Definition quickselect_weight (l : list datum) (qs : Z) (m : method) : res (Z * Z) :=
  match l with
  | [] => Err IndexError
  | _ => select (S (length l)) l 0 (length l - 1) qs m
  end.

(** Lines 162-197 for one row and 200-214, 286-287: the quantile q = qn/qd.  To
    stay in the integers all weights (hence the target) are multiplied by qd. *)
Definition row_weights (l : list datum) : list datum :=
  if fold_left Z.add (map snd l) 0 =? 0 then map (fun x => (fst x, 1)) l else l.
Definition quantile (l : list datum) (qn qd : Z) (m : method) : res (Z * Z) :=
  if (qn <? 0) || (qd <? qn) then Err ValueError
  else
    let lw := row_weights l in
    let wt := fold_left Z.add (map snd lw) 0 in
    quickselect_weight (map (fun x => (fst x, qd * snd x)) lw) (wt * qn) m.
Definition weighted_median_of (l : list datum) (m : method) : res (Z * Z) := quantile l 1 2 m.
