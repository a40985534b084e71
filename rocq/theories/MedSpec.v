(** Specification of weighted medians and quantiles over a multiset of
    (value, weight) pairs, and of a well-formed AVL tree. *)
From Coq Require Import List ZArith Bool Sorted Permutation.
From Verif Require Import PyBase MedModel.
Import ListNotations.
Open Scope Z_scope.

(** *** Weighted quantiles *)
Fixpoint sum_weights (f : Z -> bool) (l : list datum) : Z :=
  match l with
  | [] => 0
  | x :: r => (if f (fst x) then snd x else 0) + sum_weights f r
  end.
Definition weight_below (l : list datum) (v : Z) : Z := sum_weights (fun u => u <? v) l.
Definition weight_upto (l : list datum) (v : Z) : Z := sum_weights (fun u => u <=? v) l.
Definition weight_total (l : list datum) : Z := sum_weights (fun _ => true) l.

(** [v] is a value of positive weight at which the cumulative weight passes
    [num/den]. *)
Definition quantile_value (l : list datum) (num den : Z) (v : Z) : Prop :=
  (exists w, In (v, w) l /\ 0 < w) /\
  den * weight_below l v <= num /\ num <= den * weight_upto l v.
Definition quantile_lower l num den v :=
  quantile_value l num den v /\ forall u, quantile_value l num den u -> v <= u.
Definition quantile_higher l num den v :=
  quantile_value l num den v /\ forall u, quantile_value l num den u -> u <= v.

(** The answer of each method, as a fraction. *)
Definition quantile_answer (l : list datum) (num den : Z) (m : method) (ans : Z * Z) : Prop :=
  let '(a, b) := ans in
  0 < b /\
  match m with
  | MLower => exists v, quantile_lower l num den v /\ a = b * v
  | MHigher => exists v, quantile_higher l num den v /\ a = b * v
  | MSplit => exists lo hi, quantile_lower l num den lo /\ quantile_higher l num den hi /\
                            2 * a = b * (lo + hi)
  end.

(** Half of the total weight. *)
Definition median_answer l m ans := quantile_answer l (weight_total l) 2 m ans.

(** *** Trees *)
Fixpoint inorder (t : tree) : list datum :=
  match t with E => [] | N l d r _ _ _ _ => inorder l ++ d :: inorder r end.
Fixpoint height (t : tree) : Z :=
  match t with E => 0 | N l _ r _ _ _ _ => 1 + Z.max (height l) (height r) end.

(** The caches of every node tell the truth and the two sides differ in height
    by at most one. *)
Fixpoint avl (t : tree) : Prop :=
  match t with
  | E => True
  | N l d r lh rh lw rw =>
      avl l /\ avl r /\ lh = height l /\ rh = height r /\
      lw = weight_total (inorder l) /\ rw = weight_total (inorder r) /\
      -1 <= height l - height r <= 1
  end.

Definition datum_le (a b : datum) : Prop := fst a < fst b \/ (fst a = fst b /\ snd a <= snd b).
Definition ordered (l : list datum) : Prop := StronglySorted datum_le l.

(** The contents after a history of insertions and removals. *)
Inductive op := Ins (x : datum) | Rem (x : datum).
Fixpoint drop_one (x : datum) (l : list datum) : list datum :=
  match l with
  | [] => []
  | y :: r => if (fst y =? fst x) && (snd y =? snd x) then r else y :: drop_one x r
  end.
Fixpoint contents (acc : list datum) (ops : list op) : list datum :=
  match ops with
  | [] => acc
  | Ins x :: r => contents (x :: acc) r
  | Rem x :: r => contents (drop_one x acc) r
  end.

(** *** Windows *)
Definition nonneg (l : list datum) := Forall (fun x : datum => 0 <= snd x) l.
Definition positive (l : list datum) := Forall (fun x : datum => 0 < snd x) l.
(** The rows within [half] of row [i], without the elements of zero weight. *)
Definition window_rows {A} (rows : list (list A)) (half i : nat) : list A :=
  concat (lslice (i - half) (i + half + 1) rows).
Definition weighty (l : list datum) : list datum := filter (fun x => negb (snd x =? 0)) l.

(** A tie: some of the elements weigh exactly half, none of the others being
    smaller. *)
Definition window_tie (w : list datum) : Prop :=
  exists P S, Permutation w (P ++ S) /\ 2 * weight_total P = weight_total w /\
              (forall x y, In x P -> In y S -> datum_le x y).
(** One and two dimensional windows around a position. *)
Definition window1 (data : list datum) (half i : nat) : list datum :=
  lslice (i - half) (i + half + 1) data.
Definition window2 (data : list (list datum)) (half_y half_x y x : nat) : list datum :=
  concat (map (lslice (x - half_x) (x + half_x + 1)) (lslice (y - half_y) (y + half_y + 1) data)).

(** When nothing has weight, everything counts the same. *)
Definition effective (l : list datum) : list datum :=
  if weight_total l =? 0 then map (fun x => (fst x, 1)) l else l.

(** One output cell for the elements [w] of its window: the weighted median of
    those that have weight; without any, NaN ([None]) when [nan], else 0. *)
Definition cell_ok (nan : bool) (m : method) (w : list datum) (v : option (Z * Z)) : Prop :=
  (weighty w <> [] -> exists ans, v = Some ans /\ median_answer (weighty w) m ans) /\
  (weighty w = [] -> v = if nan then None else Some (0, 1)).

(** A rectangular array of rows. *)
Definition rect (data : list (list datum)) (n : nat) := Forall (fun r => length r = n) data.

(** A step of a history on the tree; removing what is not there leaves it. *)
Definition step (t : tree) (o : op) : tree :=
  match o with
  | Ins x => insert x t
  | Rem x => match remove x t with Some t' => t' | None => t end
  end.
