(** Model of the moving weighted median: the AVL tree of
    /repo/caput/algorithms/median/MedianTree.hpp (with MedianTreeNode.hpp and
    MedianTreeNodeData.hpp) and the window loops of weighted.pyx.
    Values and weights are integers (doubles on a common binary scale, sums
    exact).  Parent pointers are replaced by the path from the root. *)
From Coq Require Import List ZArith Bool.
From Verif Require Import PyBase.
Import ListNotations.
Open Scope Z_scope.

(** MedianTreeNodeData.hpp lines 38-51: value and weight, compared by value,
    then weight. *)
Definition datum := (Z * Z)%type.
Definition dlt (a b : datum) : bool :=
  if fst a =? fst b then snd a <? snd b else fst a <? fst b.
Definition deq (a b : datum) : bool := (fst a =? fst b) && (snd a =? snd b).

(** MedianTreeNode.hpp: children, data, cached heights and weights. *)
Inductive tree :=
| E
| N (l : tree) (d : datum) (r : tree) (lh rh : Z) (lw rw : Z).

(** MedianTreeNode.hpp lines 75-97; a null child counts 0. *)
Definition total_height (t : tree) : Z :=
  match t with E => 0 | N _ _ _ lh rh _ _ => Z.max lh rh + 1 end.
Definition total_weight (t : tree) : Z :=
  match t with E => 0 | N _ d _ _ _ lw rw => lw + rw + snd d end.
Definition update (t : tree) : tree :=
  match t with
  | E => E
  | N l d r _ _ _ _ => N l d r (total_height l) (total_height r) (total_weight l) (total_weight r)
  end.

(** MedianTree.hpp lines 369-415. *)
Definition rotate_R (t : tree) : tree :=
  match t with
  | N (N ll ld lr lh1 rh1 lw1 rw1) d r lh rh lw rw =>
      update (N ll ld (update (N lr d r lh rh lw rw)) lh1 rh1 lw1 rw1)
  | _ => t
  end.
Definition rotate_L (t : tree) : tree :=
  match t with
  | N l d (N rl rd rr lh1 rh1 lw1 rw1) lh rh lw rw =>
      update (N (update (N l d rl lh rh lw rw)) rd rr lh1 rh1 lw1 rw1)
  | _ => t
  end.

Definition left_height (t : tree) := match t with E => 0 | N _ _ _ lh _ _ _ => lh end.
Definition right_height (t : tree) := match t with E => 0 | N _ _ _ _ rh _ _ => rh end.

(** Lines 326-357, [balance]. *)
Definition balance (t : tree) : tree :=
  match t with
  | E => E
  | N l d r lh rh lw rw =>
      if lh - rh =? 2 then
        if right_height l <=? left_height l then rotate_R t
        else rotate_R (N (rotate_L l) d r lh rh lw rw)
      else if lh - rh =? -2 then
        if left_height r <=? right_height r then rotate_L t
        else rotate_L (N l d (rotate_R r) lh rh lw rw)
      else t
  end.

(** Lines 360-367, one step of [balance_path] at a node.  After a rotation the
    parent of the node is the new top of this subtree, which is visited (again)
    next. *)
Definition visit (t : tree) : tree := balance (update (balance (update t))).

(** Lines 199-236, [insert]; a new node has zero caches. *)
Fixpoint insert (x : datum) (t : tree) : tree :=
  match t with
  | E => N E x E 0 0 0 0
  | N l d r lh rh lw rw =>
      if dlt x d then visit (N (insert x l) d r lh rh lw rw)
      else visit (N l d (insert x r) lh rh lw rw)
  end.

(** Lines 282-313, [remove_node], followed by [balance_path] up to the node. *)
Fixpoint del_min (t : tree) : option (datum * tree) :=
  match t with
  | E => None
  | N E d r _ _ _ _ => Some (d, r)
  | N l d r lh rh lw rw =>
      match del_min l with
      | Some (m, l') => Some (m, visit (N l' d r lh rh lw rw))
      | None => None
      end
  end.
Definition remove_root (t : tree) : tree :=
  match t with
  | E => E
  | N E _ r _ _ _ _ => r
  | N l _ E _ _ _ _ => l
  | N l d r lh rh lw rw =>
      match del_min r with
      | Some (m, r') => visit (N l m r' lh rh lw rw)
      | None => t
      end
  end.
(** Lines 249-279, [find_node] and [remove]; None when not found. *)
Fixpoint remove (x : datum) (t : tree) : option tree :=
  match t with
  | E => None
  | N l d r lh rh lw rw =>
      if deq d x then Some (remove_root t)
      else if dlt x d then
        match remove x l with
        | Some l' => Some (visit (N l' d r lh rh lw rw)) | None => None end
      else
        match remove x r with
        | Some r' => Some (visit (N l d r' lh rh lw rw)) | None => None end
  end.

(** *** The weighted median: lines 524-668 *)

(** A node with the path to the root: (we are the right child, parent). *)
Definition path := list (bool * tree).

(** Lines 543-552.  Comparisons with midpoint = total/2 are doubled. *)
Fixpoint descend (t : tree) (p : path) (prev next total : Z) : option (tree * path * Z * Z) :=
  match t with
  | E => None
  | N l d r _ _ lw rw =>
      if 2 * (lw + prev) >? total then descend l ((false, t) :: p) prev (next + (rw + snd d)) total
      else if 2 * (rw + next) >? total then descend r ((true, t) :: p) (prev + (lw + snd d)) next total
      else Some (t, p, prev, next)
  end.

(** Lines 654-668: [find_min], [find_max] of a subtree. *)
Fixpoint find_min (t : tree) (p : path) : tree * path :=
  match t with
  | E => (E, p)
  | N E _ _ _ _ _ _ => (t, p)
  | N l _ _ _ _ _ _ => find_min l ((false, t) :: p)
  end.
Fixpoint find_max (t : tree) (p : path) : tree * path :=
  match t with
  | E => (E, p)
  | N _ _ E _ _ _ _ => (t, p)
  | N _ _ r _ _ _ _ => find_max r ((true, t) :: p)
  end.
(** Going up while we are the right (left) child. *)
Fixpoint up_while (side : bool) (p : path) : option (tree * path) :=
  match p with
  | [] => None
  | (s, t) :: rest => if Bool.eqb s side then up_while side rest else Some (t, rest)
  end.
(** Lines 628-652. *)
Definition successor (t : tree) (p : path) : option (tree * path) :=
  match t with
  | N _ _ r _ _ _ _ => match r with E => up_while true p | _ => Some (find_min r ((true, t) :: p)) end
  | E => None
  end.
Definition predecessor (t : tree) (p : path) : option (tree * path) :=
  match t with
  | N l _ _ _ _ _ _ => match l with E => up_while false p | _ => Some (find_max l ((false, t) :: p)) end
  | E => None
  end.

Definition node_value (t : tree) : Z := match t with E => 0 | N _ d _ _ _ _ _ => fst d end.
Definition node_weight (t : tree) : Z := match t with E => 0 | N _ d _ _ _ _ _ => snd d end.
Definition left_weight (t : tree) : Z := match t with E => 0 | N _ _ _ _ _ lw _ => lw end.
Definition right_weight (t : tree) : Z := match t with E => 0 | N _ _ _ _ _ _ rw => rw end.

(** Lines 566-591, the two loops of [weighted_median_split]; [fuel] bounds the
    number of steps. *)
Fixpoint split_down (fuel : nat) (t : tree) (p : path) (next total : Z) (acc : Z * Z) : Z * Z :=
  match fuel with
  | O => acc
  | S fuel =>
      if 2 * (right_weight t + next + node_weight t) <=? total then
        match predecessor t p with
        | None => acc
        | Some (t', p') =>
            split_down fuel t' p' (next + (node_weight t + right_weight t)) total
                       (fst acc + node_value t', snd acc + 1)
        end
      else acc
  end.
Fixpoint split_up (fuel : nat) (t : tree) (p : path) (prev total : Z) (acc : Z * Z) : Z * Z :=
  match fuel with
  | O => acc
  | S fuel =>
      if 2 * (left_weight t + prev + node_weight t) <=? total then
        match successor t p with
        | None => acc
        | Some (t', p') =>
            split_up fuel t' p' (prev + (node_weight t + left_weight t)) total
                     (fst acc + node_value t', snd acc + 1)
        end
      else acc
  end.

(** Lines 593-611. *)
Fixpoint go_higher (t : tree) (prev next total : Z) : Z :=
  match t with
  | E => 0
  | N _ d r _ _ lw rw =>
      if (2 * (rw + next) <=? total) && (2 * (lw + prev + snd d) <=? total)
      then match r with E => fst d | _ => go_higher r prev next total end
      else fst d
  end.
Fixpoint go_lower (t : tree) (prev next total : Z) : Z :=
  match t with
  | E => 0
  | N l d _ _ _ lw rw =>
      if (2 * (lw + prev) <=? total) && (2 * (rw + next + snd d) <=? total)
      then match l with E => fst d | _ => go_lower l prev next total end
      else fst d
  end.

Fixpoint tree_nodes (t : tree) : nat :=
  match t with E => 0 | N l _ r _ _ _ _ => S (tree_nodes l + tree_nodes r) end.

Inductive method := MSplit | MLower | MHigher.
(** The result as numerator and denominator. *)
Definition weighted_median (t : tree) (m : method) : res (Z * Z) :=
  match t with
  | E => Ok (0, 1)
  | _ =>
      let total := total_weight t in
      match descend t [] 0 0 total with
      | None => Err OtherException              (* null pointer *)
      | Some (node, p, prev, next) =>
          Ok (match m with
              | MSplit =>
                  let acc := split_down (tree_nodes t) node p next total (node_value node, 1) in
                  split_up (tree_nodes t) node p prev total acc
              | MLower => (go_lower node prev next total, 1)
              | MHigher => (go_higher node prev next total, 1)
              end)
      end
  end.

(** *** The one-dimensional window: weighted.pyx lines 367-413 *)

(** A queue entry is the datum inserted, or the dummy (weight 0). *)
Definition enter (x : datum) (st : tree * list datum) : tree * list datum :=
  let '(t, fifo) := st in
  if snd x =? 0 then (t, fifo ++ [(0, 0)]) else (insert x t, fifo ++ [x]).
Definition leave (st : tree * list datum) : res (tree * list datum) :=
  let '(t, fifo) := st in
  match fifo with
  | [] => Err OtherException                    (* front() of an empty deque *)
  | x :: rest =>
      if snd x =? 0 then Ok (t, rest)
      else match remove x t with
           | Some t' => Ok (t', rest)
           | None => Err RuntimeError
           end
  end.

(** None is NaN. *)
Definition median_or_nan (t : tree) (m : method) : res (option (Z * Z)) :=
  match t with
  | E => Ok None
  | _ => rbind (weighted_median t m) (fun v => Ok (Some v))
  end.

(** Lines 394-412 and 485-510: [rows] holds, for every position of the window
    along the first axis, the elements that enter together (one element in one
    dimension, the row slice between the column limits in two).  [nan] says how
    a window without any element in the tree is reported. *)
Fixpoint leave_n (k : nat) (st : tree * list datum) : res (tree * list datum) :=
  match k with
  | O => Ok st
  | S k => rbind (leave st) (leave_n k)
  end.
Definition enter_all (xs : list datum) (st : tree * list datum) : tree * list datum :=
  fold_left (fun st x => enter x st) xs st.
Definition report (nan : bool) (t : tree) (m : method) : res (option (Z * Z)) :=
  if nan then median_or_nan t m
  else rbind (weighted_median t m) (fun v => Ok (Some v)).

Fixpoint mwm_loop (rows : list (list datum)) (half width : nat) (nan : bool) (m : method)
  (todo : nat) (i : nat) (st : tree * list datum) : res (list (option (Z * Z))) :=
  match todo with
  | O => Ok []
  | S todo =>
      rbind (if (half + 1 <=? i)%nat then leave_n width st else Ok st) (fun st =>
      let st := match nth_error rows (i + half) with Some xs => enter_all xs st | None => st end in
      rbind (report nan (fst st) m) (fun v =>
      rbind (mwm_loop rows half width nan m todo (S i) st) (fun vs => Ok (v :: vs))))
  end.

Definition mwm_rows (rows : list (list datum)) (half width : nat) (nan : bool) (m : method)
  : res (list (option (Z * Z))) :=
  let st := enter_all (concat (firstn (half + 1) rows)) (E, []) in
  rbind (report false (fst st) m) (fun v0 =>
  rbind (mwm_loop rows half width nan m (length rows - 1) 1 st) (fun vs => Ok (v0 :: vs))).

(** Lines 367-413; [medians[0] = ...] of an empty array is an error. *)
Definition mwm_1D (data : list datum) (size : nat) (m : method) : res (list (option (Z * Z))) :=
  match data with
  | [] => Err IndexError
  | _ => mwm_rows (map (fun x => [x]) data) (Nat.div size 2) 1 true m
  end.

(** Lines 334-351 for one dimension (a scalar window size): a window of one is
    the data, or the (zero) weight. *)
Definition moving_1d (data : list datum) (size : nat) (m : method) : res (list (option (Z * Z))) :=
  if (size =? 0)%nat then Err ValueError
  else if (size =? 1)%nat then
    Ok (map (fun x => if snd x =? 0 then Some (0, 1) else Some (fst x, 1)) data)
  else if Nat.even size then Err ValueError
  else mwm_1D data size m.

(** Lines 417-512: every column with its own tree; the result is listed column
    by column.  At least one row. *)
Definition mwm_2D_col (data : list (list datum)) (len_x size_y size_x col : nat) (m : method)
  : res (list (option (Z * Z))) :=
  let rad_x := Nat.div size_x 2 in
  let upper := (col - rad_x)%nat in
  let lower := Nat.min (col + rad_x + 1) len_x in
  mwm_rows (map (lslice upper lower) data) (Nat.div size_y 2) (lower - upper) false m.

Fixpoint res_map {A B} (f : A -> res B) (l : list A) : res (list B) :=
  match l with
  | [] => Ok []
  | x :: r => rbind (f x) (fun y => rbind (res_map f r) (fun ys => Ok (y :: ys)))
  end.
Definition mwm_2D (data : list (list datum)) (len_x size_y size_x : nat) (m : method)
  : res (list (list (option (Z * Z)))) :=
  res_map (fun col => mwm_2D_col data len_x size_y size_x col m) (seq 0 len_x).

(** [a.T] of a rectangular array with [n] columns. *)
Definition transpose {A} (d : A) (n : nat) (a : list (list A)) : list (list A) :=
  map (fun k => map (fun row => nth k row d) a) (seq 0 n).

(** Lines 353-362; the result as rows.  [size == 1] is not reached with a pair.
    [data] has at least one row and [len_x] columns. *)
Definition moving_2d (data : list (list datum)) (len_x size_y size_x : nat) (m : method)
  : res (list (list (option (Z * Z)))) :=
  if Nat.even size_y || Nat.even size_x then Err ValueError
  else if (size_y <? size_x)%nat then
    mwm_2D (transpose (0, 0) len_x data) (length data) size_x size_y m
  else
    rbind (mwm_2D data len_x size_y size_x m) (fun cols => Ok (transpose None (length data) cols)).
