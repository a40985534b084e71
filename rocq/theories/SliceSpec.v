(** Specifications for slices, IO partitions and global slicing (C14-C20). *)
From Coq Require Import List ZArith Bool.
From Verif Require Import PyBase PartSpec SliceModel.
Import ListNotations.
Open Scope Z_scope.

(** Python's slice rule for a positive step (language reference): negative
    bounds count from the end, bounds are clamped to [0, n], and the items
    are those at i, i+k, i+2k, ... below j. *)
Definition py_bound (n : Z) (default : Z) (b : option Z) : Z :=
  match b with
  | None => default
  | Some x => Z.max 0 (Z.min n (if x <? 0 then x + n else x))
  end.
Definition py_step (k : option Z) : Z := match k with None => 1 | Some k => k end.

Definition py_selected (s : pslice) (n x : Z) : bool :=
  let i := py_bound n 0 (sl_start s) in
  let j := py_bound n n (sl_stop s) in
  (i <=? x) && (x <? j) && ((x - i) mod (py_step (sl_step s)) =? 0).

(** The positions in [0, n) selected, in order. *)
Definition py_positions (s : pslice) (n : nat) : list nat :=
  filter (fun x => py_selected s (Z.of_nat n) (Z.of_nat x)) (seq 0 n).

(** The slice of a list. *)
Definition py_slice {A} (l : list A) (s : pslice) : list A :=
  map snd (filter (fun '(i, _) => py_selected s (Z.of_nat (length l)) (Z.of_nat i)) (enumerate l)).

(** The list with every selected item replaced by [v]. *)
Definition py_assign {A} (l : list A) (s : pslice) (v : A) : list A :=
  map (fun '(i, x) => if py_selected s (Z.of_nat (length l)) (Z.of_nat i) then v else x) (enumerate l).

Definition positive_step (s : pslice) : Prop := 0 < py_step (sl_step s).

(** Slices whose start does not lie beyond their stop. *)
Definition forward (s : pslice) (n : Z) : Prop :=
  py_bound n 0 (sl_start s) <= py_bound n n (sl_stop s).

(** The data a rank got, as a list. *)
Definition data_of {A} (r : res (gres A)) : list A :=
  match r with
  | Ok (RMany l) => l
  | Ok (ROne x) => [x]
  | _ => []
  end.

(** [ps] cuts [0, n) into consecutive ranges. *)
Definition Tiles (ps : list (nat * nat)) (n : nat) : Prop :=
  concat (map (fun '(a, b) => seq a (b - a)) ps) = seq 0 n
  /\ Forall (fun '(a, b) => (a <= b)%nat) ps.

(** The outcomes of the ranks reading a selection: every rank succeeds and
    reports the global length, its data and its offset, which is the total
    length of the pieces before it; the pieces in rank order make [sel]. *)
Definition Pieces {A} (results : list (res (nat * nat * list A))) (sel : list A) : Prop :=
  exists parts : list (nat * list A),
    results = map (fun p => Ok (length sel, fst p, snd p)) parts
    /\ concat (map snd parts) = sel
    /\ forall r p, nth_error parts r = Some p ->
         fst p = length (concat (map snd (firstn r parts))).

(** Number of items of a shape. *)
Definition prod (l : list nat) : Z := fold_right (fun x acc => Z.of_nat x * acc) 1 l.

(** A rank with local shape [lsh], agreeing with the global shape except on
    the distributed axis, moving items of [item] bytes. *)
Definition LocalShape (gshape lsh : list nat) (axis : nat) : Prop :=
  length lsh = length gshape
  /\ forall j, j <> axis -> nth j lsh 0%nat = nth j gshape 0%nat.

(** Alignment of the ranks' blocks with the step. *)
Definition Aligned (s : pslice) (n : nat) (size : nat) : Prop :=
  forall r, (r < size)%nat ->
    let a := py_bound (Z.of_nat n) 0 (sl_start s) in
    a < Z.of_nat (start_of n size r) -> (Z.of_nat (start_of n size r) - a) mod py_step (sl_step s) = 0.
