(** Specification of computing with distributed arrays: what numpy gives for whole
    arrays, and what it means to hold a part of one. *)
From Coq Require Import List Arith ZArith Bool Sorted Permutation.
From Verif Require Import PyBase PartSpec SliceModel RedModel RedSpec AxModel AxSpec DuModel.
Import ListNotations.
Open Scope nat_scope.

Section Spec.
Context {A : Type}.

Definition part (c : comm) (n : nat) : nat := part_of n (c_size c) (c_rank c).
Definition start (c : comm) (n : nat) : nat := start_of n (c_size c) (c_rank c).

(** The array [a] has the elements of the rank of [c] of the array [G], of which
    axis [k] is divided evenly. *)
Definition Share (c : comm) (k : nat) (G a : nd A) : Prop :=
  let n := nth k (shp G) 0 in
  k < length (shp G) /\ shp a = set_nth k (part c n) (shp G)
  /\ forall idx, InShape idx (shp a) -> elt a idx = elt G (shift k (start c n) idx).

(** The distributed array [d] is that, and says so. *)
Definition Part (c : comm) (k : nat) (G : nd A) (d : darr A) : Prop :=
  let n := nth k (shp G) 0 in
  Share c k G (d_data d)
  /\ d_axis d = Z.of_nat k /\ d_gshape d = shp G /\ d_lshape d = shp (d_data d)
  /\ d_loffset d = set_nth k (start c n) (repeat 0 (length (shp G)))
  /\ d_comm d = Some c.

(** ** Elementwise operations: axes are counted from the right *)
(** All lengths of an axis are 1 or that of the result. *)
Definition Broadcast (shapes : list (list nat)) (out : list nat) : Prop :=
  (forall s, In s shapes -> length s <= length out)
  /\ (length out = 0 \/ exists s, In s shapes /\ length s = length out)
  /\ forall j n, right j out = Some n ->
       (forall s d, In s shapes -> right j s = Some d -> d = 1 \/ d = n)
       /\ (n = 1 \/ exists s, In s shapes /\ right j s = Some n).
(** The index [i] of an operand of shape [s] used for [idx]: axes of length one
    are repeated. *)
Definition Reads (s idx i : list nat) : Prop :=
  forall j, right j i = match right j s, right j idx with
                        | Some n, Some x => Some (if n =? 1 then 0 else x)
                        | _, _ => None
                        end.
Definition Elementwise (f : list A -> A) (Gs : list (nd A)) (R : nd A) : Prop :=
  Broadcast (map shp Gs) (shp R)
  /\ forall idx, InShape idx (shp R) ->
       exists is, Forall2 (fun G i => Reads (shp G) idx i) Gs is
                  /\ elt R idx = f (map (fun '(G, i) => elt G i) (combine Gs is)).

(** An input on the rank of [c] and the whole array it stands for, when axis [j]
    from the right is divided, of length [n]: a distributed array, an array that
    is the same on all ranks and has not more than one element there, an array of
    which every rank has its own part, a number. *)
Inductive StandsFor (c : comm) (j n : nat) : input A -> nd A -> Prop :=
| SfDist : forall d G k, Part c k G d -> k + S j = length (shp G) -> right j (shp G) = Some n ->
    StandsFor c j n (InDist d) G
| SfCommon : forall a, (forall m, right j (shp a) = Some m -> m = 1) -> StandsFor c j n (InArr a) a
| SfOwn : forall a G k, Share c k G a -> k + S j = length (shp G) -> right j (shp G) = Some n ->
    StandsFor c j n (InArr a) G
| SfScalar : forall x, StandsFor c j n (InScalar x) (mknd [] (fun _ => x)).

(** ** Reductions *)
Definition kept (ndim : nat) (red : list nat) : list nat :=
  filter (fun k => negb (existsb (Nat.eqb k) red)) (seq 0 ndim).
(** Order of the elements in memory: the last axis changes fastest. *)
Fixpoint LexLt (a b : list nat) : Prop :=
  match a, b with
  | x :: a, y :: b => x < y \/ (x = y /\ LexLt a b)
  | _, _ => False
  end.
(** The element [i] belongs to the element [idx] of the result. *)
Definition Belongs (ndim : nat) (red : list nat) (keep : bool) (idx i : list nat) : Prop :=
  if keep then forall k, In k (kept ndim red) -> nth k i 0 = nth k idx 0
  else map (fun k => nth k i 0) (kept ndim red) = idx.
Definition Reduction (f : list A -> A) (red : list nat) (keep : bool) (G R : nd A) : Prop :=
  let ndim := length (shp G) in
  shp R = (if keep then map (fun k => if existsb (Nat.eqb k) red then 1 else nth k (shp G) 0) (seq 0 ndim)
           else map (fun k => nth k (shp G) 0) (kept ndim red))
  /\ forall idx, InShape idx (shp R) ->
       exists L, StronglySorted LexLt L
         /\ (forall i, In i L <-> InShape i (shp G) /\ Belongs ndim red keep idx i)
         /\ elt R idx = f (map (elt G) L).

Definition Accumulation (f : list A -> A) (axis : nat) (G R : nd A) : Prop :=
  shp R = shp G
  /\ forall idx, InShape idx (shp G) ->
       elt R idx = f (map (fun j => elt G (set_nth axis j idx)) (seq 0 (S (nth axis idx 0)))).

(** All indices of an array, in some order. *)
Definition Lists (sh : list nat) (L : list (list nat)) : Prop :=
  NoDup L /\ forall i, In i L <-> InShape i sh.

(** ** Indexing and transposition *)
(** The shape of what an index with one entry per axis selects from an array of
    shape [sh]. *)
Inductive Extent : list ient -> list nat -> list nat -> Prop :=
| ExtNil : Extent [] [] []
| ExtNew : forall sl sh t, Extent sl sh t -> Extent (INew :: sl) sh (1 :: t)
| ExtInt : forall z sl n sh t k, AxisName n z k -> Extent sl sh t -> Extent (IInt z :: sl) (n :: sh) t
| ExtSlice : forall s sl n sh t ps, slice_positions s (Z.of_nat n) = Ok ps -> Extent sl sh t ->
    Extent (ISl s :: sl) (n :: sh) (length ps :: t).
(** The element [i] of the array that is element [o] of the result. *)
Inductive Selects : list ient -> list nat -> list nat -> list nat -> Prop :=
| SelNil : Selects [] [] [] []
| SelNew : forall sl sh o i, Selects sl sh o i -> Selects (INew :: sl) sh (0 :: o) i
| SelInt : forall z sl n sh o i k, AxisName n z k -> Selects sl sh o i ->
    Selects (IInt z :: sl) (n :: sh) o (k :: i)
| SelSlice : forall s sl n sh o i x k ps, slice_positions s (Z.of_nat n) = Ok ps ->
    nth_error ps x = Some (Z.of_nat k) -> Selects sl sh o i ->
    Selects (ISl s :: sl) (n :: sh) (x :: o) (k :: i).
Definition Indexed (sl : list ient) (G R : nd A) : Prop :=
  Extent sl (shp G) (shp R)
  /\ forall o, InShape o (shp R) ->
       exists i, InShape i (shp G) /\ Selects sl (shp G) o i /\ elt R o = elt G i.
(** The entries of an index, those left out written as [:] (numpy's reading,
    [np_items]); on axis [k] the whole of it. *)
Definition entries (sl : list ient) (ndim : nat) : list ient := map snd (np_items sl (seq 0 ndim)).
Definition whole_on (k : nat) (it : option nat * ient) : option nat * ient :=
  match fst it with Some a => if a =? k then (Some a, ISl full_slice) else it | None => it end.
Definition entries_whole (k : nat) (sl : list ient) (ndim : nat) : list ient :=
  map snd (map (whole_on k) (np_items sl (seq 0 ndim))).
(** [R] has the axes of [G] in the order [perm]. *)
Definition Transposed (perm : list nat) (G R : nd A) : Prop :=
  shp R = map (fun k => nth k (shp G) 0) perm
  /\ forall i, InShape i (shp G) -> elt R (map (fun k => nth k i 0) perm) = elt G i.

Definition TransposeBy (ndim : nat) (a : targ) (perm : list nat) : Prop :=
  (a = TEmpty /\ perm = rev (seq 0 ndim)) \/ a = TAxes (map Z.of_nat perm).

(** ** Expressions: the value numpy gives for whole arrays, and its axis that is
    divided between the ranks, if any.  [env v]: the value of input [v] and its
    divided axis. *)
(** The value fits a result of which axis [j] from the right is divided, of
    length [n]. *)
Definition Suits (j n : nat) (x : nd A * option nat) : Prop :=
  match snd x with
  | Some k => k + S j = length (shp (fst x)) /\ right j (shp (fst x)) = Some n
  | None => forall m, right j (shp (fst x)) = Some m -> m = 1
  end.
Inductive Den (env : nat -> nd A * option nat) : expr A -> nd A * option nat -> Prop :=
| DVar : forall v, Den env (EVar v) (env v)
| DCall : forall u i args xs j n R, Forall2 (Den env) args xs -> Forall (Suits j n) xs ->
    (exists G k, In (G, Some k) xs) -> i < u_nout u -> Elementwise (u_elem u i) (map fst xs) R ->
    Den env (ECall u i args) (R, Some (length (shp R) - S j))
| DReduce : forall u axes keep e G k red R p, Den env e (G, Some k) ->
    Forall2 (AxisName (length (shp G))) axes red -> NoDup red -> ~ In k red ->
    (u_ident u = true \/ forall a, In a red -> nth a (shp G) 0 <> 0) ->
    Reduction (u_red u) red keep G R ->
    nth_error (if keep then seq 0 (length (shp G)) else kept (length (shp G)) red) p = Some k ->
    Den env (EReduce u axes keep e) (R, Some p)
| DAccumulate : forall u z e G k a R, Den env e (G, Some k) -> AxisName (length (shp G)) z a -> a <> k ->
    Accumulation (u_red u) a G R -> Den env (EAccumulate u z e) (R, Some k)
| DTranspose : forall a e G k perm R p, Den env e (G, Some k) ->
    TransposeBy (length (shp G)) a perm -> Permutation perm (seq 0 (length (shp G))) -> Transposed perm G R ->
    nth_error perm p = Some k -> Den env (ETranspose a e) (R, Some p)
| DIndex : forall sl e G k R p, Den env e (G, Some k) -> IndexOk sl (length (shp G)) ->
    In (Some k, ISl full_slice) (np_items sl (seq 0 (length (shp G)))) -> Indexed (entries sl (length (shp G))) G R ->
    nth_error (np_out sl (length (shp G))) p = Some (Some k) -> Den env (EIndex sl e) (R, Some p).
(** What the rank of [c] has for a value. *)
Definition Holds (c : comm) (x : nd A * option nat) (i : input A) : Prop :=
  match snd x with
  | Some k => exists d, i = InDist d /\ Part c k (fst x) d
  | None => match i with
            | InArr a => fst x = a
            | InScalar s => fst x = mknd [] (fun _ => s)
            | InDist _ => False
            end
  end.

End Spec.
