(** Model of the exchanges between ranks of /repo/caput/mpiarray.py:
    [redistribute], [gather], [allgather].

    A numpy array is its shape and its elements as a function of the
    multi-index (only indices inside the shape mean anything); [None] stands
    for an uninitialised element.  Simplified: the memory check of lines
    775-782 always succeeds, MPI calls return SUCCESS, and an assignment
    between different shapes raises ValueError (numpy would repeat axes of
    length one; that never happens here). *)
From Coq Require Import List Arith ZArith Bool.
From Verif Require Import PyBase PartModel SliceModel.
Import ListNotations.
Open Scope nat_scope.

Record nd (A : Type) := mknd { shp : list nat; elt : list nat -> A }.
Arguments mknd {A}. Arguments shp {A}. Arguments elt {A}.

(** Map over a list with the position. *)
Definition imap (f : nat -> nat -> nat) (l : list nat) : list nat :=
  map (fun '(k, x) => f k x) (enumerate l).

(** A tuple of slices, one per axis: [None] is slice(None), [Some (a, b)] is
    slice(a, b). *)
Definition box := nat -> option (nat * nat).
Definition full_box : box := fun _ => None.
Definition upd (b : box) (k : nat) (r : nat * nat) : box :=
  fun j => if j =? k then Some r else b j.
Definition rstart (r : option (nat * nat)) : nat := match r with Some (a, _) => a | None => 0 end.
Definition rlen (r : option (nat * nat)) (d : nat) : nat :=
  match r with Some (a, b) => Nat.min b d - a | None => d end.
Definition in_range (r : option (nat * nat)) (x : nat) : bool :=
  match r with Some (a, b) => (a <=? x) && (x <? b) | None => true end.

(** [arr[b]] *)
Definition view {A} (a : nd A) (b : box) : nd A :=
  mknd (imap (fun k d => rlen (b k) d) (shp a))
       (fun idx => elt a (imap (fun k x => x + rstart (b k)) idx)).

Definition in_box (b : box) (idx : list nat) : bool :=
  forallb (fun '(k, x) => in_range (b k) x) (enumerate idx).

Definition shape_eqb (a b : list nat) : bool :=
  if list_eq_dec Nat.eq_dec a b then true else false.

(** [dst[b] = src] *)
Definition assign {A} (dst : nd A) (b : box) (src : nd A) : res (nd A) :=
  if shape_eqb (imap (fun k d => rlen (b k) d) (shp dst)) (shp src)
  then Ok (mknd (shp dst)
        (fun idx => if in_box b idx then elt src (imap (fun k x => x - rstart (b k)) idx)
                    else elt dst idx))
  else Err ValueError.

(** [np.empty(shape)] *)
Definition nd_empty {A} (sh : list nat) : nd (option A) := mknd sh (fun _ => None).

(** Indexing a list of [ndim] entries with a possibly negative axis number. *)
Definition pyaxis (ndim : nat) (a : Z) : res nat :=
  (if (0 <=? a) && (a <? Z.of_nat ndim) then Ok (Z.to_nat a)
   else if (- Z.of_nat ndim <=? a) && (a <? 0) then Ok (Z.to_nat (a + Z.of_nat ndim))
   else Err IndexError)%Z.

Definition lmax (l : list nat) : nat := fold_right Nat.max 0 l.
Definition lsub (a b : list nat) : list nat := map (fun '(x, y) => x - y) (combine a b).

(** [np.array_split(arr, indices, axis)]: piece [i]. *)
Definition array_split {A} (arr : nd A) (indices : list nat) (axis i : nat) : nd A :=
  let div_points := 0 :: indices ++ [nth axis (shp arr) 0] in
  view arr (upd full_box axis (nth i div_points 0, nth (i + 1) div_points 0)).

(** Lines 817-818: the partners of rank [crank] in step [i]. *)
Definition send_to (csize crank i : nat) : nat := (crank + i) mod csize.
Definition recv_from (csize crank i : nat) : nat :=
  Z.to_nat ((Z.of_nat crank - Z.of_nat i) mod Z.of_nat csize).
(** Lines 827 and 830: the tags. *)
Definition send_tag (csize crank i : nat) : nat := csize * crank + send_to csize crank i.
Definition recv_tag (csize crank i : nat) : nat := csize * recv_from csize crank i + crank.

(** Lines 745-855, [redistribute], after the checks for an unchanged axis and
    for a single rank.  [ka] the current and [kb] the new axis, as positions.
    [locals q] is the local array of rank [q].  The data received in a step is
    the whole send buffer of the partner in that step. *)
Section Exchange.
  Context {A : Type} (gshape : list nat) (csize ka kb : nat).
  Variables (sac eac sar ear : list nat) (locals : nat -> nd (option A)).

  (** Line 798. *)
  Definition block (q j : nat) : nd (option A) :=
    array_split (locals q) (nth 0 sac 0 :: eac) kb (j + 1).
  (** Lines 785-787 and 800-802. *)
  Definition target_shape (r : nat) : list nat :=
    set_nth kb (nth r eac 0 - nth r sac 0) gshape.
  Definition buffer_shape (r : nat) : list nat :=
    set_nth kb (lmax (lsub eac sac)) (set_nth ka (lmax (lsub ear sar)) (target_shape r)).

  (** The send buffer of rank [q] after [k] steps (lines 807-822). *)
  Fixpoint send_after (q k : nat) : res (nd (option A)) :=
    match k with
    | 0 => Ok (nd_empty (buffer_shape q))
    | S i =>
        let st := send_to csize q i in
        let sendsl := upd (upd full_box ka (0, nth q ear 0 - nth q sar 0))
                          kb (0, nth st eac 0 - nth st sac 0) in
        rbind (send_after q i) (fun sb => assign sb sendsl (block q st))
    end.

  (** The target array of rank [r] after [k] steps (lines 824-853). *)
  Fixpoint target_after (r k : nat) : res (nd (option A)) :=
    match k with
    | 0 => Ok (nd_empty (target_shape r))
    | S i =>
        let q := recv_from csize r i in
        let targetsl := upd full_box ka (nth q sar 0, nth q ear 0) in
        let recvsl := upd (upd full_box kb (0, nth r eac 0 - nth r sac 0))
                          ka (0, nth q ear 0 - nth q sar 0) in
        rbind (target_after r i) (fun t =>
        rbind (send_after q (S i)) (fun recv_buffer =>
        assign t targetsl (view recv_buffer recvsl)))
    end.
End Exchange.

(** Lines 745-855, [redistribute] on rank [crank].  Axis numbers are the
    Python integers. For one rank [wrap] (lines 696-743) keeps the array and
    rejects an axis that does not exist. *)
Definition redistribute {A} (gshape : list nat) (csize : nat) (self_axis axis : Z)
    (locals : nat -> nd (option A)) (crank : nat) : res (nd (option A)) :=
  if (self_axis =? axis)%Z then Ok (locals crank)
  else if csize =? 1 then
    match pyaxis (length gshape) axis with
    | Ok _ => Ok (locals crank)
    | Err _ => Err AxisException
    end
  else
  rbind (pyaxis (length gshape) axis) (fun kb =>
  rbind (pyaxis (length gshape) self_axis) (fun ka =>
  rbind (split_all (nth kb gshape 0) csize) (fun '(_, sac, eac) =>
  rbind (split_all (nth ka gshape 0) csize) (fun '(_, sar, ear) =>
  target_after gshape csize ka kb sac eac sar ear locals crank csize)))).

(** The loop shared by [gather] (lines 1544-1579) and [allgather] (lines
    1596-1611): copy the piece of each rank to its place.  A message that does
    not fit the buffer is an error. *)
Definition collect {A} (gshape : list nat) (csize axis : nat) (pieces : nat -> nd (option A))
  : res (nd (option A)) :=
  rbind (split_all (nth axis gshape 0) csize) (fun '(n, s, e) =>
  fold_left (fun acc ri =>
      rbind acc (fun arr =>
      let tshape := set_nth axis (nth ri n 0) gshape in
      if shape_eqb (shp (pieces ri)) tshape
      then assign arr (upd full_box axis (nth ri s 0, nth ri e 0)) (mknd tshape (elt (pieces ri)))
      else Err RuntimeError))
    (seq 0 csize) (Ok (nd_empty gshape))).

(** Lines 1522-1581, [gather].  On the root the request of the receive from
    itself is overwritten by the request of the send (lines 1552 and 1556), so
    nothing waits for that receive: [delivered] says whether it was complete
    when the send was. *)
Definition gather {A} (gshape : list nat) (csize : nat) (axis : Z)
    (locals : nat -> nd (option A)) (root : nat) (delivered : bool) (crank : nat)
  : res (option (nd (option A))) :=
  rbind (pyaxis (length gshape) axis) (fun k =>
  if crank =? root then
    rbind (collect gshape csize k (fun ri =>
             if (ri =? root) && negb delivered then nd_empty (shp (locals ri)) else locals ri))
          (fun arr => Ok (Some arr))
  else Ok None).

(** Lines 1583-1613, [allgather], on any rank. *)
Definition allgather {A} (gshape : list nat) (csize : nat) (axis : Z)
    (locals : nat -> nd (option A)) : res (nd (option A)) :=
  rbind (pyaxis (length gshape) axis) (fun k => collect gshape csize k locals).
