(** Arrays in messages: the bytes that are sent.
    /repo/caput/mpiarray.py: [MPIArray._prep_buf] (1494-1520), [gather] (1522-1581), [allgather] (1583-1613);
    /repo/caput/util/mpitools.py: [typemap] (569-582), [gather_local] (585-650).

    RedModel and DistModel pass arrays as functions of the index; here they are
    windows into memory, counted in bytes.  From NumPy: the contiguity flags,
    [view(np.byte)], [reshape] with one more axis, [ascontiguousarray].  From
    mpi4py: a buffer has to be contiguous in C or in Fortran order (numpy
    refuses to export any other with ValueError), and its bytes are sent in the
    order of memory.
    Simplified: types have at least one byte; the two ends of a message
    agree on its length; a rank that raises is not waited for. *)
From Coq Require Import List Bool Arith ZArith.
From Verif Require Import PyBase PartModel RedModel ArrModel.
Import ListNotations.
Open Scope nat_scope.

(** An array of items of [a_item] bytes; strides and offset of the window in bytes. *)
Record array := mkarr { a_item : nat; a_view : view }.
Notation a_shape a := (v_shape (a_view a)).
Notation a_strides a := (v_strides (a_view a)).

Definition c_flag (a : array) : bool :=
  empty (a_view a) || contiguous_from (a_item a) (rev (combine (a_shape a) (a_strides a))).
Definition f_flag (a : array) : bool :=
  empty (a_view a) || contiguous_from (a_item a) (combine (a_shape a) (a_strides a)).

(** Number of an element in C order. *)
Fixpoint c_index (shape idx : list nat) : nat :=
  match shape, idx with
  | _ :: shape, i :: idx => i * count shape + c_index shape idx
  | _, _ => 0
  end.

Section Bytes.
Context {B : Type}.

(** The bytes of an element. *)
Definition elem (m : mem B) (a : array) (idx : list nat) : list B :=
  map (fun k => m (addr (a_view a) idx + Z.of_nat k)%Z) (seq 0 (a_item a)).
Definition nbytes (a : array) : nat := count (a_shape a) * a_item a.

(** The buffer protocol, PyBUF_ANY_CONTIGUOUS. *)
Definition getbuffer (m : mem B) (a : array) : res (list B) :=
  if c_flag a || f_flag a
  then Ok (map (fun k => m (v_off (a_view a) + Z.of_nat k)%Z) (seq 0 (nbytes a)))
  else Err ValueError.

(** [x.view(np.byte)]: the last axis becomes longer, and has to be contiguous. *)
Definition view_bytes (a : array) : res array :=
  if a_item a =? 1 then Ok a
  else match a_shape a with
  | [] => Err ValueError
  | _ =>
      let d := last (a_shape a) 0 in
      if (d =? 1) || empty (a_view a) || (last (a_strides a) 0 =? Z.of_nat (a_item a))%Z
      then Ok (mkarr 1 (mkview (removelast (a_shape a) ++ [d * a_item a]) (removelast (a_strides a) ++ [1%Z]) (v_off (a_view a))))
      else Err ValueError
  end.
(** [reshape] of the bytes to one more axis: the last axis is cut into items. *)
Definition split_last (item : nat) (a : array) : array :=
  match a_shape a with
  | [] => mkarr 1 (mkview [item] [1%Z] (v_off (a_view a)))
  | _ =>
      let s := last (a_strides a) 0%Z in
      mkarr 1 (mkview (removelast (a_shape a) ++ [last (a_shape a) 0 / item; item])
                      (removelast (a_strides a) ++ [(Z.of_nat item * s)%Z; s]) (v_off (a_view a)))
  end.

(** Lines 1494-1520 of mpiarray.py, and what mpi4py makes of the result.  [known]: MPI has a type
    for the type code; compound types have none. *)
Definition prep_buf (known : bool) (m : mem B) (a : array) : res (list B) :=
  if known then getbuffer m a
  else rbind (view_bytes a) (fun v => getbuffer m (split_last (a_item a) v)).

(** An array in C order after the message has been received into it. *)
Definition received (item : nat) (shape : list nat) (msg : list B) : nd (option (list B)) :=
  mknd shape (fun idx => Some (firstn item (skipn (item * c_index shape idx) msg))).

(** Lines 1522-1581, [gather]; the root's message to itself has arrived. *)
Definition gather_mem (known : bool) (gshape : list nat) (csize : nat) (axis : Z)
    (m : nat -> mem B) (a : nat -> array) (root crank : nat) : res (option (nd (option (list B)))) :=
  rbind (rsequence (map (fun q => prep_buf known (m q) (a q)) (seq 0 csize))) (fun msgs =>
  gather gshape csize axis (fun q => received (a_item (a q)) (a_shape (a q)) (nth q msgs [])) root true crank).

(** Lines 1601-1606: [tbuf[:] = self.local_array], [tbuf] in C order at address 0. *)
Definition copied (m : mem B) (a : array) : mem B :=
  fun z => let p := Z.to_nat z in
    m (addr (a_view a) (unravel_c (a_shape a) (p / a_item a)) + Z.of_nat (p mod a_item a))%Z.
Definition c_array (item : nat) (shape : list nat) : array :=
  mkarr item (mkview shape (map (fun s => Z.of_nat item * s)%Z (c_strides shape)) 0).
(** Lines 1583-1613, [allgather]. *)
Definition allgather_mem (known : bool) (gshape : list nat) (csize : nat) (axis : Z)
    (m : nat -> mem B) (a : nat -> array) : res (nd (option (list B))) :=
  rbind (rsequence (map (fun q => prep_buf known (copied (m q) (a q)) (c_array (a_item (a q)) (a_shape (a q)))) (seq 0 csize))) (fun msgs =>
  allgather gshape csize axis (fun q => received (a_item (a q)) (a_shape (a q)) (nth q msgs []))).

(** * [gather_local] *)
(** Bytes written from address [z] on. *)
Definition write_bytes (m : mem B) (z : Z) (bs : list B) : mem B :=
  fun y => (if (z <=? y) && (y <? z + Z.of_nat (length bs)) then nth (Z.to_nat (y - z)) bs (m y) else m y)%Z.
Fixpoint idx_add (a b : list nat) : list nat :=
  match a, b with x :: a, y :: b => (x + y) :: idx_add a b | _, _ => [] end.
(** Create_subarray: the section lies in the array. *)
Fixpoint inside (gshape sizes starts : list nat) : bool :=
  match gshape, sizes, starts with
  | [], [], [] => true
  | d :: gshape, n :: sizes, s :: starts => (s + n <=? d) && inside gshape sizes starts
  | _, _, _ => false
  end.
(** Line 641: a message [msg] of the given sizes received as section of [g]: items are taken in
    turn, to the places the section has in an array in C order that begins at the first byte. *)
Definition recv_section (g : array) (m : mem B) (sizes starts : list nat) (msg : list B) : res (mem B) :=
  if inside (a_shape g) sizes starts then
    rbind (getbuffer m g) (fun _ =>
    Ok (fold_left (fun m k =>
          write_bytes m (v_off (a_view g) + Z.of_nat (a_item g * c_index (a_shape g) (idx_add starts (unravel_c sizes k))))
                      (firstn (a_item g) (skipn (a_item g * k) msg)))
        (seq 0 (count sizes)) m))
  else Err RuntimeError.
(** [np.ascontiguousarray(local_array)], sent. *)
Definition contiguous_bytes (m : mem B) (a : array) : list B :=
  map (fun p => copied m a (Z.of_nat p)) (seq 0 (nbytes a)).
(** Lines 606-650 on the root: the memory of the global array afterwards. *)
Definition gather_local_mem (known : bool) (size : nat) (m : nat -> mem B) (a : nat -> array)
    (starts : nat -> list nat) (g : array) (mg : mem B) : res (mem B) :=
  if size =? 1 then Err IndexError
  else if negb known then Err KeyError
  else fold_left (fun acc q => rbind acc (fun mg =>
                    recv_section g mg (a_shape (a q)) (starts q) (contiguous_bytes (m q) (a q))))
         (filter (fun q => negb (count (a_shape (a q)) =? 0)) (seq 0 size)) (Ok mg).
End Bytes.
