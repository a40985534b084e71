(** Model of the bookkeeping of the distributed axis in
    /repo/caput/mpiarray.py: ufunc reductions, accumulations and calls, basic
    indexing, transposition and reshaping. *)
From Coq Require Import List ZArith Bool.
From Verif Require Import PyBase SliceModel RedModel.
Import ListNotations.
Open Scope Z_scope.

(** *** Ufuncs *)

(** Lines 2014-2048, [_array_ufunc_reduce], the position of the distributed
    axis in the result, for [axis] not None (a single axis is a list of one,
    [_ensure_list]).  [self_axis] is the stored axis number. *)
Definition ufunc_reduce (ndim : nat) (self_axis : Z) (axes : list Z) (keepdims : bool) : res Z :=
  let axis := map (fun ax => if 0 <=? ax then ax else Z.of_nat ndim + ax) axes in
  let mem x := existsb (Z.eqb x) axis in
  if mem self_axis then Err AxisException
  else Ok (fold_left (fun final ii =>
             if mem (Z.of_nat ii) && (Z.of_nat ii <? self_axis) && negb keepdims
             then final - 1 else final) (seq 0 ndim) self_axis).

(** Lines 1997-2012, [_array_ufunc_accumulate]. *)
Definition ufunc_accumulate (self_axis axis : Z) : res Z :=
  if axis =? self_axis then Err AxisException else Ok self_axis.

(** The inputs of a ufunc call. *)
Inductive operand :=
| OpDist (axis : Z) (gshape : list nat) (offset : list nat) (lshape : list nat)  (* MPIArray *)
| OpArr (shape : list nat)                                                      (* numpy array *)
| OpScalar.

Definition op_ndim (o : operand) : Z :=
  match o with
  | OpDist _ g _ _ => Z.of_nat (length g)
  | OpArr s => Z.of_nat (length s)
  | OpScalar => -1
  end.

(** [l[i]] with Python's negative indices. *)
Definition pynth {A} (l : list A) (i : Z) : res A :=
  match pyaxis (length l) i with
  | Ok k => match nth_error l k with Some x => Ok x | None => Err IndexError end
  | Err e => Err e
  end.

Fixpoint first_dist (l : list operand) : option (Z * list nat * list nat * list nat) :=
  match l with
  | [] => None
  | OpDist a g o s :: _ => Some (a, g, o, s)
  | _ :: t => first_dist t
  end.

(** Lines 2261-2293, [_check_dist_axis] (same communicator). *)
Definition check_dist_axis (a : Z) (g o : list nat) (dist_axis : Z) (glen off : nat) : res unit :=
  if negb (a =? dist_axis) then Err AxisException
  else rbind (pynth g dist_axis) (fun l =>
       if negb (l =? glen)%nat then Err AxisException
       else rbind (pynth o dist_axis) (fun f =>
            if negb (f =? off)%nat then Err AxisException else Ok tt)).

(** Lines 1927-1995, [_array_ufunc_call].  An exception of the inner check
    becomes AxisException (an IndexError is not caught). *)
Definition ufunc_call (inputs : list operand) : res (Z * nat * nat) :=
  let max_dim := fold_right (fun o m => Z.max (op_ndim o) m) (-1) inputs in
  match first_dist inputs with
  | None => Err TypeError
  | Some (fa, fg, fo, fl) =>
      let axis := max_dim + fa - Z.of_nat (length fg) in
      rbind (pynth fg fa) (fun glen =>
      rbind (pynth fo fa) (fun off =>
      rbind (pynth fl fa) (fun llen =>
      rbind (fold_left (fun acc o => rbind acc (fun _ =>
               let cur := axis - max_dim + op_ndim o in
               match o with
               | OpScalar => Ok tt
               | OpDist a g f _ => check_dist_axis a g f cur glen off
               | OpArr s =>
                   if 0 <=? cur then
                     rbind (pynth s cur) (fun n =>
                     if (n =? 1)%nat then Ok tt
                     else if (n =? llen)%nat then Ok tt
                     else Err AxisException)
                   else Ok tt
               end)) inputs (Ok tt))
        (fun _ => Ok (axis, glen, off)))))
  end.

(** *** Basic indexing *)

Inductive ient := INew | IInt (i : Z) | ISl (s : pslice) | IEll.
Definition is_new (e : ient) : bool := match e with INew => true | _ => false end.
Definition is_int (e : ient) : bool := match e with IInt _ => true | _ => false end.
Definition is_ell (e : ient) : bool := match e with IEll => true | _ => false end.

Fixpoint find_ell (l : list ient) : nat :=
  match l with [] => 0 | e :: t => if is_ell e then 0 else S (find_ell t) end.

(** Lines 2395-2484, [sanitize_slice]. *)
Fixpoint axis_positions (ii : nat) (sl : list ient) : list nat :=
  match sl with
  | [] => []
  | s :: t => if is_new s then axis_positions (S ii) t else ii :: axis_positions (S ii) t
  end.
Fixpoint final_positions (output_ind : nat) (sl : list ient) : list (option nat) :=
  match sl with
  | [] => []
  | s :: t => if is_int s then None :: final_positions output_ind t
              else Some output_ind :: final_positions (S output_ind) t
  end.

Definition sanitize_slice (sl : list ient) (naxis : nat)
  : res (list ient * list nat * list (option nat)) :=
  let num_ellipsis := length (filter is_ell sl) in
  if (1 <? num_ellipsis)%nat then Err IndexError else
  let sl := if (num_ellipsis =? 0)%nat then sl ++ [IEll] else sl in
  let num_added := length (filter is_new sl) in
  let ell_length := Z.of_nat naxis - Z.of_nat (length sl) + Z.of_nat num_added + 1 in
  if ell_length <? 0 then Err IndexError else
  let ell_ind := find_ell sl in
  let sl := firstn ell_ind sl ++ repeat (ISl full_slice) (Z.to_nat ell_length)
            ++ skipn (ell_ind + 1) sl in
  let axis_map := axis_positions 0 sl in
  if (naxis <? length axis_map)%nat then Err IndexError
  else Ok (sl, axis_map, final_positions 0 sl).

(** Comparison of a slice object with slice(None, None, None) or
    slice(0, n, None). *)
Definition slice_is (s : pslice) (a b : option Z) : bool :=
  match sl_step s with
  | Some _ => false
  | None =>
      match sl_start s, a with
      | Some x, Some y => x =? y | None, None => true | _, _ => false end
      && match sl_stop s, b with
         | Some x, Some y => x =? y | None, None => true | _, _ => false end
  end.

(** Lines 436-492, [MPIArray.__getitem__]: a plain view of the local array
    ([ToLocal]) or a distributed array with its axis ([ToDist]). *)
Inductive gout := ToLocal | ToDist (axis : nat).

Definition mpi_getitem (sl : list ient) (naxis axis local_len : nat) : res gout :=
  rbind (sanitize_slice sl naxis) (fun '(slobj, axis_map, final_map) =>
  match nth_error axis_map axis with
  | None => Err IndexError
  | Some dist_axis =>
      match nth_error slobj dist_axis with
      | None => Err IndexError
      | Some e =>
          let whole := match e with
                       | ISl s => slice_is s None None
                                  || slice_is s (Some 0) (Some (Z.of_nat local_len))
                       | _ => false end in
          if negb whole then Ok ToLocal
          else match nth_error final_map dist_axis with
               | Some (Some p) => Ok (ToDist p)
               | _ => Err IndexError
               end
      end
  end).

(** *** Transposition: lines 1362-1395.  The argument is nothing, None, or axis
    numbers (as a tuple or spread).  numpy itself rejects anything that is not
    a permutation (negative numbers allowed). *)
Inductive targ := TEmpty | TNone | TAxes (axes : list Z).

Fixpoint index_of (x : Z) (l : list Z) : option nat :=
  match l with
  | [] => None
  | y :: t => if x =? y then Some 0%nat else option_map S (index_of x t)
  end.

Definition mpi_transpose (ndim : nat) (self_axis : Z) (gshape : list nat) (a : targ)
  : res (Z * list nat) :=
  match a with
  | TNone => Err TypeError        (* global_shape[None] *)
  | _ =>
      let axes := match a with
                  | TAxes l => l
                  | _ => map Z.of_nat (rev (seq 0 ndim)) end in
      let norm := map (fun x => if 0 <=? x then x else x + Z.of_nat ndim) axes in
      if negb (forallb (fun k => existsb (Z.eqb (Z.of_nat k)) norm) (seq 0 ndim)
               && (length axes =? ndim)%nat) then Err ValueError
      else
      match index_of self_axis axes with
      | None => Err ValueError
      | Some p => Ok (Z.of_nat p, map (fun x => nth (Z.to_nat (if 0 <=? x then x else x + Z.of_nat ndim)) gshape 0%nat) axes)
      end
  end.

(** *** Reshaping *)

Definition zprod (l : list Z) : Z := fold_left Z.mul l 1.

(** Lines 1419-1457, [_check_shapes].  [None] entries: multiplying by None
    raises TypeError. *)
Fixpoint scan_shape (new_shape : list (option Z)) (ii : nat) (wild : option nat) (size : Z)
  : res (option nat * Z) :=
  match new_shape with
  | [] => Ok (wild, size)
  | Some (-1) :: t =>
      match wild with
      | None => scan_shape t (S ii) (Some ii) size
      | Some _ => Err ValueError
      end
  | Some s :: t => scan_shape t (S ii) wild (size * s)
  | None :: _ => Err TypeError
  end.

Definition known (l : list (option Z)) : list Z :=
  map (fun x => match x with Some v => v | None => 0 end) l.

Definition check_shapes (current_shape : list Z) (new_shape : list (option Z)) : res (list Z) :=
  let actual_size := zprod current_shape in
  rbind (scan_shape new_shape 0 None 1) (fun '(wildcard_pos, new_size) =>
  match wildcard_pos with
  | Some w =>
      if new_size =? 0 then Err ZeroDivisionError
      else if actual_size mod new_size =? 0
      then Ok (set_nth w (actual_size / new_size) (known new_shape))
      else Err ValueError
  | None => if actual_size =? new_size then Ok (known new_shape) else Err ValueError
  end).

(** [local_shape.index(None)] *)
Fixpoint index_none (l : list (option Z)) : option nat :=
  match l with
  | [] => None
  | None :: _ => Some 0%nat
  | Some _ :: t => option_map S (index_none t)
  end.

(** Lines 1397-1493, [reshape]: the local shape of the result and its
    distributed axis.  The last check is numpy's own reshape of the local
    array. *)
Definition mpi_reshape (lshape : list Z) (axis : nat) (shape : list (option Z))
  : res (list Z * nat) :=
  match index_none shape with
  | None => Err ValueError
  | Some new_axis =>
      let local_shape := set_nth new_axis (Some (nth axis lshape 0)) shape in
      rbind (check_shapes (skipn axis lshape) (skipn new_axis local_shape)) (fun new_post =>
      rbind (check_shapes (firstn (axis + 1) lshape) (firstn (new_axis + 1) local_shape)) (fun new_pre =>
      let out := firstn new_axis new_pre ++ new_post in
      if forallb (Z.leb 0) out && (zprod out =? zprod lshape) then Ok (out, new_axis)
      else Err ValueError))
  end.
