(** Model of computing with distributed arrays, /repo/caput/mpiarray.py:
    [MPIArray.__array_ufunc__] (1768-1925) with [_get_common_comm] (2296-2320)
    and [_mpi_to_ndarray] (2323-2362), [_view_from_data_and_params] (643-678),
    [wrap] (680-743), [allreduce] (856-886), [copy] (1615-1627),
    [__array_finalize__] (2049-2106), and the data of [__getitem__] (436-498) and
    [transpose] (1362-1395).  The bookkeeping of axes is in AxModel.

    A numpy array is its shape and its elements as a function of the index, as in
    RedModel.  What numpy does is written down first.  Not modelled: types of
    elements and casting, memory layout, the order in which numpy combines the
    elements of a reduction (any function of the elements in C order), warnings. *)
From Coq Require Import List Arith ZArith Bool.
From Verif Require Import PyBase PartModel SliceModel RedModel AxModel.
Import ListNotations.
Open Scope nat_scope.

(** * Numpy *)
(** Broadcasting: lengths of one axis, shapes with the last axis first, any
    number of shapes. *)
Definition bdim (x y : nat) : option nat :=
  if x =? y then Some x else if x =? 1 then Some y else if y =? 1 then Some x else None.
Fixpoint bc (s t : list nat) : option (list nat) :=
  match s, t with
  | [], _ => Some t
  | _, [] => Some s
  | x :: s, y :: t =>
      match bdim x y, bc s t with Some d, Some l => Some (d :: l) | _, _ => None end
  end.
Definition bshape (shapes : list (list nat)) : option (list nat) :=
  option_map (@rev nat)
    (fold_right (fun s acc => match acc with Some t => bc (rev s) t | None => None end) (Some []) shapes).
(** The element of an operand of shape [s] used at [idx]. *)
Fixpoint bidx (s idx : list nat) : list nat :=
  match s, idx with d :: s, i :: idx => (if d =? 1 then 0 else i) :: bidx s idx | _, _ => [] end.
Definition bindex (s idx : list nat) : list nat := rev (bidx (rev s) (rev idx)).

(** A ufunc: the number of outputs, the outputs for given inputs, the combination
    of several elements, and whether that is defined for none. *)
Record ufunc (A : Type) := mkufunc {
  u_nout : nat; u_elem : nat -> list A -> A; u_red : list A -> A; u_ident : bool }.
Arguments mkufunc {A}. Arguments u_nout {A}. Arguments u_elem {A}. Arguments u_red {A}. Arguments u_ident {A}.

Section Numpy.
Context {A : Type}.

Definition apply_on (u : ufunc A) (ins : list (nd A)) (sh : list nat) (k : nat) : nd A :=
  mknd sh (fun idx => u_elem u k (map (fun a => elt a (bindex (shp a) idx)) ins)).
(** [outs]: the arrays to write to; they may have more axes than the inputs. *)
Definition np_call (u : ufunc A) (ins : list (nd A)) (outs : option (list (nd A))) : res (list (nd A)) :=
  let outs := match outs with Some l => l | None => [] end in
  match bshape (map shp (ins ++ outs)) with
  | None => Err ValueError
  | Some sh =>
      if forallb (fun o => shape_eqb (shp o) sh) outs
      then Ok (map (apply_on u ins sh) (seq 0 (u_nout u)))
      else Err ValueError
  end.

Definition nsize (sh : list nat) : nat := fold_right Nat.mul 1 sh.
(** [red]: which axes are reduced over. *)
Fixpoint red_shape (sh : list nat) (red : list bool) (keep : bool) : list nat :=
  match sh, red with
  | n :: sh, true :: red => if keep then 1 :: red_shape sh red keep else red_shape sh red keep
  | n :: sh, false :: red => n :: red_shape sh red keep
  | _, _ => []
  end.
(** The indices combined into the element [idx] of the result, in C order. *)
Fixpoint red_indices (sh : list nat) (red : list bool) (keep : bool) (idx : list nat) : list (list nat) :=
  match sh, red with
  | n :: sh, true :: red =>
      flat_map (fun i => map (cons i) (red_indices sh red keep (if keep then tl idx else idx))) (seq 0 n)
  | n :: sh, false :: red => map (cons (hd 0 idx)) (red_indices sh red keep (tl idx))
  | _, _ => [[]]
  end.
Fixpoint nodupb (l : list nat) : bool :=
  match l with [] => true | x :: t => negb (existsb (Nat.eqb x) t) && nodupb t end.
Definition np_axes (ndim : nat) (axes : list Z) : res (list nat) :=
  rbind (rsequence (map (pyaxis ndim) axes)) (fun l => if nodupb l then Ok l else Err ValueError).
Definition mask (ndim : nat) (axes : list nat) : list bool :=
  map (fun k => existsb (Nat.eqb k) axes) (seq 0 ndim).
Definition check_out_shape (r : nd A) (outs : option (list (nd A))) : res (list (nd A)) :=
  match outs with
  | None => Ok [r]
  | Some l => if forallb (fun o => shape_eqb (shp o) (shp r)) l then Ok [r] else Err ValueError
  end.
(** [axes]: None for all. *)
Definition np_reduce (u : ufunc A) (a : nd A) (axes : option (list Z)) (keep : bool) (outs : option (list (nd A)))
  : res (list (nd A)) :=
  let ndim := length (shp a) in
  rbind (match axes with None => Ok (seq 0 ndim) | Some l => np_axes ndim l end) (fun axes =>
  let red := mask ndim axes in
  let sh := red_shape (shp a) red keep in
  if negb (u_ident u) && (nsize (shp a) =? 0) && negb (nsize sh =? 0) then Err ValueError
  else check_out_shape (mknd sh (fun idx => u_red u (map (elt a) (red_indices (shp a) red keep idx)))) outs).
Definition np_accumulate (u : ufunc A) (a : nd A) (axis : Z) (outs : option (list (nd A))) : res (list (nd A)) :=
  rbind (pyaxis (length (shp a)) axis) (fun k =>
  check_out_shape (mknd (shp a) (fun idx =>
    u_red u (map (fun j => elt a (set_nth k j idx)) (seq 0 (S (nth k idx 0)))))) outs).
(** With the argument [axis]: not given, it is 0; None stands for all axes; only one axis is allowed. *)
Definition np_accumulate_axes (u : ufunc A) (a : nd A) (axis : option (option (list Z))) (outs : option (list (nd A)))
  : res (list (nd A)) :=
  match axis, shp a with
  | _, [] => Err TypeError
  | None, _ => np_accumulate u a 0%Z outs
  | Some None, [_] => np_accumulate u a 0%Z outs
  | Some (Some [z]), _ => np_accumulate u a z outs
  | _, _ => Err ValueError
  end.

(** Indexing with one entry per axis, and new axes.  The shape and, for an index
    of the result, the index of the array. *)
Fixpoint np_index (sl : list ient) (sh : list nat) : res (list nat * (list nat -> list nat)) :=
  match sl, sh with
  | [], [] => Ok ([], fun _ => [])
  | INew :: sl, _ => rbind (np_index sl sh) (fun '(s, g) => Ok (1 :: s, fun idx => g (tl idx)))
  | IInt i :: sl, n :: sh =>
      rbind (pyaxis n i) (fun k => rbind (np_index sl sh) (fun '(s, g) => Ok (s, fun idx => k :: g idx)))
  | ISl s :: sl, n :: sh =>
      rbind (slice_positions s (Z.of_nat n)) (fun ps =>
      rbind (np_index sl sh) (fun '(t, g) =>
      Ok (length ps :: t, fun idx => nth (hd 0 idx) (map Z.to_nat ps) 0 :: g (tl idx))))
  | _, _ => Err IndexError
  end.
Definition np_getitem (a : nd A) (sl : list ient) : res (nd A) :=
  rbind (np_index sl (shp a)) (fun '(s, g) => Ok (mknd s (fun idx => elt a (g idx)))).

Fixpoint pos_of (x : nat) (l : list nat) : nat :=
  match l with [] => 0 | y :: t => if x =? y then 0 else S (pos_of x t) end.
Definition np_transpose (a : nd A) (perm : list nat) : nd A :=
  mknd (map (fun k => nth k (shp a) 0) perm)
       (fun idx => elt a (map (fun k => nth (pos_of k perm) idx 0) (seq 0 (length (shp a))))).

(** * Distributed arrays *)
Record comm := mkcomm { c_id : nat; c_size : nat; c_rank : nat }.
Record darr := mkdarr {
  d_axis : Z; d_gshape : list nat; d_lshape : list nat; d_loffset : list nat;
  d_comm : option comm; d_data : nd A }.
(** [a[axis] = x] on a list, with negative axis numbers. *)
Definition pyset (axis : Z) (x : nat) (l : list nat) : res (list nat) :=
  rbind (pyaxis (length l) axis) (fun k => Ok (set_nth k x l)).

(** Lines 643-678. *)
Definition view_from_data_and_params (array : nd A) (axis : Z) (global_length local_start : nat)
    (c : option comm) : res darr :=
  let lshape := shp array in
  rbind (pyset axis global_length lshape) (fun gshape =>
  rbind (pyset axis local_start (repeat 0 (length lshape))) (fun loffset =>
  Ok (mkdarr axis gshape lshape loffset c array))).

(** Lines 2049-2106, for an array made by numpy from the distributed [obj]; no
    communicator is rank 0 of 1. *)
Definition size_of (c : option comm) : nat := match c with Some c => c_size c | None => 1 end.
Definition rank_of (c : option comm) : nat := match c with Some c => c_rank c | None => 0 end.
Definition array_finalize (new : nd A) (obj : darr) : res darr :=
  match pynth (d_gshape obj) (d_axis obj) with
  | Err _ => Err AxisException
  | Ok axlen =>
      rbind (pyset (d_axis obj) axlen (shp new)) (fun gshape =>
      rbind (split_local axlen (rank_of (d_comm obj)) (size_of (d_comm obj))) (fun '(_, local_start, _) =>
      rbind (pyset (d_axis obj) local_start (repeat 0 (length (shp new)))) (fun loffset =>
      Ok (mkdarr (d_axis obj) gshape (shp new) loffset (d_comm obj) new))))
  end.

(** Lines 680-743 on the rank of [c]; [arrays q] is the array of rank [q], which
    has the axis. *)
Definition wrap (arrays : nat -> nd A) (axis : Z) (c : option comm) : res darr :=
  let axlen q := pynth (shp (arrays q)) axis in
  match axlen (rank_of c) with
  | Err _ => Err AxisException
  | Ok _ =>
      rbind (rsequence (map axlen (seq 0 (size_of c)))) (fun lens =>
      let totallen := fold_right Nat.add 0 lens in
      rbind (split_local totallen (rank_of c) (size_of c)) (fun '(_, local_start, _) =>
      rbind (rsequence (map (fun q => split_local totallen q (size_of c)) (seq 0 (size_of c)))) (fun nums =>
      if negb (forallb (fun '(l, (n, _, _)) => l =? n) (combine lens nums)) then Err AxisException
      else view_from_data_and_params (arrays (rank_of c)) axis totallen local_start c)))
  end.
(** Lines 1615-1627: a copy of a distributed array, [ds q] that of rank [q]. *)
Definition copy (ds : nat -> darr) (r : nat) : res darr :=
  wrap (fun q => d_data (ds q)) (d_axis (ds r)) (d_comm (ds r)).

(** ** Ufuncs *)
Inductive input := InDist (d : darr) | InArr (a : nd A) | InScalar (x : A).
Definition is_dist (i : input) : bool := match i with InDist _ => true | _ => false end.
Inductive method := MCall | MReduce | MAccumulate | MOther.
Inductive warg := WTrue | WOther.
(** Keyword arguments.  [k_axis]: not given, None, or axis numbers (for accumulations, one stands for
    the number and not for a tuple); [k_out]: not
    given, or one entry per output, None if that one is not given. *)
Record kwargs := mkkwargs {
  k_where : option warg; k_axis : option (option (list Z)); k_keepdims : bool;
  k_out : option (list (option input)) }.

(** Lines 2296-2320; communicators are compared as they are. *)
Definition eq_comm (c : comm) (d : option comm) : bool :=
  match d with Some d => c_id c =? c_id d | None => false end.
Fixpoint common_comm (c : option comm) (inputs : list input) : res (option comm) :=
  match inputs with
  | [] => Ok c
  | InDist d :: t =>
      match c with
      | None => common_comm (d_comm d) t
      | Some c => if eq_comm c (d_comm d) then common_comm (Some c) t else Err ValueError
      end
  | _ :: t => common_comm c t
  end.

Definition operand_of (i : input) : operand :=
  match i with
  | InDist d => OpDist (d_axis d) (d_gshape d) (d_loffset d) (d_lshape d)
  | InArr a => OpArr (shp a)
  | InScalar _ => OpScalar
  end.
Definition dist_params (d : darr) (axis : Z) : res (Z * nat * nat) :=
  rbind (pynth (d_gshape d) (d_axis d)) (fun n =>
  rbind (pynth (d_loffset d) (d_axis d)) (fun o => Ok (axis, n, o))).
(** Lines 1819-1823 and the functions called: the distributed axis of the result,
    its length and the offset on this rank.  Numpy gives reductions and
    accumulations one input. *)
Definition validate (m : method) (inputs : list input) (kw : kwargs) : res (Z * nat * nat) :=
  match m, inputs with
  | MCall, _ => ufunc_call (map operand_of inputs)
  | MReduce, [InDist d] =>
      match k_axis kw with
      | None => Err TypeError
      | Some None => Ok (0%Z, size_of (d_comm d), rank_of (d_comm d))
      | Some (Some axes) =>
          rbind (ufunc_reduce (length (shp (d_data d))) (d_axis d) axes (k_keepdims kw)) (dist_params d)
      end
  | MAccumulate, [InDist d] =>
      match k_axis kw with
      | None => Err TypeError
      | Some (Some [a]) => rbind (ufunc_accumulate (d_axis d) a) (dist_params d)
      | Some _ => dist_params d (d_axis d)      (* None and tuples are equal to no number *)
      end
  | _, _ => Err TypeError
  end.

(** Line 2323-2362 for the inputs: local arrays. *)
Definition local_of (i : input) : nd A :=
  match i with InDist d => d_data d | InArr a => a | InScalar x => mknd [] (fun _ => x) end.

(** Lines 1867-1887: the arrays to write to. *)
Fixpoint dist_outs (l : list (option input)) : res (list darr) :=
  match l with
  | [] => Ok []
  | Some (InDist d) :: t => rbind (dist_outs t) (fun t => Ok (d :: t))
  | _ :: _ => Err TypeError
  end.
Definition check_out (axis : Z) (glen off : nat) (c : comm) (d : darr) : res unit :=
  if negb (eq_comm c (d_comm d)) then Err ValueError
  else match check_dist_axis (d_axis d) (d_gshape d) (d_loffset d) axis glen off with
       | Err AxisException => Err ValueError
       | r => r
       end.

Definition numpy_ufunc (u : ufunc A) (m : method) (inputs : list input) (kw : kwargs) (outs : option (list (nd A)))
  : res (list (nd A)) :=
  match m, inputs with
  | MCall, _ => np_call u (map local_of inputs) outs
  | MReduce, [i] => np_reduce u (local_of i) (match k_axis kw with Some l => l | None => None end) (k_keepdims kw) outs
  | MAccumulate, [i] =>
      np_accumulate_axes u (local_of i) (k_axis kw) outs
  | _, _ => Err TypeError
  end.

(** Lines 1903-1910: a scalar becomes a vector of length one. *)
Definition as_vector (a : nd A) : nd A :=
  match shp a with [] => mknd [1] (fun _ => elt a []) | _ => a end.
Definition set_data (d : darr) (a : nd A) : darr :=
  mkdarr (d_axis d) (d_gshape d) (d_lshape d) (d_loffset d) (d_comm d) a.

(** Lines 1768-1925, on one rank: the arrays returned.  Those given as [out] are
    returned with their new elements. *)
Definition array_ufunc (u : ufunc A) (m : method) (inputs : list input) (kw : kwargs) : res (list darr) :=
  match m with
  | MOther => Err UnsupportedOperation
  | _ =>
  match k_where kw with
  | Some WOther => Err UnsupportedOperation
  | _ =>
  rbind (common_comm None inputs) (fun c =>
  match c with
  | None => Err RuntimeError
  | Some c =>
  rbind (validate m inputs kw) (fun '(new_dist_axis, global_length, offset) =>
  match k_out kw with
  | Some l =>
      rbind (dist_outs l) (fun outs =>
      rbind (rsequence (map (check_out new_dist_axis global_length offset c) outs)) (fun _ =>
      rbind (numpy_ufunc u m inputs kw (Some (map d_data outs))) (fun results =>
      Ok (map (fun '(r, d) => set_data d r) (combine results outs)))))
  | None =>
      rbind (numpy_ufunc u m inputs kw None) (fun results =>
      rsequence (map (fun r => view_from_data_and_params (as_vector r) new_dist_axis global_length offset (Some c))
                     results))
  end)
  end)
  end
  end.

(** Lines 856-886: combination of one element of each of the ranks. *)
Definition allreduce (op : A -> A -> A) (zero : A) (ds : nat -> darr) (size r : nat) : res A :=
  if shape_eqb (d_lshape (ds r)) [1]
  then Ok (fold_right op zero (map (fun q => elt (d_data (ds q)) [0]) (seq 0 size)))
  else Err ValueError.

(** ** Indexing: lines 436-498 *)
Inductive gresult := GLocal (a : nd A) | GDist (d : darr).
Definition getitem (d : darr) (sl : list ient) : res gresult :=
  let naxis := length (shp (d_data d)) in
  rbind (pyaxis naxis (d_axis d)) (fun axis =>
  rbind (sanitize_slice sl naxis) (fun '(slobj, _, _) =>
  rbind (mpi_getitem sl naxis axis (nth axis (shp (d_data d)) 0)) (fun g =>
  rbind (np_getitem (d_data d) slobj) (fun a =>
  match g with
  | ToLocal => Ok (GLocal a)
  | ToDist p =>
      if (Z.of_nat p =? d_axis d)%Z then rbind (array_finalize a d) (fun d => Ok (GDist d))
      else match shp a with
           | [] => Ok (GLocal a)
           | _ =>
               rbind (pynth (d_gshape d) (d_axis d)) (fun n =>
               rbind (pynth (d_loffset d) (d_axis d)) (fun o =>
               rbind (view_from_data_and_params a (Z.of_nat p) n o (d_comm d)) (fun d => Ok (GDist d))))
           end
  end)))).

(** ** Transposition: lines 1362-1395 *)
Definition perm_of (ndim : nat) (a : targ) : list nat :=
  match a with
  | TAxes l => map (fun x => Z.to_nat (if 0 <=? x then x else x + Z.of_nat ndim)%Z) l
  | _ => rev (seq 0 ndim)
  end.
Definition transpose (d : darr) (a : targ) : res darr :=
  let ndim := length (shp (d_data d)) in
  rbind (mpi_transpose ndim (d_axis d) (d_gshape d) a) (fun '(axis, gshape) =>
  rbind (mpi_transpose ndim (d_axis d) (d_lshape d) a) (fun '(_, lshape) =>
  rbind (mpi_transpose ndim (d_axis d) (d_loffset d) a) (fun '(_, loffset) =>
  Ok (mkdarr axis gshape lshape loffset (d_comm d) (np_transpose (d_data d) (perm_of ndim a)))))).
(** The attribute [T] is numpy's own: a view, completed by [__array_finalize__]. *)
Definition attr_T (d : darr) : res darr :=
  array_finalize (np_transpose (d_data d) (rev (seq 0 (length (shp (d_data d)))))) d.

(** ** Expressions, as numpy evaluates them: the inner ones first.  [env] gives
    the inputs; [ECall u i] is output [i] of the ufunc. *)
Inductive expr :=
| EVar (v : nat)
| ECall (u : ufunc A) (i : nat) (args : list expr)
| EReduce (u : ufunc A) (axes : list Z) (keep : bool) (e : expr)
| EAccumulate (u : ufunc A) (axis : Z) (e : expr)
| ETranspose (a : targ) (e : expr)
| EIndex (sl : list ient) (e : expr).
Definition plain_kw (axis : option (option (list Z))) (keep : bool) : kwargs := mkkwargs None axis keep None.
Definition item (i : nat) (l : list darr) : res input :=
  match nth_error l i with Some d => Ok (InDist d) | None => Err IndexError end.
Fixpoint eval (env : nat -> input) (e : expr) : res input :=
  match e with
  | EVar v => Ok (env v)
  | ECall u i args =>
      rbind (rsequence (map (eval env) args)) (fun l =>
      rbind (array_ufunc u MCall l (plain_kw None false)) (item i))
  | EReduce u axes keep e =>
      rbind (eval env e) (fun x => rbind (array_ufunc u MReduce [x] (plain_kw (Some (Some axes)) keep)) (item 0))
  | EAccumulate u axis e =>
      rbind (eval env e) (fun x => rbind (array_ufunc u MAccumulate [x] (plain_kw (Some (Some [axis])) false)) (item 0))
  | ETranspose a e =>
      rbind (eval env e) (fun x =>
      match x with InDist d => rbind (transpose d a) (fun d => Ok (InDist d)) | _ => Err TypeError end)
  | EIndex sl e =>
      rbind (eval env e) (fun x =>
      match x with
      | InDist d => rbind (getitem d sl) (fun g => Ok (match g with GDist d => InDist d | GLocal a => InArr a end))
      | _ => Err TypeError
      end)
  end.

End Numpy.
Arguments darr : clear implicits. Arguments input : clear implicits. Arguments kwargs : clear implicits.
Arguments gresult : clear implicits. Arguments expr : clear implicits.
