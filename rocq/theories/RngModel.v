(** Multithreaded random numbers.
    /repo/caput/algorithms/random.py: [MultithreadedRNG.PARALLEL_METHODS]
    (76-84), [_build_method] (112-230).

    A generator is a state with a function giving the next number and state; a
    call for [n] numbers draws [n] times.  The threads are interleaved number by
    number, in any order.  Memory and arrays are those of ArrModel. *)
From Coq Require Import String.
From Coq Require Import List Ascii Bool Arith ZArith.
From Verif Require Import PyBase PyStr MemModel ArrModel.
Import ListNotations.
Open Scope list_scope.
Open Scope nat_scope.

(** * Which call is made *)
Inductive dtype := float64 | float32 | int64 | other_dtype.
Definition dtype_eq_dec : forall a b : dtype, {a = b} + {a <> b}. Proof. decide equality. Defined.
(** Arguments: [None], numbers, tuples of lengths, data types, arrays. *)
Inductive val := VNone | VNum (z : Z) | VTuple (l : list nat) | VDtype (d : dtype) | VArray (v : view) (d : dtype).
(** [np.isscalar] *)
Definition isscalar (v : val) : bool := match v with VNum _ => true | _ => false end.
(** What can be used as [size]; the rest fails in NumPy as well. *)
Definition shape_of (v : val) : option (list nat) :=
  match v with VNum z => Some [Z.to_nat z] | VTuple l => Some l | _ => None end.

(** Lines 76-84. *)
Record spec := mkspec { nparam : nat; defdtype : dtype; has_dtype : bool; has_out : bool }.
Definition PARALLEL_METHODS : list (str * spec) := [
  (s_ "random", mkspec 0 float64 true true);
  (s_ "integers", mkspec 2 int64 true false);
  (s_ "uniform", mkspec 2 float64 false false);
  (s_ "normal", mkspec 2 float64 false false);
  (s_ "standard_normal", mkspec 0 float64 true true);
  (s_ "poisson", mkspec 1 float64 false false);
  (s_ "power", mkspec 1 float64 false false)].
Definition parallel_threshold : nat := 1000.
Definition is_none {A} (o : option A) : bool := match o with None => true | _ => false end.

(** Lines 144-193 and the arguments of lines 200-218: the method of NumPy is called
    with the arguments as they are, or a thread calls it with [args] and [kwargs]
    and its part of an array with [shape] and data type [dt]: the one of [out] or a new
    one. *)
Inductive decision :=
| Direct (args : list val) (kwargs : list (str * val))
| Parallel (args : list val) (kwargs : list (str * val)) (shape : list nat) (dt : val) (out : option (view * dtype))
| Fails (e : exn).
Definition dispatch (s : spec) (args0 : list val) (kwargs0 : list (str * val)) : decision :=
  (* [size] stays [VNone] if absent *)
  let '(size, kwargs) := match nth_error args0 (nparam s) with
                         | Some v => (v, kwargs0)
                         | None => match dget (s_ "size") kwargs0 with Some v => (v, ddel (s_ "size") kwargs0) | None => (VNone, kwargs0) end
                         end in
  let out_ := if has_out s then dget (s_ "out") kwargs else None in
  let kwargs := if has_out s then ddel (s_ "out") kwargs else kwargs in
  match out_ with
  | Some (VArray _ _) | None =>
      let '(shape, out) := match out_ with Some (VArray v d) => (Some (v_shape v), Some (v, d)) | _ => (shape_of size, None) end in
      let '(dt, kwargs) := if has_dtype s then match nth_error args0 (S (nparam s)) with
                                               | Some v => (v, kwargs)
                                               | None => match dget (s_ "dtype") kwargs with Some v => (v, ddel (s_ "dtype") kwargs) | None => (VDtype (defdtype s), kwargs) end
                                               end
                           else (VDtype (defdtype s), kwargs) in
      let args := firstn (nparam s) args0 in
      let all_scalar := forallb isscalar args && forallb (fun kv => isscalar (snd kv)) kwargs in
      match shape with
      | None => Direct args0 kwargs0
      | Some shape =>
          if negb all_scalar then Direct args0 kwargs0
          else if count shape <? parallel_threshold then Direct args0 kwargs0
          else Parallel args (if has_dtype s then dput (s_ "dtype") dt kwargs else kwargs) shape dt out
      end
  | Some _ => Fails AttributeError
  end.
(** What a thread passes besides: line 212 or 214-219; [part] is its part. *)
Definition thread_kwargs (s : spec) (kwargs : list (str * val)) (part : val) (n : nat) : list (str * val) :=
  if has_out s then dput (s_ "out") part kwargs else dput (s_ "size") (VNum (Z.of_nat n)) kwargs.

(** * Filling *)
Section Fill.
Context {G V : Type}.
Variable draw : G -> V * G.
Record thread := mkthread { t_pos : nat; t_end : nat; t_gen : G }.
(** Line 197 *)
Definition step_of (n threads : nat) : nat := n / threads + if n mod threads =? 0 then 0 else 1.
(** [out.ravel()[(i * step) : ((i + 1) * step)]] *)
Definition part (n step i : nat) : nat * nat := (Nat.min n (i * step), Nat.min n ((i + 1) * step)).
Definition start (n : nat) (gens : list G) : list thread :=
  let step := step_of n (length gens) in
  map (fun ig => mkthread (fst (part n step (fst ig))) (snd (part n step (fst ig))) (snd ig)) (combine (seq 0 (length gens)) gens).
Fixpoint replace {A} (l : list A) (i : nat) (x : A) : list A :=
  match l, i with [], _ => [] | _ :: l, 0 => x :: l | y :: l, S i => y :: replace l i x end.
(** The memory, the threads and the positions written so far, last one first. *)
Definition state : Type := mem V * list thread * list nat.
Definition tstep (dst : flat V) (st : state) (i : nat) : state :=
  let '(m, ts, log) := st in
  match nth_error ts i with
  | Some t => if t_pos t <? t_end t then
                let '(v, g) := draw (t_gen t) in (write m dst (t_pos t) v, replace ts i (mkthread (S (t_pos t)) (t_end t) g), t_pos t :: log)
              else st
  | None => st
  end.
Definition run (dst : flat V) (m : mem V) (n : nat) (gens : list G) (sched : list nat) : state := fold_left (tstep dst) sched (m, start n gens, []).
Definition finished (st : state) : bool := let '(_, ts, _) := st in forallb (fun t => t_end t <=? t_pos t) ts.

(** Lines 190-228 after the decision; the threads run as in [sched].  The array,
    the memory and the generators afterwards.  [accepts] is whether the method
    accepts the arguments. *)
Definition fill (s : spec) (accepts : bool) (m : mem V) (shape : list nat) (dt : val) (out : option (view * dtype)) (base : Z) (gens : list G) (sched : list nat) : res (view * mem V * list G) :=
  let '(v, d) := match out with Some (v, d) => (v, VDtype d) | None => (new_view false shape base, dt) end in
  let same := match d, dt with VDtype d, VDtype dt => if dtype_eq_dec d dt then true else false | _, _ => true end in
  if negb accepts || (has_out s && negb same) then Err RuntimeError
  else let '(m', ts, _) := run (ravel false m v) m (count shape) gens sched in Ok (v, m', map t_gen ts).
End Fill.
