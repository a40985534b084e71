(** Collective calls, and programs of ranks which share files.

    MPI is not part of /repo.  What is taken from its standard: a collective call
    returns once all ranks of its communicator have made it.  Ranks that make
    different calls break the rules; here they wait for ever.  Between the calls the
    ranks run in any order.  A rank that raises an exception which nobody catches
    makes no calls any more. *)
From Coq Require Import List Arith Bool.
From Verif Require Import PyBase PartModel.
Import ListNotations.
Open Scope nat_scope.

(** The collective operations.  [CWork n] stands for a whole operation of the
    ranks, such as writing a distributed array. *)
Inductive call := CBarrier | CBcast (root : nat) | CAllreduce | CAllgather | CGather (root : nat) | CSplit | CWork (n : nat).

Section Procs.
  Context {S V R : Type}.
  (** A rank: finished, in a collective call of the ranks [g] with its value [v] (it
      gets the values of all, in the order of [g]), or about to act on what it
      shares with other ranks ([S]: the files); [a] is [None] while it has to wait. *)
  Inductive proc : Type :=
  | Ret (x : R)
  | Coll (g : list nat) (c : call) (v : V) (k : list V -> proc)
  | Act (a : S -> option S) (q : S -> V) (k : V -> proc).

  Definition state : Type := S * list proc.
  Definition value_at (ps : list proc) (r : nat) : list V :=
    match nth_error ps r with Some (Coll _ _ v _) => [v] | _ => [] end.
  Definition values (g : list nat) (ps : list proc) : list V := flat_map (value_at ps) g.
  Definition go_on (vs : list V) (p : proc) : proc :=
    match p with Coll _ _ _ k => k vs | _ => p end.
  Definition mem (r : nat) (g : list nat) : bool := existsb (Nat.eqb r) g.
  Fixpoint resume_from (i : nat) (g : list nat) (vs : list V) (ps : list proc) : list proc :=
    match ps with
    | [] => []
    | p :: t => (if mem i g then go_on vs p else p) :: resume_from (1 + i) g vs t
    end.
  Definition resume (g : list nat) (ps : list proc) : list proc := resume_from 0 g (values g ps) ps.
  Fixpoint upd (r : nat) (x : proc) (ps : list proc) : list proc :=
    match ps, r with
    | [], _ => []
    | _ :: t, 0 => x :: t
    | p :: t, Datatypes.S r' => p :: upd r' x t
    end.

  Inductive step : state -> state -> Prop :=
  | step_coll : forall s ps g c, g <> [] ->
      (forall r, In r g -> exists v k, nth_error ps r = Some (Coll g c v k)) ->
      step (s, ps) (s, resume g ps)
  | step_act : forall s s' ps r a q k, nth_error ps r = Some (Act a q k) -> a s = Some s' ->
      step (s, ps) (s', upd r (k (q s)) ps).
End Procs.
Arguments proc : clear implicits.
Arguments state : clear implicits.

Fixpoint pbind {S V R R'} (p : proc S V R) (f : R -> proc S V R') : proc S V R' :=
  match p with
  | Ret x => f x
  | Coll g c v k => Coll g c v (fun l => pbind (k l) f)
  | Act a q k => Act a q (fun v => pbind (k v) f)
  end.
(** Going on unless there was an exception. *)
Definition then_ {S V R R'} (p : proc S V (res R)) (f : R -> proc S V (res R')) : proc S V (res R') :=
  pbind p (fun x => match x with Ok x => f x | Err e => Ret (Err e) end).

(** * util/mpitools.py lines 114-138: [barrier], [bcast], [allreduce]

    [g] is the list of the ranks of the communicator. *)
Section Wrappers.
  Context {S V R : Type}.
  Definition barrier (g : list nat) (v : V) (p : proc S V R) : proc S V R :=
    if 1 <? length g then Coll g CBarrier v (fun _ => p) else p.
  Definition bcast (g : list nat) (root : nat) (v : V) (k : V -> proc S V R) : proc S V R :=
    if 1 <? length g then Coll g (CBcast root) v (fun l => k (nth root l v)) else k v.
  Definition allreduce (op : list V -> V) (g : list nat) (v : V) (k : V -> proc S V R) : proc S V R :=
    if 1 <? length g then Coll g CAllreduce v (fun l => k (op l)) else k v.
End Wrappers.

Definition world (n : nat) : list nat := seq 0 n.
Definition sum (l : list nat) : nat := fold_right Nat.add 0 l.
Definition max (l : list nat) : nat := fold_right Nat.max 0 l.
Definition of_bool (b : bool) : nat := if b then 1 else 0.

(** * mpiarray.py lines 680-743, [MPIArray.wrap], on rank [r] of [n]

    [axlen] is the length of the axis on this rank, [None] if the array has no such
    axis.  The result is the length of the whole axis and the start of this
    rank. *)
Definition wrap {S} (n r : nat) (axlen : option nat) : proc S nat (res (nat * nat)) :=
  match axlen with
  | None => Ret (Err AxisException)
  | Some a =>
      allreduce sum (world n) a (fun totallen =>
      match split_local totallen r n with
      | Err e => Ret (Err e)
      | Ok (local_num, local_start, _) =>
          allreduce max (world n) (of_bool (negb (a =? local_num))) (fun layout_issue =>
          if layout_issue =? 0 then Ret (Ok (totallen, local_start)) else Ret (Err AxisException))
      end)
  end.

(** * mpiarray.py lines 856-886, [MPIArray.allreduce]

    [shape] and [data] are the local shape and the elements of this rank, [op]
    combines two of them; the sum has no neutral element here. *)
Definition reduce_all {V} (op : V -> V -> V) (l : list V) (d : V) : V :=
  match l with [] => d | x :: t => fold_left op t x end.
Definition array_allreduce {S V} (n : nat) (op : V -> V -> V) (shape : list nat) (data : list V) (zero : V)
  : proc S V (res V) :=
  match shape with
  | [1] => let v := nth 0 data zero in Coll (world n) CAllreduce v (fun l => Ret (Ok (reduce_all op l v)))
  | _ => Ret (Err ValueError)
  end.

(** * util/mpitools.py lines 181-243, [can_allocate], scope "process"

    [node] are the ranks on the same node, [is_world] whether the communicator is
    that of all ranks, [avail] the answer of [available_memory_shared], [None] if it
    raises OSError. *)
Definition can_allocate {S} (n : nat) (is_world : bool) (node : list nat) (avail : option nat) (nbytes : nat)
  (k : bool -> proc S nat (res unit)) : proc S nat (res unit) :=
  let go := match avail with
            | None => k true
            | Some a => Coll node CAllreduce nbytes (fun l => k (sum l <? a))
            end in
  if is_world then go else Coll (world n) CSplit 0 (fun _ => go).

(** mpiarray.py lines 766-855, [MPIArray.redistribute] of several ranks: the check of
    the memory, then the exchange ([CWork 0], see [MsgProg]). *)
Definition redistribute {S} (n : nat) (is_world : bool) (node : list nat) (avail : option nat) (nbytes : nat)
  : proc S nat (res unit) :=
  can_allocate n is_world node avail ((n + 4) * nbytes / n) (fun ok =>
  if ok then Coll (world n) (CWork 0) 0 (fun _ => Ret (Ok tt)) else Ret (Err OtherException)).

(** * util/mpitools.py lines 652-722, [parallel_map]

    [f] may raise.  The items of this rank are [llist], with their positions;
    line 700 chooses them ([PartModel.partition_list_mpi]). *)
Fixpoint rmap {A B} (f : A -> res B) (l : list A) : res (list B) :=
  match l with [] => Ok [] | x :: t => rbind (f x) (fun y => rbind (rmap f t) (fun u => Ok (y :: u))) end.
Definition pmap {S A B} (f : A -> res B) (glist : list A) (root : option nat) (m : method) (perm : list nat)
    (n r : nat) : proc S (list (nat * B)) (res (option (list B))) :=
  barrier (world n) [] (
  if n <=? 1 then Ret (rbind (rmap f glist) (fun l => Ok (Some l)))
  else
  match partition_list_mpi perm (enumerate glist) m r n with
  | Err e => Ret (Err e)
  | Ok llist =>
      match rmap (fun p => rbind (f (snd p)) (fun y => Ok (fst p, y))) llist with
      | Err e => Ret (Err e)
      | Ok flist =>
          let finish rlist := Ret (Ok (Some (map snd (py_sorted (fun a b => fst a <=? fst b) (concat rlist))))) in
          barrier (world n) [] (
          match root with
          | None => Coll (world n) CAllgather flist finish
          | Some rt => Coll (world n) (CGather rt) flist (fun l => if r =? rt then finish l else Ret (Ok None))
          end)
      end
  end).

(** * pipeline/tasklib/base.py lines 575-628 and 521-550

    [_nan_check_walk]: [dsets] are the datasets of this rank in the order of the
    walk, [None] if numpy cannot test them, else whether all numbers are finite.
    [_nan_process_output]: whether the output goes on; [CWork 1] is
    [write_output]. *)
Fixpoint walk (dsets : list (option bool)) : bool :=
  match dsets with
  | [] => false
  | Some false :: _ => true
  | _ :: t => walk t
  end.
Definition nan_check_walk {S R} (n : nat) (dsets : list (option bool)) (k : bool -> proc S nat R) : proc S nat R :=
  Coll (world n) CAllreduce (of_bool (walk dsets)) (fun l => k (negb (max l =? 0))).
Definition nan_process_output {S} (n : nat) (nan_check nan_dump nan_skip : bool) (dsets : list (option bool))
  : proc S nat bool :=
  if nan_check then
    nan_check_walk n dsets (fun nan_found =>
    let rest := if nan_found && nan_skip then Ret false else Ret true in
    if nan_found && nan_dump then Coll (world n) (CWork 1) 0 (fun _ => rest) else rest)
  else Ret true.
