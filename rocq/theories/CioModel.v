(** Collective programs on files: what the ranks of a job do with a shared file, and
    the choice of the next task. *)
From Coq Require Import List Arith Bool.
From Verif Require Import PyBase PipeModel ColModel.
Import ListNotations.
Open Scope nat_scope.

(** * pipeline/_pipeline.py lines 374-432, [Manager._next_task], with the broadcast of
    lines 427-430.  [m] is the manager of this rank. *)
Definition next_task_on {S V' S'} (n : nat) (m : @mst V' S') : proc S nat (option nat) :=
  match available m, next_task m with
  | _ :: _, Some new_index => bcast (world n) 0 new_index (fun i => Ret (Some i))
  | _, t => Ret t
  end.

(** * memdata/_memh5.py lines 2750-2835, [_distributed_group_to_file]

    [copied]: the names [deep_group_copy] returns on rank 0, or its exception.
    [unicode]: what [check_unicode] raises for a dataset, if anything; it depends on
    the type of the dataset only.  [CWork (2 + name)] is [data.to_file].  [known]:
    whether the format is HDF5 or Zarr (line 2834). *)
Section ToFile.
  Context {S : Type}.
  Fixpoint write_distributed (n : nat) (unicode : nat -> option exn) (names : list nat) (done : list nat)
    : proc S (list nat) (res (list nat)) :=
    match names with
    | [] => Coll (world n) CBarrier [] (fun _ => Ret (Ok done))
    | name :: t =>
        match unicode name with
        | Some e => Ret (Err e)
        | None => Coll (world n) (CWork (2 + name)) [] (fun _ => write_distributed n unicode t (done ++ [name]))
        end
    end.
  Definition group_to_file (n r : nat) (known : bool) (copied : res (list nat)) (unicode : nat -> option exn)
    : proc S (list nat) (res (list nat)) :=
    let after names := Coll (world n) (CBcast 0) names (fun l =>
      if known then write_distributed n unicode (nth 0 l []) [] else Ret (Err ValueError)) in
    if r =? 0 then match copied with Err e => Ret (Err e) | Ok names => after names end else after [].
End ToFile.

(** * memdata/_memh5.py lines 2838-2962, [_distributed_group_from_file]

    The file: groups, datasets which are not distributed (with what reading them gives
    on rank 0) and distributed datasets (by number), all with attributes; items in the
    order of their names (line 2882).  Attributes and contents are lists of numbers. *)
Inductive ftree :=
| FGrp (attrs : list nat) (items : list (nat * ftree))
| FCommon (attrs : list nat) (data : res (list nat))
| FDist (attrs : list nat) (number : nat).
(** In memory on one rank; of a distributed dataset the number. *)
Inductive mtree :=
| MGrp (attrs : list nat) (items : list (nat * mtree))
| MCommon (attrs data : list nat)
| MDist (attrs : list nat) (number : nat).
Section FromFile.
  Context {S R : Type} (n r : nat).
  Notation prog := (proc S (list nat) (res mtree)).
  (** [comm.bcast(x, root=0)]; the value of the other ranks is [None]. *)
  Definition from0 (x : list nat) (k : list nat -> prog) : prog :=
    Coll (world n) (CBcast 0) (if r =? 0 then x else []) (fun l => k (nth 0 l [])).
  (** Lines 705 and 776: [create_group] and [create_dataset] begin with a barrier. *)
  Definition create (k : prog) : prog := Coll (world n) CBarrier [] (fun _ => k).
  (** [_copy_from_file], lines 2878-2948, for one item; the group of an item has
      been created before. *)
  Fixpoint copy_from_file (t : ftree) (k : mtree -> prog) {struct t} : prog :=
    match t with
    | FGrp attrs items =>
        from0 attrs (fun attrs =>
        (fix loop (items : list (nat * ftree)) (k : list (nat * mtree) -> prog) {struct items} : prog :=
           match items with
           | [] => k []
           | (key, t) :: rest =>
               let go_on := copy_from_file t (fun m => loop rest (fun ms => k ((key, m) :: ms))) in
               match t with FGrp _ _ => create go_on | _ => go_on end
           end) items (fun ms => k (MGrp attrs ms)))
    | FCommon attrs data =>
        let rest d := from0 d (fun cdata => create (from0 attrs (fun attrs => k (MCommon attrs cdata)))) in
        if r =? 0 then match data with Err e => Ret (Err e) | Ok d => rest d end else rest []
    | FDist attrs number =>
        Coll (world n) (CWork (2 + number)) [] (fun _ => create (from0 attrs (fun attrs => k (MDist attrs number))))
    end.
  Definition group_from_file (t : ftree) : prog :=
    copy_from_file t (fun m => Coll (world n) CBarrier [] (fun _ => Ret (Ok m))).
End FromFile.

(** * mpiarray.py lines 1211-1301, [MPIArray.to_zarr], with the name of a store

    Shared by the ranks: whether the store, the dataset and the directory of locks are
    there, and which ranks have written their part.  Opening a missing store and
    writing to a missing dataset raise.  Line 1273 is a collective call
    ([_partition_io], line 1724). *)
Record zstate := mkz { z_store : bool; z_dset : bool; z_sync : bool; z_parts : list nat }.
Definition act {S V R} (f : S -> S) (v : V) (k : proc S V R) : proc S V R := Act (fun s => Some (f s)) (fun _ => v) (fun _ => k).
(** An operation that raises [e] unless [ok]. *)
Definition guarded {S R} (ok : S -> bool) (f : S -> S) (e : exn) (k : proc S nat (res R)) : proc S nat (res R) :=
  Act (fun s => Some (if ok s then f s else s)) (fun s => of_bool (ok s)) (fun v => if v =? 1 then k else Ret (Err e)).
Definition to_zarr (n r : nat) (create : bool) (nbytes : nat) : proc zstate nat (res unit) :=
  let z8 := Ret (Ok tt) in
  let z7 := if r =? 0 then act (fun s => mkz (z_store s) (z_dset s) false (z_parts s)) 0 z8 else z8 in
  let z6 := Coll (world n) CBarrier 0 (fun _ => z7) in
  let z5 := guarded z_dset (fun s => mkz (z_store s) (z_dset s) true (z_parts s ++ [r])) KeyError z6 in
  let z4 := Coll (world n) CBarrier 0 (fun _ => z5) in
  let z3 := if r =? 0 then act (fun s => mkz (z_store s) true (z_sync s) (z_parts s)) 0 z4 else z4 in
  let z2 := Coll (world n) CAllreduce nbytes (fun _ => z3) in
  let z1 := guarded z_store (fun s => s) OtherException z2 in
  let z0 := Coll (world n) CBarrier 0 (fun _ => z1) in
  if (r =? 0) && create then act (fun s => mkz true (z_dset s) (z_sync s) (z_parts s)) 0 z0 else z0.

(** * mpiarray.py lines 1643-1701, [MPIArray._to_hdf5_serial]

    Shared: whether the file and the dataset are there, which ranks have the file
    open, which have written, in this order.  With [create] the file is made if it is
    missing (mode "a"), without it opening a missing file raises.  The dataset is new
    or overwritten with zeros, which is when the parts are gone.  Line 1682 waits for
    the file. *)
Record hstate := mkh { h_file : bool; h_dset : bool; h_open : list nat; h_parts : list nat }.
Definition open_file (r : nat) (s : hstate) : hstate := mkh true (h_dset s) (r :: h_open s) (h_parts s).
Definition close_file (r : nat) (s : hstate) : hstate :=
  mkh (h_file s) (h_dset s) (filter (fun q => negb (q =? r)) (h_open s)) (h_parts s).
Section Serial.
  Notation prog := (proc hstate nat (res unit)).
  Definition turn (n r ri : nat) (k : prog) : prog :=
    let next := Coll (world n) CBarrier 0 (fun _ => k) in
    if ri =? r then
      guarded h_file (open_file r) FileNotFoundError (
      guarded h_dset (fun s => mkh (h_file s) (h_dset s) (h_open s) (h_parts s ++ [r])) KeyError (
      act (close_file r) 0 next))
    else next.
  Fixpoint turns (n r : nat) (ris : list nat) : prog :=
    match ris with [] => Ret (Ok tt) | ri :: t => turn n r ri (turns n r t) end.
  Definition to_hdf5_serial (n r : nat) (create axis0 : bool) : prog :=
    let h3 := turns n r (seq 0 n) in
    let h2 := if axis0 then h3 else Coll (world n) (CWork 0) 0 (fun _ => h3) in
    let h1 := Act (fun s => if h_file s then Some s else None) (fun _ => 0) (fun _ => Coll (world n) CBarrier 0 (fun _ => h2)) in
    if r =? 0 then
      guarded (fun s => create || h_file s) (open_file r) FileNotFoundError (
      act (fun s => mkh (h_file s) true (h_open s) []) 0 (
      act (close_file r) 0 h1))
    else h1.
End Serial.

(** * memdata/_io.py lines 71-122, [lock_file], used by several ranks
    (pipeline/extensions/_extensions.py lines 374-376, [write_output])

    Shared: the file under its temporary and its final name (the ranks whose data it
    has) and the lock file.  [managed]: this rank makes, moves and removes the files
    (rank 0 with a communicator, every rank without).  The body may raise; [preserve]
    is off, as in [write_output]. *)
Record lstate := mkl { l_tmp : option (list nat); l_final : option (list nat); l_lock : bool }.
Section Lock.
  Notation prog := (proc lstate nat (res unit)).
  Definition is_some {A} (o : option A) : bool := match o with Some _ => true | None => false end.
  Definition lock_exit (managed : bool) (x : res unit) : prog :=
    let leave := guarded l_lock (fun s => mkl (l_tmp s) (l_final s) false) FileNotFoundError (Ret x) in
    if managed then
      match x with
      | Ok _ => guarded (fun s => is_some (l_tmp s)) (fun s => mkl None (l_tmp s) (l_lock s)) FileNotFoundError leave
      | Err _ => guarded (fun s => is_some (l_tmp s)) (fun s => mkl None (l_final s) (l_lock s)) FileNotFoundError leave
      end
    else Ret x.
  Definition with_lock (managed : bool) (body : prog) : prog :=
    let enter := pbind body (lock_exit managed) in
    if managed then act (fun s => mkl (l_tmp s) (l_final s) true) 0 enter else enter.
  (** Writing one part of the temporary file. *)
  Definition add (s : lstate) (r : nat) : lstate :=
    mkl (match l_tmp s with Some c => Some (c ++ [r]) | None => None end) (l_final s) (l_lock s).
  (** A group which is not distributed: every rank writes the whole file
      (_memh5.py lines 663-671); with no communicator every rank manages. *)
  Definition save_local (r : nat) : prog :=
    with_lock true (
      act (fun s => mkl (Some []) (l_final s) (l_lock s)) 0 (
      guarded (fun s => is_some (l_tmp s)) (fun s => add s r) FileNotFoundError (Ret (Ok tt)))).
  (** A distributed group: rank 0 makes the file, all write their parts, then a barrier
      (lines 2784-2813).  [fails]: what writing raises on this rank. *)
  Definition save_distributed (n r : nat) (fails : option exn) : prog :=
    let b2 := match fails with
              | Some e => Ret (Err e)
              | None => guarded (fun s => is_some (l_tmp s)) (fun s => add s r) FileNotFoundError
                          (Coll (world n) CBarrier 0 (fun _ => Ret (Ok tt)))
              end in
    let b1 := Coll (world n) (CBcast 0) 0 (fun _ => b2) in
    with_lock (r =? 0) (if r =? 0 then act (fun s => mkl (Some []) (l_final s) (l_lock s)) 0 b1 else b1).
End Lock.
