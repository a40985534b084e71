(** Messages between ranks in every possible order of events.

    The rules of MPI for point-to-point messages and barriers, and the
    programs which the ranks run in
    /repo/caput/mpiarray.py [MPIArray.redistribute] (lines 815-852),
    [MPIArray.gather] (lines 1522-1581),
    /repo/caput/util/mpitools.py [transpose_blocks] (lines 774-837),
    [gather_local] (lines 611-649) and
    /repo/caput/pipeline/tasklib/debug.py [CheckMPIEnvironment.setup] (lines
    30-68).

    MPI is not part of /repo.  What is taken from its standard: a started send
    or receive is in progress until a message and a receive are matched; a
    message can only be received if no earlier message of the same pair of
    ranks matches the receive, and only by a receive such that no earlier
    receive matches the message; the data are copied from the buffer of the
    sender to that of the receiver then, unless the library has copied them
    before, which completes the send (it need not do so: [eager] says which
    sends it copies); Wait returns once the request is complete; Barrier once
    all ranks have reached it.  Nothing else is synchronised: any rank may run
    at any time. *)
From Coq Require Import List Arith Bool.
Import ListNotations.
Open Scope nat_scope.

(** Apply [f] to entry [r] of a list. *)
Fixpoint upd {X} (r : nat) (f : X -> X) (l : list X) : list X :=
  match l, r with
  | [], _ => []
  | x :: t, 0 => f x :: t
  | x :: t, S r' => x :: upd r' f t
  end.

Section Messages.
  Context {D : Type} (blank : D).

  (** What a rank does next.  Buffers and requests have numbers. [Local rd wr f]
      computes new contents of the buffers [wr] from those of [rd]. A receive
      without tag takes any (the default of mpi4py). *)
  Inductive op : Type :=
  | Local (rd wr : list nat) (f : list D -> list D)
  | Isend (q dst tag b : nat)
  | Irecv (q src : nat) (tag : option nat) (b : nat)
  | Wait (q : nat)
  | Barrier.

  (** A started send: its data are in the buffer of the sender, or copied. *)
  Inductive payload : Type := InBuf (b : nat) | Copied (d : D).
  Record msg := mkm { mid : nat; mreq : nat; mdst : nat; mtag : nat; mpay : payload }.
  (** A started receive. *)
  Record rcv := mkr { rreq : nat; rsrc : nat; rtag : option nat; rbuf : nat }.

  (** A rank: the rest of its program, its buffers, its messages not yet
      received and its receives without a message (oldest first), and the number
      of messages it has sent. *)
  Record rk := mkrk
    { prog : list op; store : list D; sends : list msg; recvs : list rcv; cnt : nat }.

  Definition put (b : nat) (v : D) (s : list D) : list D := upd b (fun _ => v) s.
  Definition get (s : list D) (b : nat) : D := nth b s blank.
  Fixpoint puts (wr : list nat) (vs : list D) (s : list D) : list D :=
    match wr, vs with
    | b :: wr', v :: vs' => puts wr' vs' (put b v s)
    | _, _ => s
    end.

  Definition is_copied (p : payload) : bool := match p with Copied _ => true | InBuf _ => false end.
  (** Request [q] of the rank is still in progress. *)
  Definition pending (q : nat) (k : rk) : bool :=
    existsb (fun m => (mreq m =? q) && negb (is_copied (mpay m))) (sends k)
    || existsb (fun x => rreq x =? q) (recvs k).

  (** The rank can do its next operation by itself. *)
  Definition ready (k : rk) : bool :=
    match prog k with
    | Local _ _ _ :: _ | Isend _ _ _ _ :: _ | Irecv _ _ _ _ :: _ => true
    | Wait q :: _ => negb (pending q k)
    | Barrier :: _ | [] => false
    end.

  Definition exec (k : rk) : rk :=
    match prog k with
    | Local rd wr f :: p =>
        mkrk p (puts wr (f (map (get (store k)) rd)) (store k)) (sends k) (recvs k) (cnt k)
    | Isend q dst tag b :: p =>
        mkrk p (store k) (sends k ++ [mkm (cnt k) q dst tag (InBuf b)]) (recvs k) (S (cnt k))
    | Irecv q src tag b :: p =>
        mkrk p (store k) (sends k) (recvs k ++ [mkr q src tag b]) (cnt k)
    | Wait _ :: p => mkrk p (store k) (sends k) (recvs k) (cnt k)
    | Barrier :: _ | [] => k
    end.

  Definition at_barrier (k : rk) : bool :=
    match prog k with Barrier :: _ => true | _ => false end.
  Definition pass (k : rk) : rk := mkrk (tl (prog k)) (store k) (sends k) (recvs k) (cnt k).

  (** The library copies message [i]. *)
  Definition copy_msg (s : list D) (i : nat) (m : msg) : msg :=
    if mid m =? i then
      mkm (mid m) (mreq m) (mdst m) (mtag m)
          (match mpay m with InBuf b => Copied (get s b) | Copied d => Copied d end)
    else m.
  Definition copy (i : nat) (k : rk) : rk :=
    mkrk (prog k) (store k) (map (copy_msg (store k) i) (sends k)) (recvs k) (cnt k).

  (** Message [i] leaves its sender. *)
  Definition leave (i : nat) (k : rk) : rk :=
    mkrk (prog k) (store k) (filter (fun m => negb (mid m =? i)) (sends k)) (recvs k) (cnt k).
  (** The receive of request [q] gets [v] for buffer [b]. *)
  Definition take (q b : nat) (v : D) (k : rk) : rk :=
    mkrk (prog k) (put b v (store k)) (sends k) (filter (fun x => negb (rreq x =? q)) (recvs k)) (cnt k).
  Definition value (k : rk) (m : msg) : D :=
    match mpay m with InBuf b => get (store k) b | Copied d => d end.

  Definition tagok (t : option nat) (m : nat) : bool :=
    match t with Some k => k =? m | None => true end.

  Inductive step (eager : nat -> nat -> bool) : list rk -> list rk -> Prop :=
  | step_op : forall st r k, nth_error st r = Some k -> ready k = true ->
      step eager st (upd r exec st)
  | step_barrier : forall st, st <> [] -> (forall k, In k st -> at_barrier k = true) ->
      step eager st (map pass st)
  | step_copy : forall st r k m b, nth_error st r = Some k -> In m (sends k) ->
      mpay m = InBuf b -> eager r (mid m) = true ->
      step eager st (upd r (copy (mid m)) st)
  | step_match : forall st p q kp kq m x l1 l2 l3 l4,
      nth_error st p = Some kp -> nth_error st q = Some kq ->
      sends kp = l1 ++ m :: l2 -> recvs kq = l3 ++ x :: l4 ->
      mdst m = q -> rsrc x = p -> tagok (rtag x) (mtag m) = true ->
      (forall m', In m' l1 -> mdst m' = q -> tagok (rtag x) (mtag m') = false) ->
      (forall x', In x' l3 -> rsrc x' = p -> tagok (rtag x') (mtag m) = false) ->
      step eager st (upd q (take (rreq x) (rbuf x) (value kp m)) (upd p (leave (mid m)) st)).

  Inductive steps (eager : nat -> nat -> bool) : list rk -> list rk -> Prop :=
  | steps_refl : forall s, steps eager s s
  | steps_cons : forall s t u, step eager s t -> steps eager t u -> steps eager s u.

  Definition start (p : list op) (s : list D) : rk := mkrk p s [] [] 0.

  (** Proper use of requests: until it is waited for, nothing touches the buffer
      of a receive and nothing changes that of a send.  [rfe o p] runs through the
      program [p] with the open requests [o] (number, whether it is a receive,
      buffer) and gives those open at the end. *)
  Definition opn : Type := nat * bool * nat.
  Definition oreq (e : opn) := fst (fst e).
  Definition orcv (e : opn) := snd (fst e).
  Definition obuf (e : opn) := snd e.
  Definition mem (b : nat) (l : list nat) : bool := existsb (Nat.eqb b) l.
  Fixpoint rfe (o : list opn) (p : list op) : option (list opn) :=
    match p with
    | [] => Some o
    | Local rd wr _ :: p' =>
        if forallb (fun e => negb (mem (obuf e) wr) && (negb (orcv e) || negb (mem (obuf e) rd))) o
        then rfe o p' else None
    | Isend q _ _ b :: p' =>
        if forallb (fun e => negb (oreq e =? q) && (negb (orcv e) || negb (obuf e =? b))) o
        then rfe ((q, false, b) :: o) p' else None
    | Irecv q _ _ b :: p' =>
        if forallb (fun e => negb (oreq e =? q) && negb (obuf e =? b)) o
        then rfe ((q, true, b) :: o) p' else None
    | Wait q :: p' => rfe (filter (fun e => negb (oreq e =? q)) o) p'
    | Barrier :: p' => rfe o p'
    end.
End Messages.
Arguments op : clear implicits.
Arguments rk : clear implicits.
Arguments msg : clear implicits.
Arguments payload : clear implicits.
