(** C303-C309: messages between ranks, in every order of events. *)
From Coq Require Import List Arith ZArith Bool Lia.
From Verif Require Import PyBase PartModel SliceModel RedModel RedSpec RedProofs DistModel
  MsgModel MsgSpec MsgProg MsgProofs8.
Import ListNotations.
Open Scope nat_scope.

(** For the examples: one way to run the ranks. The rank with the lowest number
    goes first; messages are delivered when no rank can do anything. *)
Section Drive.
  Context {D : Type} (blank : D).
  Definition able (st : list (rk D)) : option nat :=
    find (fun r => match nth_error st r with Some k => ready k | None => false end) (seq 0 (length st)).
  Definition partner (st : list (rk D)) : option (nat * nat * msg D * rcv) :=
    let cands := flat_map (fun q => match nth_error st q with
                   | None => []
                   | Some kq => flat_map (fun x => match nth_error st (rsrc x) with
                        | None => []
                        | Some kp => match find (fun m => (mdst m =? q) && tagok (rtag x) (mtag m)) (sends kp) with
                                     | Some m => [(rsrc x, q, m, x)] | None => [] end
                        end) (recvs kq)
                   end) (seq 0 (length st)) in
    hd_error cands.
  Fixpoint drive (fuel : nat) (st : list (rk D)) : list (rk D) :=
    match fuel with
    | 0 => st
    | S f =>
        match able st with
        | Some r => drive f (upd r (exec blank) st)
        | None =>
            match partner st with
            | Some (p, q, m, x) =>
                match nth_error st p with
                | Some kp => drive f (upd q (take (rreq x) (rbuf x) (value blank kp m)) (upd p (leave (mid m)) st))
                | None => st
                end
            | None => if forallb at_barrier st then drive f (map pass st) else st
            end
        end
    end.
  Definition outcome (st : list (rk D)) : list (bool * list D) :=
    map (fun k => (match prog k, sends k, recvs k with [], [], [] => true | _, _, _ => false end, store k)) st.
End Drive.

(** C303.  Programs that use their requests properly: every run ends, and all
    runs that can go no further end in the same state. *)
Theorem C303_one_outcome : forall D (blank : D) eager (P : nat -> list (op D)) s n,
  (forall r, r < n -> exists o, rfe [] (P r) = Some o) ->
  (exists bound, forall i t, run blank eager i (map (fun r => start (P r) (s r)) (seq 0 n)) t -> i <= bound)
  /\ forall i j t u,
       run blank eager i (map (fun r => start (P r) (s r)) (seq 0 n)) t -> stuck blank eager t ->
       run blank eager j (map (fun r => start (P r) (s r)) (seq 0 n)) u -> stuck blank eager u -> t = u.
Proof. exact (@MsgProofs8.unique_end). Qed.
Print Assumptions C303_one_outcome.

(** Two messages with the same tag keep their order; the check refuses a
    buffer that is read before the wait. *)
Example C303_example :
  let P := fun r => if r =? 0 then [Isend 0 1 7 0; Isend 1 1 7 1; Wait 1; Wait 0]
                    else [Irecv 0 0 (Some 7) 0; Irecv 1 0 None 1; Wait 1; Wait 0] in
  outcome (drive 0 50 (map (fun r => start (P r) [5 + r; 8 + r]) (seq 0 2))) = [(true, [5; 8]); (true, [5; 8])]
  /\ map (fun r => @rfe nat [] (P r)) (seq 0 2) = [Some []; Some []]
  /\ @rfe nat [] [Irecv 0 0 None 1; Local [1] [2] (fun l => l); Wait 0] = None.
Proof. repeat split; vm_compute; reflexivity. Qed.

(** C304.  Redistributions one after the other, without barriers between them:
    whatever happens when and whatever the library copies, they end, without
    messages left, and every rank has its share over the last axis. *)
Theorem C304_redistributions : forall A (G : list nat -> A) gshape m axes count locals,
  2 <= m -> (forall j, j <= count -> axes j < length gshape) -> (forall j, j < count -> axes j <> axes (j + 1)) ->
  (forall q, q < m -> IsShare G gshape m (axes 0) q (locals q)) ->
  forall eager s, (forall r, r < m -> 3 * count < length (s r)) -> (forall r, r < m -> get no_cell (s r) 0 = Ok (locals r)) ->
  always_ends no_cell eager (map (fun r => start (redistribute_seq gshape m axes count r) (s r)) (seq 0 m))
    (fun r st => exists arr, get no_cell st (3 * count) = Ok arr /\ IsShare G gshape m (axes count) r arr).
Proof. exact (@MsgProofs8.seq_ends). Qed.
Print Assumptions C304_redistributions.

Example C304_example :
  let axes j := j mod 2 in
  let fin := drive no_cell 500 (map (fun r => start (redistribute_seq [3; 5] 2 axes 3 r)
     (Ok (ex_locals 0 2 [3; 5] r) :: repeat no_cell 9)) (seq 0 2)) in
  map fst (outcome fin) = [true; true]
  /\ map (fun k => match nth 9 (store k) no_cell with Ok a => (shp a, map (elt a) [[0; 0]; [1; 1]]) | Err _ => ([], []) end) fin
     = [([3; 3], [Some 0; Some 11]); ([3; 2], [Some 3; Some 14])].
Proof. split; vm_compute; reflexivity. Qed.

(** C305.  [transpose_blocks]: the parts received make up the result of
    [PartModel.transpose_blocks]. *)
Theorem C305_transpose : forall A (locals : list (list (list A))) nr nc nm n out pc sac eac pr sar ear eager s,
  2 <= n -> split_all nc n = Ok (pc, sac, eac) -> split_all nr n = Ok (pr, sar, ear) ->
  (forall r, r < n -> transpose_blocks locals nr nc nm n r = Ok (out r)) ->
  (forall r, r < n -> n + n <= length (s r)) ->
  always_ends [] eager
    (map (fun r => start (transpose_prog n (fun p q =>
            cols (nth q sac 0) (nth q eac 0) (nth p (map (map (firstn nc)) locals) [])) r) (s r)) (seq 0 n))
    (fun r st => out r = fold_left (fun buf ir => set_rows (nth ir sar 0 * nm) (map Some (get [] st (n + ir))) buf)
                                   (seq 0 n) (repeat None (nr * nm))).
Proof. exact MsgProofs8.transpose_ends. Qed.
Print Assumptions C305_transpose.

Example C305_example :
  let locals := [[[1;2;3];[4;5;6]]; [[7;8;9]]] in
  outcome (drive [] 100 (map (fun r => start (transpose_prog 2 (fun p q =>
     cols (nth q [0; 2] 0) (nth q [2; 3] 0) (nth p locals [])) r) (repeat [] 4)) (seq 0 2)))
  = [(true, [[[1;2];[4;5]]; [[3];[6]]; [[1;2];[4;5]]; [[7;8]]]);
     (true, [[[7;8]]; [[9]]; [[3];[6]]; [[9]]])].
Proof. vm_compute; reflexivity. Qed.

(** C306.  [gather_local], and with every rank as the root once. *)
Theorem C306_gather_local : forall A size (locals : nat -> nd A) starts g root eager blank s, 2 <= size -> root < size ->
  (forall r, r < size -> size < length (s r)) -> (forall r, r < size -> get blank (s r) 0 = locals r) ->
  always_ends blank eager
    (map (fun r => start (gather_local_prog size (fun i => forallb (Nat.ltb 0) (shp (locals i))) root r) (s r)) (seq 0 size))
    (fun r st => (r <> root -> st = s r) /\ (r = root ->
       gather_local size locals starts g =
       fold_left (fun acc i => rbind acc (fun g => assign g (section (starts i) (shp (locals i))) (get blank st (1 + i))))
         (filter (fun i => forallb (Nat.ltb 0) (shp (locals i))) (seq 0 size)) (Ok g))).
Proof. exact MsgProofs8.gather_local_ends. Qed.
Print Assumptions C306_gather_local.

Theorem C306_to_common : forall D (blank : D) n nonempty eager s, (forall r, r < n -> n < length (s r)) ->
  always_ends blank eager (map (fun r => start (to_common_prog n nonempty r) (s r)) (seq 0 n))
    (fun r st => length st = length (s r) /\ get blank st 0 = get blank (s r) 0 /\ forall i, i < n ->
       get blank st (1 + i) = if nonempty i then get blank (s i) 0 else get blank (s r) (1 + i)).
Proof. exact MsgProofs8.common_ends. Qed.
Print Assumptions C306_to_common.

Example C306_example :
  outcome (drive 0 100 (map (fun r => start (to_common_prog 3 (fun i => negb (i =? 1)) r) [10 + r; 0; 0; 0]) (seq 0 3)))
  = [(true, [10; 10; 0; 12]); (true, [11; 10; 0; 12]); (true, [12; 10; 0; 12])].
Proof. vm_compute; reflexivity. Qed.

(** C307.  The check of the environment: with nothing lost, every rank gets the
    row of every rank, and no message is left although nothing waits for the sends. *)
Theorem C307_check : forall D (blank : D) n eager s, (forall r, r < n -> n < length (s r)) ->
  always_ends blank eager (map (fun r => start (check_prog n r) (s r)) (seq 0 n))
    (fun r st => forall p, p < n -> get blank st (1 + p) = get blank (s p) 0).
Proof. exact MsgProofs8.check_ends. Qed.
Print Assumptions C307_check.

Example C307_example :
  outcome (drive 0 100 (map (fun r => start (check_prog 3 r) [r * r; 9; 9; 9]) (seq 0 3)))
  = [(true, [0; 0; 1; 4]); (true, [1; 0; 1; 4]); (true, [4; 0; 1; 4])].
Proof. vm_compute; reflexivity. Qed.

(** C308.  [MPIArray.gather] always ends.  On the root the parts of the other
    ranks are right; its own part is right or what was in the new array before;
    it is right if the library does not copy the messages of the root. *)
Theorem C308_gather : forall D (blank : D) n root eager s, root < n -> n + n < length (s root) ->
  always_ends blank eager (map (fun r => start (gather_prog blank n root r) (s r)) (seq 0 n))
    (fun r st => r = root ->
       (forall i, i < n -> i <> root -> get blank st (1 + n + i) = get blank (s i) 0)
       /\ (get blank st (1 + n + root) = get blank (s root) (1 + root) \/ get blank st (1 + n + root) = get blank (s root) 0)
       /\ ((forall i, eager root i = false) -> get blank st (1 + n + root) = get blank (s root) 0)).
Proof. exact MsgProofs8.gather_all. Qed.
Print Assumptions C308_gather.

Example C308_example :
  outcome (drive 0 100 (map (fun r => start (gather_prog 0 3 1 r) [10 + r; 1; 2; 3; 4; 5; 6]) (seq 0 3)))
  = [(true, [10; 1; 2; 3; 4; 5; 6]); (true, [11; 10; 11; 12; 10; 11; 12]); (true, [12; 1; 2; 3; 4; 5; 6])].
Proof. vm_compute; reflexivity. Qed.

(** C309.  False: that the root's own part is always right.  The root's receive
    from itself is never waited for: when the library copies the message, the
    array may be read before it has arrived. *)
Theorem C309_own_part_refuted : exists n root eager (s : nat -> list nat) i t k,
  root < n /\ n + n < length (s root)
  /\ run 0 eager i (map (fun r => start (gather_prog 0 n root r) (s r)) (seq 0 n)) t
  /\ finished t /\ nth_error t root = Some k
  /\ get 0 (store k) (1 + n + root) <> get 0 (s root) 0.
Proof.
  exists 2, 0, (fun _ _ => true), (fun r => [10 + r; 1; 2; 3; 4]).
  do 3 eexists. split; [lia|]. split; [simpl; lia|].
  set (m0 := @mkm nat 0 0 0 0 (InBuf 0)).
  split.
  { cbn [seq map]. 
    eapply run_cons; [eapply step_op with (r := 0); reflexivity|]. cbn.
    eapply run_cons; [eapply step_op with (r := 0); reflexivity|]. cbn.
    eapply run_cons; [eapply step_copy with (r := 0) (m := m0); [reflexivity|left; reflexivity|reflexivity|reflexivity]|]. cbn.
    do 4 (eapply run_cons; [eapply step_op with (r := 0); reflexivity|]; cbn).
    do 1 (eapply run_cons; [eapply step_op with (r := 1); reflexivity|]; cbn).
    eapply run_cons; [eapply step_match with (p := 0) (q := 0) (l1 := []) (l3 := []); try reflexivity; simpl; tauto|]. cbn.
    eapply run_cons; [eapply step_match with (p := 1) (q := 0) (l1 := []) (l3 := []); try reflexivity; simpl; tauto|]. cbn.
    do 2 (eapply run_cons; [eapply step_op with (r := 0); reflexivity|]; cbn).
    do 1 (eapply run_cons; [eapply step_op with (r := 1); reflexivity|]; cbn).
    apply run_nil. }
  split; [intros k [<-|[<-|[]]]; auto|]. split; [reflexivity|]. vm_compute. discriminate.
Qed.
Print Assumptions C309_own_part_refuted.

Example C309_example : @rfe nat [] (gather_prog 0 2 0 0) = None /\ @rfe nat [] (gather_prog 0 2 0 1) = Some [].
Proof. split; vm_compute; reflexivity. Qed.
