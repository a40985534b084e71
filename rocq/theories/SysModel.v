(** Model of the questions about the machine, the filter of log messages and
    the processes put to sleep: /repo/caput/util/mpitools.py lines 141-302,
    342-406 and 412-456. *)
From Coq Require Import String.
From Coq Require Import List Ascii Bool Arith ZArith.
From Verif Require Import PyBase PyStr.
Import ListNotations.
Open Scope list_scope.
Open Scope nat_scope.

(** ** Processors *)

(** Lines 141-178, [cpu_count]: [comm] and [scomm] are the sizes of the two
    communicators ([None] without MPI), [os_cpus] the answer of
    [os.cpu_count()].  The choice of [scomm] (lines 160-164) only decides
    which communicator it is. *)
Definition cpu_count (comm scomm os_cpus : option nat) : res (option nat) :=
  rbind (match comm, scomm with
         | Some c, Some s => if s =? 0 then Err ZeroDivisionError else Ok (c / s)
         | _, _ => Ok 1
         end) (fun nproc_per_node =>
  match os_cpus with
  | None => Ok None
  | Some n => if nproc_per_node =? 0 then Err ZeroDivisionError else Ok (Some (n / nproc_per_node))
  end).

(** ** Memory *)

(** What opening and reading a file gives. *)
Inductive file := Text (s : str) | Missing | Failed.

(** What [available_memory_shared] gives: a number, an [OSError], or the
    [ValueError] of [int]. *)
Inductive avail := Bytes (z : Z) | Unreadable | Malformed.

Definition newline : ascii := "010"%char.
(** The white space removed by [str.strip] and accepted by [int] (ASCII). *)
Definition is_space (c : ascii) : bool :=
  let n := nat_of_ascii c in ((9 <=? n) && (n <=? 13)) || ((28 <=? n) && (n <=? 32)).
Fixpoint lstrip (s : str) : str :=
  match s with c :: t => if is_space c then lstrip t else s | [] => [] end.
Definition strip (s : str) : str := rev (lstrip (rev (lstrip s))).

Fixpoint starts_with (pat s : str) : option str :=
  match pat, s with
  | [], _ => Some s
  | p :: pat, c :: s => if Ascii.eqb p c then starts_with pat s else None
  | _ :: _, [] => None
  end.
(** The text after the first occurrence of [pat]. *)
Fixpoint after (pat s : str) : option str :=
  match starts_with pat s with
  | Some r => Some r
  | None => match s with [] => None | _ :: t => after pat t end
  end.
(** [.*] stops at the end of the line. *)
Fixpoint to_eol (s : str) : str :=
  match s with c :: t => if Ascii.eqb c newline then [] else c :: to_eol t | [] => [] end.
(** The first element of [re.findall(r"(?<=pat).*", s)]. *)
Definition find_first (pat s : str) : option str :=
  match after pat s with Some r => Some (to_eol r) | None => None end.

Definition digit (c : ascii) : option Z :=
  let n := nat_of_ascii c in if (48 <=? n) && (n <=? 57) then Some (Z.of_nat (n - 48)) else None.
Fixpoint digits_z (acc : Z) (s : str) : option Z :=
  match s with
  | [] => Some acc
  | c :: t => match digit c with Some d => digits_z (10 * acc + d)%Z t | None => None end
  end.
(** [int(s)], without the underscores that are allowed between digits. *)
Definition py_int (s : str) : option Z :=
  match strip s with
  | [] => None
  | c :: t =>
      if Ascii.eqb c "-" then match t with [] => None | _ => option_map Z.opp (digits_z 0 t) end
      else if Ascii.eqb c "+" then match t with [] => None | _ => digits_z 0 t end
      else digits_z 0 (c :: t)
  end.

Definition slash : ascii := "/"%char.
(** Lines 253-302, [available_memory_shared]: [cgroup_file] is
    /proc/<pid>/cgroup, [fs] the other files, [machine] the value of
    [psutil.virtual_memory().available]. *)
Definition available_memory_shared (cgroup_file : file) (fs : str -> file) (machine : Z) : avail :=
  match cgroup_file with
  | Missing => Bytes machine
  | Failed => Unreadable
  | Text cgrouptxt =>
      let cgroup := match find_first (s_ "memory:") cgrouptxt with
                    | Some c => strip c
                    | None => [slash]
                    end in
      if seqb cgroup [slash] then Bytes machine else
      let dir := s_ "/sys/fs/cgroup/memory/" ++ cgroup in
      match fs (dir ++ s_ "/memory.stat"), fs (dir ++ s_ "/memory.usage_in_bytes") with
      | Text memorystat, Text mem_used =>
          match (match find_first (s_ "hierarchical_memory_limit") memorystat with
                 | Some l => py_int l
                 | None => Some 0%Z
                 end), py_int mem_used with
          | Some limit, Some used => Bytes (limit - used)
          | _, _ => Malformed
          end
      | _, _ => Unreadable
      end
  end.

(** A process: the number of bytes that it asks for and the answer of
    [available_memory_shared] in it.  A node is the list of the processes
    sharing its memory, a job the list of its nodes. *)
Record process := mkprocess { p_req : Z; p_avail : avail }.

(** A process answers, raises an exception, or waits in a collective
    operation that some process never enters. *)
Inductive outcome := Answer (b : bool) | Raised (e : exn) | Waits.

Definition zsum (l : list Z) : Z := fold_right Z.add 0%Z l.
Definition bytes_of (p : process) : Z := match p_avail p with Bytes z => z | _ => 0%Z end.
Definition readable (p : process) : bool := match p_avail p with Bytes _ => true | _ => false end.

(** Lines 181-243, [can_allocate], called by all processes with the same
    [scope]; the answer for process [p] of [node].  [mpi] says if there are
    communicators.  A process that cannot tell its memory warns and answers
    yes (lines 224-228), and so does not take part in the sum. *)
Definition can_allocate (scope : str) (mpi : bool) (job : list (list process)) (node : list process)
    (p : process) : outcome :=
  match p_avail p with
  | Unreadable => Answer true
  | Malformed => Raised ValueError
  | Bytes a =>
      if seqb scope (s_ "shared") || negb mpi then Answer (p_req p <? a)%Z
      else if seqb scope (s_ "process") then
        if forallb readable node then Answer (zsum (map p_req node) <? a)%Z else Waits
      else if seqb scope (s_ "global") then
        if forallb (forallb readable) job then
          Answer (p_req p <? zsum (map (fun n => zsum (map (fun q => bytes_of q / Z.of_nat (length n)) n)) job))%Z
        else Waits
      else Raised ValueError
  end.

(** ** Log messages *)

(** The attributes of a record that matter here; [elapsed] is in
    milliseconds. *)
Record record := mkrecord {
  levelno : Z; mpi_rank : option nat; mpi_size : option nat; elapsed : option Z; relative : Z }.
(** Lines 342-377, [MPILogFilter.__init__]: [rank] and [size] are those of the
    communicator, or of the module. *)
Record logfilter := mkfilter {
  add_mpi_info : bool; level_rank0 : Z; level_all : Z; f_rank : nat; f_size : nat }.
(** Lines 379-403, [filter]. *)
Definition log_filter (f : logfilter) (r : record) : bool * record :=
  let r1 := if (match mpi_rank r with None => true | Some _ => false end) && add_mpi_info f
            then mkrecord (levelno r) (Some (f_rank f)) (Some (f_size f)) (elapsed r) (relative r) else r in
  let rank := match mpi_rank r1 with Some k => k | None => f_rank f end in
  let r2 := mkrecord (levelno r1) (mpi_rank r1) (mpi_size r1) (Some (relative r1)) (relative r1) in
  ((if rank =? 0 then (level_rank0 f <=? levelno r2)%Z else (level_all f <=? levelno r2)%Z), r2).

(** ** Processes put to sleep *)

(** Lines 412-414: the message that ends the wait, and any other. *)
Inductive message := Close | Other (n : nat).

(** Lines 433-444, the loop in [active]: the messages from process 0 left over,
    or [None] if it is still waiting. *)
Fixpoint wait_close (inbox : list message) : option (list message) :=
  match inbox with
  | [] => None
  | Close :: t => Some t
  | Other _ :: t => wait_close t
  end.
(** Lines 426-446, [active]: the messages left over once it returns.  Creating
    the communicator is not modelled. *)
Definition active (aprocs : list nat) (rank : nat) (inbox : list message) : option (list message) :=
  if existsb (Nat.eqb rank) aprocs then Some inbox else wait_close inbox.
(** Lines 449-456, [close]: the destinations of the messages sent.  The order
    of the set is not specified; increasing here. *)
Definition close (aprocs : list nat) (size rank : nat) : list (nat * message) :=
  if rank =? 0 then
    map (fun i => (i, Close)) (filter (fun i => negb (existsb (Nat.eqb i) aprocs)) (seq 0 size))
  else [].

(** [active(aprocs)] followed by [close(aprocs')] in all processes, where
    process 0, before closing, may send the messages [tasks].  The messages
    that arrive are those of process 0, if it gets that far; it gets there
    if its own [active] returns without any message. *)
Definition sent (aprocs aprocs' : list nat) (tasks : list (nat * message)) (size : nat) : list (nat * message) :=
  match active aprocs 0 [] with
  | Some _ => tasks ++ close aprocs' size 0
  | None => []
  end.
Definition inbox (msgs : list (nat * message)) (rank : nat) : list message :=
  map snd (filter (fun m => fst m =? rank) msgs).
Definition session (aprocs aprocs' : list nat) (tasks : list (nat * message)) (size rank : nat) : option (list message) :=
  active aprocs rank (inbox (sent aprocs aprocs' tasks size) rank).
