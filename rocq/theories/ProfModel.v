(** Profiling and checks of the environment.
    /repo/caput/util/profiler.py: [Profiler] (24-100), [IOUsage] (103-172), [PSUtilProfiler] (175-477);
    /repo/caput/pipeline/tasklib/debug.py: [CheckMPIEnvironment.setup] (23-72);
    /repo/caput/pipeline/tasklib/random.py: [RandomTask] (12-91).

    What psutil and the clocks report are parameters, whole numbers; profiles themselves and log
    messages are left out. *)
From Coq Require Import String.
From Coq Require Import List Ascii Bool Arith ZArith QArith Qabs.
From Verif Require Import PyBase PyStr MemModel GlobModel.
Import ListNotations.
Open Scope list_scope.
Open Scope nat_scope.

(** * Profiler *)
(** [int(math.log10(n))], the logarithm of powers of ten being exact *)
Fixpoint ilog10 (fuel n : nat) : nat :=
  match fuel with O => 0 | S fuel => if n <? 10 then 0 else S (ilog10 fuel (n / 10)) end.
(** Line 91 *)
Definition rank_length (size : nat) : nat := ilog10 size size + 1.
(** [f"{n:0{w}}"] *)
Definition padded (w n : nat) : str := repeat (ch "0") (w - length (decimal n)) ++ decimal n.
(** The two profilers, and any other name *)
Inductive kind := CProfile | PyInstrument | OtherProfiler.
Definition profile_name (k : kind) (rank size : nat) : str :=
  s_ "profile_" ++ padded (rank_length size) rank ++ (match k with CProfile => s_ ".prof" | _ => s_ ".txt" end).
(** A block [with Profiler(profile, k, comm, path)] in the directory [cwd]: the files written.
    [self.path] is set in lines 59-62 and not used. *)
Definition profiler_files (profile : bool) (k : kind) (rank size : nat) (cwd : str) (path : option str) : res (list str) :=
  match k with
  | OtherProfiler => Err ValueError
  | _ => Ok (if profile then [cwd ++ s_ "/" ++ profile_name k rank size] else [])
  end.

(** * Input and output *)
Definition counters := list (str * Z).
Record io_usage := mkio { io_start : option counters; io_usage_ : counters }.
Definition io_new : io_usage := mkio None [].
Definition io_enter (u : io_usage) (c : counters) : io_usage := mkio (Some c) (io_usage_ u).
(** Lines 160-163 *)
Fixpoint io_differences (f s : counters) (usage : counters) : res counters :=
  match f with
  | [] => Ok usage
  | (k, v) :: f => match dget k s with
                   | Some v0 => io_differences f s (dput k (v - v0)%Z usage)
                   | None => Err KeyError
                   end
  end.
Definition io_exit (u : io_usage) (f : counters) : res io_usage :=
  match io_start u, f with
  | _, [] => Ok u
  | None, _ => Err TypeError
  | Some s, _ => rbind (io_differences f s (io_usage_ u)) (fun us => Ok (mkio (io_start u) us))
  end.

(** * PSUtilProfiler *)
Inductive cell := CText (s : str) | CNum (z : Z).
Definition colnames : list str := map s_ [
  "task_name"; "time_s"; "cpu_times_user"; "cpu_times_system"; "cpu_times_children_user";
  "cpu_times_children_system"; "cpu_times_iowait"; "average_cpu_load_percent"; "disk_io_read_count";
  "disk_io_write_count"; "disk_io_read_bytes"; "disk_io_write_bytes"; "disk_io_read_chars";
  "disk_io_write_chars"; "memory_change_uss"; "current_available_memory_bytes";
  "current_total_used_memory_bytes"; "peak_used_memory_bytes"]%string.
(** What is read at one time.  [m_percent], [m_used] and [m_avail] are only read at the end. *)
Record measure := mkmeasure { m_time : Z; m_cpu : counters; m_io : counters; m_uss : Z; m_percent : Z; m_used : Z; m_avail : Z }.
(** [m_*] of the last start, and the greatest memory seen *)
Record psp := mkpsp { p_use : bool; p_label : str; p_start : option measure; p_peak : Z }.
Definition table := list (list cell).
(** Lines 235-278: the files in the directory are given by [file], the one of this rank. *)
Definition psp_new (use : bool) (label : str) (path : option str) (file : option table) : res (psp * option table) :=
  match path with
  | Some _ => Err AttributeError
  | None => Ok (mkpsp use label None 0,
                match file with None => if use then Some [map CText colnames] else None | Some t => Some t end)
  end.
Definition psp_start (p : psp) (m : measure) : psp := mkpsp (p_use p) (p_label p) (Some m) (m_uss m).
(** [monitor]: the memory seen in each turn *)
Definition psp_monitor (p : psp) (samples : list Z) : psp :=
  mkpsp (p_use p) (p_label p) (p_start p) (fold_left Z.max samples (p_peak p)).
(** [np.subtract] of two named tuples with the same fields, as a dictionary *)
Definition subtract (a b : counters) : counters := map (fun x => (fst (fst x), (snd (fst x) - snd (snd x))%Z)) (combine a b).
Definition need (k : string) (c : counters) : res cell := match dget (s_ k) c with Some v => Ok (CNum v) | None => Err KeyError end.
Definition maybe (k : string) (c : counters) : cell := match dget (s_ k) c with Some v => CNum v | None => CText (s_ "-") end.
(** Lines 340-436 *)
Definition psp_row (p : psp) (m0 m : measure) : res (list cell) :=
  let cpu := subtract (m_cpu m) (m_cpu m0) in
  let io := subtract (m_io m) (m_io m0) in
  rbind (need "user" cpu) (fun c1 => rbind (need "system" cpu) (fun c2 =>
  rbind (need "children_user" cpu) (fun c3 => rbind (need "children_system" cpu) (fun c4 =>
  rbind (need "read_count" io) (fun d1 => rbind (need "write_count" io) (fun d2 =>
  rbind (need "read_bytes" io) (fun d3 => rbind (need "write_bytes" io) (fun d4 =>
  Ok [CText (p_label p); CNum (m_time m - m_time m0); c1; c2; c3; c4; maybe "iowait" cpu; CNum (m_percent m);
      d1; d2; d3; d4; maybe "read_chars" io; maybe "write_chars" io; CNum (m_uss m - m_uss m0);
      CNum (m_avail m); CNum (m_used m); CNum (p_peak p)])))))))).
Definition psp_stop (p : psp) (m : measure) (file : option table) : res (option table) :=
  match p_start p with
  | None => Err RuntimeError
  | Some m0 => rbind (psp_row p m0 m) (fun row => Ok (Some (match file with Some t => t | None => [] end ++ [row])))
  end.
(** A [with] block *)
Definition psp_block (p : psp) (m0 : measure) (samples : list Z) (m : measure) (file : option table) : res (psp * option table) :=
  if p_use p then
    let p := psp_monitor (psp_start p m0) samples in
    rbind (psp_stop p m file) (fun f => Ok (p, f))
  else Ok (p, file).
Fixpoint psp_blocks (p : psp) (bs : list (measure * list Z * measure)) (file : option table) : res (option table) :=
  match bs with
  | [] => Ok file
  | (m0, ss, m) :: bs => rbind (psp_block p m0 ss m file) (fun '(p, f) => psp_blocks p bs f)
  end.
(** [bytes2human], lines 378-383: the number and which of "", "Ki", ..., "Zi", "Yi" *)
Open Scope Q_scope.
Fixpoint bytes2human (units : nat) (k : nat) (num : Q) : Q * nat :=
  match units with
  | O => (num, k)
  | S units => if negb (Qle_bool 1024 (Qabs num)) then (num, k) else bytes2human units (S k) (num / 1024)
  end.
(** [f"{num:.1f}"], in tenths: the nearest number, the even one of two *)
Definition round_half_even (q : Q) : Z :=
  let f := (Qnum q / Zpos (Qden q))%Z in
  let r := (2 * (Qnum q - f * Zpos (Qden q)))%Z in
  (if r <? Zpos (Qden q) then f else if Zpos (Qden q) <? r then f + 1 else if Z.even f then f else f + 1)%Z.
Definition tenths (q : Q) : Z := round_half_even (10 * q).
Definition human (num : Z) : Q * nat := bytes2human 8 0 (inject_Z num).
Open Scope nat_scope.

(** * Messages between all ranks *)
(** Lines 40-45: to and from whom rank [rank] sends and receives, in order *)
Definition sends (size rank : nat) : list nat := map (fun i => (rank + i) mod size) (seq 0 size).
Definition recvs (size rank : nat) : list nat :=
  map (fun i => Z.to_nat ((Z.of_nat rank - Z.of_nat i) mod Z.of_nat size)) (seq 0 size).
(** Lines 49-55: there is a turn every five seconds; [arrived t] says if all receives are complete
    [t] seconds after the start.  [fuel] turns at most. *)
Fixpoint waits (fuel : nat) (t timeout : Z) (success : option bool) (arrived : Z -> bool) : option bool :=
  match fuel with
  | O => success
  | S fuel => if (t <? timeout)%Z then (if arrived t then Some true else waits fuel (t + 5) timeout (Some false) arrived)
              else success
  end.
Inductive outcome := Passed | Aborted.
(** [at_ s]: when the message from rank [s] arrives, if ever; [same s]: it is what was sent *)
Definition check_mpi (size rank : nat) (timeout : Z) (at_ : nat -> option Z) (same : nat -> bool) : res outcome :=
  let arrived := fun t => forallb (fun s => match at_ s with Some a => (a <=? t)%Z | None => false end) (recvs size rank) in
  match waits (Z.to_nat timeout) 0 timeout None arrived with
  | None => Err UnboundLocalError
  | Some false => Ok Aborted
  | Some true => Ok (if forallb same (seq 0 size) then Passed else Aborted)
  end.

(** * Seeds *)
(** [zlib.adler32] *)
Open Scope Z_scope.
Definition adler32 (s : str) : Z :=
  let '(a, b) := fold_left (fun '(a, b) c => let a := (a + Z.of_nat (nat_of_ascii c)) mod 65521 in (a, (b + a) mod 65521)) s (1, 0) in
  b * 65536 + a.
(** Lines 43-58: [entropy r] is the random number made on rank [r]; that of rank 0 is sent to all. *)
Definition local_seed (seed : option Z) (entropy : nat -> Z) (cls_name : str) (rank : nat) : Z :=
  let seed := match seed with Some s => s | None => entropy 0%nat end in
  seed + (Z.of_nat rank + 1) * adler32 cls_name.
(** A task made in Python: [seed] is set after [__init__], which computed the local seed from the
    default [None]. *)
Record rtask := mkrtask { r_seed : option Z; r_local : Z }.
Definition rtask_new (entropy : nat -> Z) (cls_name : str) (rank : nat) (config : option Z) : rtask :=
  mkrtask config (local_seed config entropy cls_name rank).
Definition set_seed (t : rtask) (s : Z) : rtask := mkrtask (Some s) (r_local t).
