(** Specifications for profiling and checks of the environment, C154-C164. *)
From Coq Require Import String.
From Coq Require Import List Ascii Bool Arith ZArith QArith Qabs.
From Verif Require Import PyBase PyStr MemModel ProfModel.
Import ListNotations.
Open Scope list_scope.
Open Scope nat_scope.

(** What the cells of a row mean, by the name of the column. *)
Section Row.
Variables (label : str) (m0 m : measure) (peak : Z).
Inductive Cell : str -> cell -> Prop :=
  | Cell_name : Cell (s_ "task_name") (CText label)
  | Cell_time : Cell (s_ "time_s") (CNum (m_time m - m_time m0))
  | Cell_cpu : forall k v0 v, dget k (m_cpu m0) = Some v0 -> dget k (m_cpu m) = Some v -> Cell (s_ "cpu_times_" ++ k) (CNum (v - v0))
  | Cell_no_cpu : forall k, dget k (m_cpu m) = None -> Cell (s_ "cpu_times_" ++ k) (CText (s_ "-"))
  | Cell_io : forall k v0 v, dget k (m_io m0) = Some v0 -> dget k (m_io m) = Some v -> Cell (s_ "disk_io_" ++ k) (CNum (v - v0))
  | Cell_no_io : forall k, dget k (m_io m) = None -> Cell (s_ "disk_io_" ++ k) (CText (s_ "-"))
  | Cell_load : Cell (s_ "average_cpu_load_percent") (CNum (m_percent m))
  | Cell_uss : Cell (s_ "memory_change_uss") (CNum (m_uss m - m_uss m0))
  | Cell_avail : Cell (s_ "current_available_memory_bytes") (CNum (m_avail m))
  | Cell_used : Cell (s_ "current_total_used_memory_bytes") (CNum (m_used m))
  | Cell_peak : Cell (s_ "peak_used_memory_bytes") (CNum peak).
End Row.
(** Two readings with the same fields, the usual ones among them. *)
Definition Readings (m0 m : measure) : Prop :=
  map fst (m_cpu m0) = map fst (m_cpu m) /\ map fst (m_io m0) = map fst (m_io m) /\
  (forall k, In k ["user"; "system"; "children_user"; "children_system"]%string -> In (s_ k) (map fst (m_cpu m))) /\
  (forall k, In k ["read_count"; "write_count"; "read_bytes"; "write_bytes"]%string -> In (s_ k) (map fst (m_io m))).
(** The greatest of the numbers seen. *)
Definition Greatest (x : Z) (l : list Z) : Prop := In x l /\ forall y, In y l -> (y <= x)%Z.
