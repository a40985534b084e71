(** Running and queueing pipelines.
    /repo/caput/pipeline/runner/_core.py: [run_pipeline] (44-79),
    [template_run] (82-105), [_from_template] (108-147), [_load_venv] (164-199);
    /repo/caput/pipeline/runner/_cli.py: [template_run] (114-129);
    /repo/caput/pipeline/runner/_scheduler/__init__.py: [register_system]
    (32-57), [queue] (110-277), [_resolve_system_config] (280-324),
    [_create_job_directories] (327-371), [_create_job_environment_strings]
    (374-407), [_resolve_job_script] (410-455);
    /repo/caput/pipeline/runner/_scheduler/_default_systems.toml.

    [str.format] is modelled for fields of the form name or name:spec; fields with
    attributes, indices, conversions or nested fields give [OtherException] here.
    Paths are taken as already expanded and resolved.  Left out: messages. *)
From Coq Require Import String.
From Coq Require Import List Ascii Bool Arith ZArith.
From Verif Require Import PyBase PyStr MemModel GlobModel.
Import ListNotations.
Open Scope list_scope.
Open Scope nat_scope.

(** * str.format *)
(** What YAML gives; [VOther] is anything else, with its text. *)
Inductive val := VStr (s : str) | VInt (z : Z) | VList (l : list str) | VNone | VOther (text : str).
Definition show_int (z : Z) : str := if (z <? 0)%Z then "-"%char :: decimal (Z.abs_nat z) else decimal (Z.abs_nat z).
Section Show.
Variable show_list : list str -> str.
Definition show_val (v : val) : str :=
  match v with VStr s => s | VInt z => show_int z | VList l => show_list l | VNone => s_ "None" | VOther t => t end.
(** [format(v, spec)] *)
Definition format_field (v : val) (spec : str) : res str :=
  if seqb spec [] then Ok (show_val v)
  else if seqb spec (s_ "s") then match v with VStr s => Ok s | VInt _ => Err ValueError | _ => Err TypeError end
  else if seqb spec (s_ "d") then match v with VInt z => Ok (show_int z) | VStr _ => Err ValueError | _ => Err TypeError end
  else Err OtherException.
Definition lbrace : ascii := "{"%char.
Definition rbrace : ascii := "}"%char.
Definition colon : ascii := ":"%char.
(** Split at the first colon. *)
Fixpoint cut (c : ascii) (s : str) : option (str * str) :=
  match s with
  | [] => None
  | x :: s => if ceqb x c then Some ([], s) else match cut c s with Some (a, b) => Some (x :: a, b) | None => None end
  end.
Definition is_digit (c : ascii) : bool := let n := nat_of_ascii c in (48 <=? n) && (n <=? 57).
Definition field_value (look : str -> option val) (f : str) : res str :=
  let '(name, spec) := match cut colon f with Some p => p | None => (f, []) end in
  if existsb (fun c => existsb (ceqb c) name) (s_ "[.!") || existsb (ceqb "!"%char) spec then Err OtherException
  else if forallb is_digit name then Err IndexError
  else match look name with Some v => format_field v spec | None => Err KeyError end.
(** [s.format(..)]; [mode] is the field being read. *)
Fixpoint fmt (look : str -> option val) (mode : option str) (s : str) : res str :=
  match mode with
  | None =>
      match s with
      | [] => Ok []
      | c :: s1 =>
          if ceqb c lbrace then
            match s1 with
            | d :: s2 => if ceqb d lbrace then rbind (fmt look None s2) (fun r => Ok (lbrace :: r)) else fmt look (Some []) s1
            | [] => Err ValueError
            end
          else if ceqb c rbrace then
            match s1 with
            | d :: s2 => if ceqb d rbrace then rbind (fmt look None s2) (fun r => Ok (rbrace :: r)) else Err ValueError
            | [] => Err ValueError
            end
          else rbind (fmt look None s1) (fun r => Ok (c :: r))
      end
  | Some f =>
      match s with
      | [] => Err ValueError
      | c :: s =>
          if ceqb c rbrace then rbind (field_value look f) (fun v => rbind (fmt look None s) (fun r => Ok (v ++ r)))
          else if ceqb c lbrace then Err OtherException
          else fmt look (Some (f ++ [c])) s
      end
  end.
Definition format (s : str) (d : list (str * val)) : res str := fmt (fun n => dget n d) None s.

(** * Templates, _core.py 108-147 *)
Definition equals : ascii := "="%char.
Definition comma : ascii := ","%char.
(** Lines 124-127 *)
Fixpoint vardict (var : list str) (d : list (str * list str)) : res (list (str * list str)) :=
  match var with
  | [] => Ok d
  | v :: var => match cut equals v with
                | None => Err ValueError
                | Some (n, vals) => vardict var (dput n (split comma vals) d)
                end
  end.
(** [itertools.product] *)
Fixpoint product {A} (ls : list (list A)) : list (list A) :=
  match ls with
  | [] => [[]]
  | l :: ls => flat_map (fun x => map (cons x) (product ls)) l
  end.
(** Lines 132-147 with the body of the loop in the caller: the texts handed out,
    and how it ended. *)
Fixpoint expand_all (template : str) (names : list str) (body : str -> res unit) (combos : list (list str)) : list str * res unit :=
  match combos with
  | [] => ([], Ok tt)
  | vs :: combos =>
      match format template (combine names (map VStr vs)) with
      | Err e => ([], Err e)
      | Ok text => match body text with
                   | Err e => ([text], Err e)
                   | Ok _ => let '(ts, r) := expand_all template names body combos in (text :: ts, r)
                   end
      end
  end.
Definition from_template (template : str) (var : list str) (body : str -> res unit) : list str * res unit :=
  match vardict var [] with
  | Err e => ([], Err e)
  | Ok d => expand_all template (map fst d) body (product (map snd d))
  end.
(** Calling a function with the parameters [params], none of which has a default:
    [npos] positional arguments and the keywords [kws]. *)
Definition bind (params : list str) (npos : nat) (kws : list str) : res unit :=
  if (npos <=? length params) && forallb (fun k => existsb (seqb k) (skipn npos params)) kws && forallb (fun p => existsb (seqb p) kws) (skipn npos params)
  then Ok tt else Err TypeError.
Definition run_pipeline_params : list str := map s_ ["configfile"; "profile"; "profiler"; "mpi_abort"; "psutil"]%string.
(** [_core.template_run], lines 82-105; [run] is what the pipeline does. *)
Definition template_run (run : str -> res unit) (template : str) (var : list str) (nargs : nat) (kwargs : list str) : list str * res unit :=
  let '(texts, r) := from_template template var (fun text => rbind (bind run_pipeline_params (S nargs) kwargs) (fun _ => run text)) in
  match bind run_pipeline_params (S nargs) kwargs with Ok _ => (texts, r) | Err _ => ([], r) end.
(** The command, _cli.py 126-129, without --submit. *)
Definition cli_template_run (run : str -> res unit) (template : str) (var : list str) : list str * res unit :=
  template_run run template var 0 [].

(** * Systems, __init__.py 32-57 and 280-324 *)
Record system := mksys { y_script : option str; y_command : option str; y_invoke : option str; y_invoke_args : option str;
                         y_required : list str; y_mail : option (list str) }.
Definition complete_system (y : system) : bool :=
  match y_script y, y_command y with Some _, Some _ => true | _, _ => false end.
(** [register_system]: the registry and mail types afterwards, and the outcome. *)
Fixpoint register_system (data : list (str * system)) (reg : list (str * system)) (mail : list str) : list (str * system) * list str * res unit :=
  match data with
  | [] => (reg, mail, Ok tt)
  | (n, y) :: data =>
      if complete_system y then register_system data (dput n y reg) (match y_mail y with Some l => mail ++ l | None => mail end)
      else (reg, mail, Err ValueError)
  end.
(** Line 65 *)
Definition clusters : list (str * str) := [(s_ "gpc", s_ "pbs"); (s_ "cedar", s_ "slurm"); (s_ "fir", s_ "slurm")].
Definition missing (required : list str) (c : list (str * val)) : bool :=
  negb (forallb (fun k => existsb (seqb k) (map fst c)) required).
(** [conf] is the cluster section, if there is one. *)
Definition resolve_system_config (reg : list (str * system)) (conf : option (list (str * val))) : res (list (str * val)) :=
  match conf with
  | None => Err KeyError
  | Some c =>
      match dget (s_ "system") c with
      | None => Err KeyError
      | Some (VStr n) =>
          rbind (match dget n reg with
                 | Some y => Ok (y, c)
                 | None => match dget n clusters with
                           | Some n' => match dget n' reg with Some y => Ok (y, dput (s_ "system") (VStr n') c) | None => Err KeyError end
                           | None => Err UnboundLocalError
                           end
                 end) (fun '(y, c) => if missing (y_required y) c then Err ValueError else Ok c)
      | Some (VList _) => Err TypeError
      | Some _ => Err UnboundLocalError
      end
  end.

(** * Job environment, lines 374-407 *)
Definition nl : ascii := ascii_of_nat 10.
Definition join_s (sep : str) (l : list str) : str :=
  match l with [] => [] | x :: l => x ++ flat_map (fun y => sep ++ y) l end.
(** The modules of an option: a string or a list; falsy values count as absent. *)
Definition modules_of (v : option val) : res (list str) :=
  match v with
  | None | Some VNone => Ok []
  | Some (VStr []) => Ok []
  | Some (VStr s) => Ok [s]
  | Some (VList l) => Ok l
  | Some (VInt z) => if (z =? 0)%Z then Ok [] else Err TypeError
  | Some (VOther _) => Err TypeError
  end.
Definition module_string (c : list (str * val)) : res str :=
  rbind (modules_of (dget (s_ "module_path") c)) (fun paths =>
  rbind (modules_of (dget (s_ "module_list") c)) (fun mods =>
  let m := match paths with [] => [] | _ => s_ "module use " ++ join_s (nl :: s_ "module use ") paths end in
  let m := match mods with [] => m | _ => m ++ nl :: s_ "module load " ++ join_s (nl :: s_ "module load ") mods end in
  Ok (match m with [] => [] | _ => s_ "module --force purge" ++ nl :: m end))).
Section Env.
Variable resolve : str -> str.
Variable exists_ : str -> bool.
Definition venv_path (c : list (str * val)) : res str :=
  match dget (s_ "venv") c with
  | None => Ok (s_ "/dev/null")
  | Some (VStr v) => let p := resolve (v ++ s_ "/bin/activate") in if exists_ p then Ok p else Err ValueError
  | Some _ => Err TypeError
  end.

(** * Job script, lines 410-455 *)
Definition times (a b : val) : res val :=
  match a, b with
  | VInt x, VInt y => Ok (VInt (x * y))
  | VStr s, VInt n | VInt n, VStr s => Ok (VStr (concat (repeat s (Z.to_nat n))))
  | VList l, VInt n | VInt n, VList l => Ok (VList (concat (repeat l (Z.to_nat n))))
  | _, _ => Err TypeError
  end.
Definition get (k : str) (c : list (str * val)) : res val := match dget k c with Some v => Ok v | None => Err KeyError end.
Definition prepare (y : system) (workdir finaldir : str) (c : list (str * val)) : res (list (str * val)) :=
  rbind (module_string c) (fun mods =>
  rbind (venv_path c) (fun venv =>
  let c := dput (s_ "venv") (VStr venv) (dput (s_ "modules") (VStr mods) c) in
  rbind (get (s_ "nodes") c) (fun nodes => rbind (get (s_ "pernode") c) (fun pernode => rbind (times nodes pernode) (fun mp =>
  let c := dput (s_ "mpiproc") mp c in
  let c := dput (s_ "finaldir") (VStr finaldir) (dput (s_ "workdir") (VStr workdir) c) in
  let jobdir := workdir ++ s_ "/job" in
  let c := dput (s_ "statuspath") (VStr (jobdir ++ s_ "/STATUS")) (dput (s_ "configpath") (VStr (jobdir ++ s_ "/config.yaml"))
             (dput (s_ "logpath") (VStr (jobdir ++ s_ "/jobout.log")) c)) in
  let c := dput (s_ "usetemp") (VInt (if seqb finaldir workdir then 0 else 1)) c in
  let c := match dget (s_ "invoke") c with
           | Some _ => c
           | None => dput (s_ "invoke") (VStr (match y_invoke y with Some i => i | None => s_ "mpirun" end)) c
           end in
  let c := match dget (s_ "invoke_args") c with Some _ => c | None => dput (s_ "invoke_args") (VStr []) c end in
  let c := match dget (s_ "time") c with Some t => dput (s_ "time") (VStr (show_val t)) c | None => c end in
  match dget (s_ "invoke_args") c with
  | Some (VStr a) => rbind (format a c) (fun a => Ok (dput (s_ "invoke_args") (VStr a) c))
  | _ => Err AttributeError
  end))))).
(** [queue], lines 236-238 *)
Definition forward (profile : bool) (profiler : str) (psutil : bool) (c : list (str * val)) : list (str * val) :=
  dput (s_ "psutil") (VStr (if psutil then s_ "--psutil" else [])) (dput (s_ "profiler") (VStr (if profile then s_ "--profiler=" ++ profiler else []))
  (dput (s_ "profile") (VStr (if profile then s_ "--profile" else [])) c)).
Definition resolve_job_script (y : system) (workdir finaldir : str) (c : list (str * val)) : res str :=
  rbind (prepare y workdir finaldir c) (fun c => match y_script y with Some s => format s c | None => Err KeyError end).
End Env.
End Show.

(** * The default systems *)
Definition text (lines : list string) : str := flat_map (fun l => s_ l ++ [nl]) lines.
Definition slurm_script : str := text [
"#!/bin/bash"; "#SBATCH --account={account:s}"; "#SBATCH --nodes={nodes:d}";
"#SBATCH --ntasks-per-node={pernode:d} # number of MPI processes";
"#SBATCH --cpus-per-task={ompnum:d} # number of OpenMP processes";
"#SBATCH --mem={mem:s} # memory per node"; "#SBATCH --time={time:s}"; "#SBATCH --job-name={name:s}"; "";
"# exit if a command returns non-zero code"; "set -e"; "";
"# set status to crashed upon non-zero status of command";
"function setCrashed {{"; "    echo CRASHED > {statuspath:s}"; "}}"; ""; "trap setCrashed ERR"; "";
"echo RUNNING > {statuspath:s}"; ""; "{modules:s}"; ""; "source {venv:s}"; "";
"cd {workdir:s}"; "export OMP_NUM_THREADS=$SLURM_CPUS_PER_TASK"; "";
"# Try to keep threads together - this is usually more optimal"; "# for computationaly intensive tasks";
"export OMP_PROC_BIND=close"; "export OMP_PLACES=cores"; "";
"{invoke:s} {invoke_args:s} caput-pipeline run {profile:s} {profiler:s} {psutil:s} {configpath:s} &> {logpath:s}"; "";
"# Set the status"; "echo FINISHED > {statuspath:s}"; "";
"# If the job was successful, then move the output to its final location";
"if [ {usetemp:d} -eq 1 ]"; "then"; "    mkdir -p $(dirname ""{finaldir:s}"")"; "    mv ""{workdir:s}"" ""{finaldir:s}"""; "fi"]%string.
Definition pbs_script : str := text [
"#!/bin/bash"; "#PBS -l nodes={nodes:d}:ppn={ppn:d}"; "#PBS -q {queue:s}"; "#PBS -r n"; "#PBS -m abe"; "#PBS -V";
"#PBS -l walltime={time:s}"; "#PBS -N {name:s}"; "";
"# exit if a command returns non-zero code"; "set -e"; "";
"# set status to crashed upon non-zero status of command";
"function setCrashed {{"; "    echo CRASHED > {statuspath:s}"; "}}"; ""; "trap setCrashed ERR"; "";
"{module:s}"; ""; "source {venv:s}"; "";
"cd {workdir:s}"; "export OMP_NUM_THREADS={ompnum:d}"; "";
"{invoke:s} {invoke_args:s} caput-pipeline run {configpath:s} &> {logpath:s}"; "";
"# Set the status"; "echo FINISHED > {statuspath:s}"; "";
"# If the job was successful, then move the output to its final location";
"if [ {usetemp:d} -eq 1 ]"; "then"; "    mkdir -p $(dirname ""{finaldir:s}"")"; "    mv ""{workdir:s}"" ""{finaldir:s}"""; "fi"]%string.
Definition slurm : system := mksys (Some slurm_script) (Some (s_ "sbatch")) (Some (s_ "srun")) (Some [])
  (map s_ ["name"; "nodes"; "time"; "mem"; "directory"; "ompnum"; "pernode"; "account"]%string)
  (Some (map s_ ["BEGIN"; "END"; "FAIL"; "REQUEUE"; "ALL"]%string)).
Definition pbs : system := mksys (Some pbs_script) (Some (s_ "qsub")) (Some (s_ "mpirun")) (Some (s_ "-np {mpiproc:d} -npernode {pernode:d} -bind-to none"))
  (map s_ ["name"; "nodes"; "time"; "directory"; "ppn"; "queue"]%string)
  (Some (map s_ ["a"; "b"; "e"; "ab"; "ae"; "ba"; "be"; "ea"; "eb"; "abe"; "aeb"; "bae"; "bea"; "eab"; "eba"]%string)).
Definition default_systems : list (str * system) := [(s_ "slurm", slurm); (s_ "pbs", pbs)].

(** * Jobs *)
(** The job directories there are, by working directory, with the contents of
    their STATUS file. *)
Definition jobs := list (str * option str).
Fixpoint infix (a s : str) : bool := startswith a s || match s with [] => false | _ :: s => infix a s end.
(** [_create_job_directories], lines 327-371: whether to go on, and the
    directories afterwards. *)
Definition create_job_directories (fs : jobs) (workdir overwrite : str) : bool * jobs :=
  match dget workdir fs with
  | Some st =>
      if seqb overwrite (s_ "never") then (false, fs)
      else if seqb overwrite (s_ "failed") && match st with Some c => infix (s_ "FINISHED") c | None => false end then (false, fs)
      else (true, fs)
  | None => (true, dput workdir None fs)
  end.
Record job := mkjob { j_dir : str; j_temp : option str }.
Definition workdir (j : job) : str := match j_temp j with Some t => t | None => j_dir j end.
(** Lines 247-266: the mail options, [None] for those without mail. *)
Definition mail_options (y : system) (email mailtype : option str) : res unit :=
  match email, y_mail y with
  | Some _, Some types => match mailtype with
                          | Some t => if existsb (seqb t) types then Ok tt else Err ValueError
                          | None => Err ValueError
                          end
  | _, _ => Ok tt
  end.
(** [queue] from line 222 on: directories afterwards, whether the job was
    submitted, the outcome.  [script] is the outcome of writing the job script. *)
Definition queue (fs : jobs) (j : job) (overwrite : str) (script mail : res unit) (submit : bool) : jobs * bool * res unit :=
  let '(go, fs) := create_job_directories fs (workdir j) overwrite in
  if go then match script, mail with
             | Err e, _ => (fs, false, Err e)
             | Ok _, Err e => (fs, false, Err e)
             | Ok _, Ok _ => (fs, submit, Ok tt)
             end
  else (fs, false, Ok tt).
(** What the job does, from the scripts. *)
Inductive event := Queue (j : job) (overwrite : str) (script mail : res unit) (submit : bool) | Start (j : job) | Crash (j : job) | Finish (j : job).
Definition line (s : string) : str := s_ s ++ [nl].
Definition step (fs : jobs) (e : event) : jobs * option str :=
  match e with
  | Queue j o s m b => let '(fs, sub, _) := queue fs j o s m b in (fs, if sub then Some (workdir j) else None)
  | Start j => (dput (workdir j) (Some (line "RUNNING")) fs, None)
  | Crash j => (dput (workdir j) (Some (line "CRASHED")) fs, None)
  | Finish j =>
      let fs := dput (workdir j) (Some (line "FINISHED")) fs in
      (if seqb (j_dir j) (workdir j) then fs
       else let fs' := ddel (workdir j) fs in
            match dget (j_dir j) fs with Some _ => fs' | None => dput (j_dir j) (Some (line "FINISHED")) fs' end, None)
  end.
(** The directories submitted, in order. *)
Fixpoint history (fs : jobs) (es : list event) : jobs * list str :=
  match es with
  | [] => (fs, [])
  | e :: es => let '(fs, s) := step fs e in let '(fs, l) := history fs es in (fs, match s with Some d => d :: l | None => l end)
  end.

(** * Virtual environments, _core.py 164-199 *)
(** Line 185: the directory added, given [sys.version]. *)
Definition site_packages (base version : str) : str := base ++ s_ "/lib/python" ++ firstn 3 version ++ s_ "/site-packages".
(** [list.remove] *)
Fixpoint remove_first (x : str) (l : list str) : list str :=
  match l with [] => [] | y :: l => if seqb y x then l else y :: remove_first x l end.
(** Lines 192-199: [path] is [sys.path] after [addsitedir]. *)
Fixpoint move_new (items prev path new : list str) : list str :=
  match items with
  | [] => new ++ path
  | x :: items => if existsb (seqb x) prev then move_new items prev path new else move_new items prev (remove_first x path) (new ++ [x])
  end.
Definition load_venv (prev path : list str) : list str := move_new path prev path [].
