(** Model of how a pipeline is made from its configuration:
    /repo/caput/pipeline/_pipeline.py lines 42-77, 140-149, 179-249, 502-517
    and 555-684, and /repo/caput/util/importtools.py. *)
From Coq Require Import String.
From Coq Require Import List Ascii Bool Arith ZArith.
From Verif Require Import PyBase PyStr MemModel.
Import ListNotations.
Open Scope list_scope.
Open Scope nat_scope.

(** What YAML documents contain.  A mapping is a [_line_dict] with the number
    of its line (config.py lines 527-548), or a dictionary without; its keys are
    strings here.  Those the loader returns have no line, see [LnModel]. *)
Inductive yv :=
| YNull | YBool (b : bool) | YInt (z : Z) | YStr (s : str) | YList (l : list yv)
| YDict (line : option nat) (d : list (str * yv)).

Inductive kind := ConfigError | KeyErr | AttributeErr | ModuleMissing | TypeErr | ValueErr | OtherErr.
(** An exception; only a [CaputConfigError] has a line. *)
Record error := mkerror { e_kind : kind; e_line : option nat }.
Definition plain (k : kind) : error := mkerror k None.
Inductive lres (A : Type) := Good (a : A) | Bad (e : error).
Arguments Good {A}. Arguments Bad {A}.
Definition lbind {A B} (x : lres A) (f : A -> lres B) : lres B :=
  match x with Good a => f a | Bad e => Bad e end.
(** config.py lines 565-574: the line of [CaputConfigError(…, location=v)]. *)
Definition location (v : yv) : option nat := match v with YDict n _ => n | _ => None end.

Definition cls := nat.
(** A module: its attributes and its version. *)
Record pymodule := mkmodule { m_attr : str -> option cls; m_version : option str }.
(** What can be imported, the classes in [local_tasks], the globals of
    importtools, and what instantiating a class with parameters and setting up
    its keys gives. *)
Record world := mkworld {
  w_module : str -> option pymodule;
  w_local : str -> option cls;
  w_globals : str -> option cls;
  w_build : cls -> list (str * yv) -> lres nat;
  w_keys : nat -> list (str * yv) -> lres unit }.

Definition dot : ascii := "."%char.
(** [importlib.import_module]: a relative name needs a package. *)
Definition import_module (w : world) (name : str) : lres pymodule :=
  if startswith [dot] name then Bad (plain TypeErr)
  else match w_module w name with Some m => Good m | None => Bad (plain ModuleMissing) end.
(** importtools.py lines 12-35, [import_class]. *)
Definition import_class (w : world) (class_path : str) : lres cls :=
  let path := split dot class_path in
  let module_path := join dot (removelast path) in
  let class_name := last path [] in
  match module_path with
  | _ :: _ => lbind (import_module w module_path) (fun m =>
                match m_attr m class_name with Some c => Good c | None => Bad (plain AttributeErr) end)
  | [] => match w_globals w class_name with Some c => Good c | None => Bad (plain KeyErr) end
  end.

(** Lines 42-77, [_get_versions].  (A module that fails while it is imported
    is left out.) *)
Fixpoint versions_loop (w : world) (modules : list yv) (acc : list (str * str)) : lres (list (str * str)) :=
  match modules with
  | [] => Good acc
  | YStr m :: t =>
      match import_module w m with
      | Bad e => Bad (match e_kind e with ModuleMissing => plain ConfigError | _ => e end)
      | Good md => match m_version md with
                   | Some v => versions_loop w t (dput m v acc)
                   | None => Bad (plain AttributeErr)
                   end
      end
  | _ :: _ => Bad (plain ConfigError)
  end.
Definition get_versions (w : world) (modules : yv) : lres (list (str * str)) :=
  match modules with
  | YStr s => versions_loop w [YStr s] []
  | YList l => versions_loop w l []
  | _ => Bad (plain ConfigError)
  end.

(** [d.update(e)] *)
Definition update (d e : list (str * yv)) : list (str * yv) :=
  fold_left (fun d kv => dput (fst kv) (snd kv) d) e d.
(** [params.update(v)] for a value found in the document: a mapping, or an
    empty sequence; anything else is a [TypeError] or [ValueError].
    Simplified: sequences of pairs are left out. *)
Definition update_with (d : list (str * yv)) (v : yv) : lres (list (str * yv)) :=
  match v with
  | YDict _ e => Good (update d e)
  | YList [] | YStr [] => Good d
  | YNull | YBool _ | YInt _ => Bad (plain TypeErr)
  | _ => Bad (plain ValueErr)
  end.

Definition spec_keys : list str := [s_ "type"; s_ "params"; s_ "requires"; s_ "in"; s_ "out"].
(** Lines 582-594: the class of a task. *)
Definition find_class (w : world) (task_path : yv) : lres cls :=
  match task_path with
  | YList _ | YDict _ _ => Bad (plain TypeErr)            (* not hashable *)
  | YStr s =>
      match w_local w s with
      | Some c => Good c
      | None => match import_class w s with
                | Good c => Good c
                | Bad e => Bad (match e_kind e with
                                | ConfigError | AttributeErr | ModuleMissing => plain ConfigError
                                | _ => e end)
                end
      end
  | _ => Bad (plain ConfigError)                          (* no attribute split *)
  end.
(** Lines 612-618: one parameter group. *)
Definition add_group (all_params : list (str * yv)) (acc : lres (list (str * yv))) (key : yv) : lres (list (str * yv)) :=
  lbind acc (fun d =>
  match key with
  | YStr k => match dget k all_params with Some v => update_with d v | None => Bad (plain ConfigError) end
  | YList _ | YDict _ _ => Bad (plain TypeErr)
  | _ => Bad (plain ConfigError)
  end).
(** Lines 597-618: the parameters of a task. *)
Definition spec_params (all_params : list (str * yv)) (task_spec : list (str * yv)) : lres (list (str * yv)) :=
  match dget (s_ "params") task_spec with
  | None => Good []
  | Some (YDict _ d) => Good (update [] d)
  | Some (YList l) => fold_left (add_group all_params) l (Good [])
  | Some k => fold_left (add_group all_params) [k] (Good [])
  end.
(** Lines 555-633, [_get_task_from_spec], for a specification which is a
    mapping with [line]. *)
Definition get_task (w : world) (all_params global : list (str * yv)) (line : option nat) (task_spec : list (str * yv)) : lres nat :=
  if negb (forallb (fun kv => existsb (seqb (fst kv)) spec_keys) task_spec) then Bad (plain ConfigError) else
  match dget (s_ "type") task_spec with
  | None => Bad (plain ConfigError)
  | Some task_path =>
      lbind (find_class w task_path) (fun c =>
      lbind (spec_params all_params task_spec) (fun params =>
      match w_build w c (update global params) with
      | Good t => Good t
      | Bad e => Bad (match e_kind e with
                      | ConfigError => mkerror ConfigError
                          (location (match dget (s_ "params") task_spec with Some p => p | None => YDict line task_spec end))
                      | _ => e end)
      end))
  end.

(** Lines 657-671, [_check_duplicate]. *)
Definition dget_default (k : str) (default : option yv) (d : list (str * yv)) : option yv :=
  match dget k d with Some v => Some v | None => default end.
Definition given (v : option yv) : option yv := match v with Some YNull => None | _ => v end.
Definition check_duplicate (key0 key1 : str) (d0 d1 : list (str * yv)) : lres (option yv) :=
  let val0 := given (dget_default key0 (dget key1 d0) d0) in
  let val1 := given (dget_default key0 (dget key1 d1) d1) in
  match val0, val1 with
  | None, _ => Good val1
  | _, None => Good val0
  | Some _, Some _ => Bad (plain ValueErr)
  end.
(** Lines 635-684, [add_task], up to the keys handed to [_setup_keys]:
    requires, in and out. *)
Definition task_keys (task_spec kwargs : list (str * yv)) : lres (option yv * option yv * option yv) :=
  lbind (check_duplicate (s_ "requires") (s_ "requires") task_spec kwargs) (fun requires =>
  lbind (check_duplicate (s_ "in") (s_ "in_") task_spec kwargs) (fun in_ =>
  lbind (check_duplicate (s_ "out") (s_ "out") task_spec kwargs) (fun out =>
  Good (requires, in_, out)))).
(** The whole: errors of [_setup_keys] of every kind become configuration
    errors (lines 677-681). *)
Definition add_task (w : world) (t : nat) (task_spec kwargs : list (str * yv)) : lres unit :=
  lbind (task_keys task_spec kwargs) (fun _ =>
  match w_keys w t task_spec with Good _ => Good tt | Bad _ => Bad (plain ConfigError) end).

(** Lines 507-517, the loop of [_setup_tasks] over specifications that are
    mappings. *)
Fixpoint setup_tasks (w : world) (all_params global : list (str * yv)) (specs : list (option nat * list (str * yv))) : lres (list nat) :=
  match specs with
  | [] => Good []
  | (line, spec) :: rest =>
      match lbind (get_task w all_params global line spec) (fun t =>
            lbind (add_task w t spec []) (fun _ => Good t)) with
      | Good t => lbind (setup_tasks w all_params global rest) (fun ts => Good (t :: ts))
      | Bad e => Bad (match e_kind e with
                      | ConfigError => mkerror ConfigError (match e_line e with
                                                            | None => line
                                                            | Some _ => None  (* an [int] is not a [_line_dict] *)
                                                            end)
                      | _ => e end)
      end
  end.

(** Lines 199-211: the section of the pipeline. *)
Definition pipeline_section (doc : yv) : lres (option nat * list (str * yv)) :=
  match doc with
  | YDict n d => match dget (s_ "pipeline") d with
                 | None => Bad (plain KeyErr)
                 | Some (YDict m p) => Good (m, p)
                 | Some _ => Bad (mkerror ConfigError n)
                 end
  | _ => Bad (plain ConfigError)
  end.
(** Lines 217-220: [all_tasks_params]. *)
Definition all_tasks_params (versions : list (str * str)) (save_config : bool) (doc : yv) : list (str * yv) :=
  [(s_ "versions", YDict None (map (fun kv => (fst kv, YStr (snd kv))) versions));
   (s_ "pipeline_config", if save_config then doc else YNull)].

(** ** The pattern for keys *)

Definition default_pattern : str := s_ "[^\W_]".
(** Lines 130, 140-149 and config.py lines 211-231: [from_config] makes the
    manager, which compiles the pattern, and then reads the configuration. *)
Record manager := mkmanager { key_pattern : str; key_match : str }.
Definition init_manager : manager := mkmanager default_pattern default_pattern.
Definition read_config (m : manager) (section : list (str * yv)) : manager :=
  match dget (s_ "key_pattern") section with
  | Some (YStr p) => mkmanager p (key_match m)
  | _ => m
  end.
Definition manager_from_config (section : list (str * yv)) : manager := read_config init_manager section.

(** ** Log levels *)

(** Lines 227-249, [_setup_logging]: [configured] is the value of [logging] in
    the instance, if it was read from a configuration.  Without it the
    property makes a new dictionary at every access (config.py lines 115-116),
    so that the assignment of line 242 is lost.  The calls of [setLevel]. *)
Definition default_logging : list (str * str) := [(s_ "root", s_ "WARNING")].
Definition setup_logging (configured : option (list (str * str))) (lint : bool) : list (str * str) :=
  let get := match configured with Some d => d | None => default_logging end in
  if lint || (match dget (s_ "root") get with None => true | Some _ => false end)
  then match configured with
       | Some d => dput (s_ "root") (s_ "INFO") d
       | None => default_logging
       end
  else get.
