(** Container tasks, /repo/caput/pipeline/tasklib/base.py: [_log_level]
    (30-64), [ContainerTask.next] (334-388), [finish] (390-417),
    [_process_output] (419-444), [_save_output] (446-529), [_nan_process_output]
    (531-554), [_interpolation_dict] (556-577), [_nan_check_walk] (579-628),
    [group_tasks] (646-694).

    Containers are their attributes and a tree of datasets, here and on the other
    ranks.  Format strings are
    lists of literal texts and variables (no conversions or format
    specifications).  Left out: compression settings, history, messages,
    expansion of ~ and $ in file names, the [done] flag (never set by this class). *)
From Coq Require Import String.
From Coq Require Import List Ascii Bool Arith ZArith.
From Verif Require Import PyBase PyStr MemModel AttrModel GlobModel.
Import ListNotations.
Open Scope list_scope.
Open Scope nat_scope.

(** * Values and formats *)
Inductive aval := VText (s : str) | VNum (n : nat) | VTags (l : list str) | VAny (n : nat).
Inductive piece := Lit (s : str) | Var (name : str).
Definition fstring := list piece.

(** A tree of groups and datasets; numbers are finite or not; a dataset of
    another type cannot be tested. *)
Inductive number := Finite | NaN | Inf.
Inductive node := DNum (l : list number) | DCompound (l : list number) | Grp (items : list node).

Record cont := mkcont { c_attrs : list (str * aval); c_data : node; c_others : list node }.
Inductive obj := Cont (c : cont) | NotCont.
Definition set_attr (k : str) (v : aval) (c : cont) : cont := mkcont (dput k v (c_attrs c)) (c_data c) (c_others c).

Section Task.
(** [str] and [format] of other values *)
Variable show_any : aval -> str.
Definition show (v : aval) : str := match v with VText s => s | VNum n => decimal n | _ => show_any v end.
Fixpoint format (f : fstring) (d : list (str * aval)) : res str :=
  match f with
  | [] => Ok []
  | Lit s :: f => rbind (format f d) (fun r => Ok (s ++ r))
  | Var n :: f => match dget n d with
                  | None => Err KeyError
                  | Some v => rbind (format f d) (fun r => Ok (show v ++ r))
                  end
  end.

Record config := mkconfig {
  t_class : str; t_tag : fstring; t_attrs : list (str * (fstring + aval));
  t_save : bool + list bool; t_name : fstring + list fstring; t_root : str;
  t_nan_check : bool; t_nan_skip : bool; t_nan_dump : bool; t_out_keys : list str }.
Variable cfg : config.

(** * Non-finite numbers *)
Definition bad (x : number) : bool := match x with Finite => false | _ => true end.
(** [_nan_check_walk], lines 579-625, on one rank: the last node of the stack
    first; groups push their items. *)
Fixpoint walk (fuel : nat) (stack : list node) : bool :=
  match fuel with
  | O => false
  | S fuel =>
      match stack with
      | [] => false
      | DNum l :: rest => if existsb bad l then true else walk fuel rest
      | DCompound _ :: rest => walk fuel rest
      | Grp items :: rest => walk fuel (rev items ++ rest)
      end
  end.
Fixpoint size (n : node) : nat := match n with DNum _ | DCompound _ => 1 | Grp items => S (fold_right (fun m s => size m + s) 0 items) end.
Definition nan_local (n : node) : bool := walk (S (size n)) [n].
(** Line 628: the maximum over the ranks, one tree per rank. *)
Definition nan_check_walk (trees : list node) : bool := existsb nan_local trees.
Definition nan_found (c : cont) : bool := nan_check_walk (c_data c :: c_others c).

(** * Tags and names *)
(** Lines 348-352 *)
Definition input_tag (o : obj) : str :=
  match o with
  | NotCont => []
  | Cont c => match dget (s_ "tag") (c_attrs c) with None => s_ "None" | Some v => show v end
  end.
(** [_interpolation_dict], lines 556-577 *)
Definition tag_value (count : nat) (attrs : list (str * aval)) : aval :=
  match dget (s_ "tag") attrs with
  | Some v => v
  | None => match dget (s_ "input_tags") attrs with
            | Some (VTags (t :: _)) => VText t
            | _ => VNum count
            end
  end.
Definition idict (count : nat) (c : cont) (ii : nat) : res (list (str * aval)) :=
  rbind (match t_out_keys cfg with [] => Ok [] | keys => match nth_error keys ii with Some k => Ok k | None => Err IndexError end end) (fun key =>
  Ok (dput (s_ "output_root") (VText (t_root cfg)) (dput (s_ "key") (VText key) (dput (s_ "task") (VText (t_class cfg))
     (dput (s_ "count") (VNum count) (dput (s_ "tag") (tag_value count (c_attrs c)) (c_attrs c))))))).
(** Lines 428-436 *)
Definition attrs_to_set : list (str * (fstring + aval)) := dput (s_ "tag") (inl (t_tag cfg)) (t_attrs cfg).
Fixpoint set_attrs (l : list (str * (fstring + aval))) (d : list (str * aval)) (c : cont) : res cont :=
  match l with
  | [] => Ok c
  | (k, inl f) :: l => rbind (format f d) (fun s => set_attrs l d (set_attr k (VText s) c))
  | (k, inr v) :: l => set_attrs l d (set_attr k v c)
  end.
(** Lines 490-529: the file written. *)
Definition save_file (count : nat) (c : cont) (ii : nat) : res (list str) :=
  rbind (match t_save cfg with inl b => Ok b | inr l => match nth_error l ii with Some b => Ok b | None => Err IndexError end end) (fun save =>
  if save then
    rbind (idict count c ii) (fun d =>
    rbind (match t_name cfg with inl f => Ok f | inr l => match nth_error l ii with Some f => Ok f | None => Err IndexError end end) (fun f =>
    rbind (format f d) (fun name => Ok [name])))
  else Ok []).
Definition dump_name (count : nat) (c : cont) : str :=
  s_ "nandump_" ++ t_class cfg ++ s_ "_" ++ show (match dget (s_ "tag") (c_attrs c) with Some v => v | None => VNum count end) ++ s_ ".h5".
(** [_process_output], lines 419-444: what is passed on and the files written. *)
Definition process_output (count : nat) (o : obj) (ii : nat) : res (option cont * list str) :=
  match o with
  | NotCont => Err PipelineRuntimeError
  | Cont c =>
      rbind (idict count c ii) (fun d =>
      rbind (set_attrs attrs_to_set d c) (fun c =>
      let found := t_nan_check cfg && nan_found c in
      let dump := if found && t_nan_dump cfg then [dump_name count c] else [] in
      if found && t_nan_skip cfg then Ok (None, dump)
      else rbind (save_file count c ii) (fun f => Ok (Some c, dump ++ f))))
  end.
Fixpoint process_outputs (count : nat) (os : list obj) (ii : nat) : res (list (option cont) * list str) :=
  match os with
  | [] => Ok ([], [])
  | o :: os => rbind (process_output count o ii) (fun '(c, w) => rbind (process_outputs count os (S ii)) (fun '(cs, ws) => Ok (c :: cs, w ++ ws)))
  end.
(** What [process] returns, and what [next] does. *)
Inductive pout := PNone | POne (o : obj) | PTuple (l : list obj).
Inductive nout := NNone | NOne (c : option cont) | NTuple (l : list (option cont)).
(** Lines 372-373 *)
Fixpoint set_input_tags (tags : list str) (os : list obj) : res (list obj) :=
  match os with
  | [] => Ok []
  | Cont c :: os => rbind (set_input_tags tags os) (fun r => Ok (Cont (set_attr (s_ "input_tags") (VTags tags) c) :: r))
  | NotCont :: os => Err AttributeError
  end.
Definition wrap (cs : list (option cont)) : res nout :=
  match cs with [] => Err IndexError | [c] => Ok (NOne c) | _ => Ok (NTuple cs) end.
(** [next], lines 334-388, where [process] returns [p]: output, files written,
    new [_count]. *)
Definition next (p : pout) (count : nat) (input : list obj) : res (nout * list str * nat) :=
  match p with
  | PNone => Ok (NNone, [], count)
  | _ =>
      let os := match p with POne o => [o] | PTuple l => l | PNone => [] end in
      rbind (set_input_tags (map input_tag input) os) (fun os =>
      rbind (process_outputs count os 0) (fun '(cs, ws) =>
      rbind (wrap cs) (fun out => Ok (out, ws, S count))))
  end.
(** [finish], lines 390-417, with a [process_finish]. *)
Definition finish (p : pout) (count : nat) : res (nout * list str) :=
  match p with
  | PNone => Ok (NNone, [])
  | _ =>
      let os := match p with POne o => [o] | PTuple l => l | PNone => [] end in
      rbind (process_outputs count os 0) (fun '(cs, ws) => rbind (wrap cs) (fun out => Ok (out, ws)))
  end.
(** A run, given what [process] returns and its inputs: the files written by
    every call. *)
Fixpoint run (count : nat) (calls : list (pout * list obj)) : res (list (list str)) :=
  match calls with
  | [] => Ok []
  | (p, i) :: rest => rbind (next p count i) (fun '(_, w, count) => rbind (run count rest) (fun ws => Ok (w :: ws)))
  end.
End Task.

(** * Logging levels, lines 30-64 *)
Inductive lval := LInt (z : Z) | LStr (s : str) | LOther.
Definition level_dict : list (str * Z) :=
  [(s_ "DEBUG", 10%Z); (s_ "INFO", 20%Z); (s_ "WARN", 30%Z); (s_ "WARNING", 30%Z); (s_ "ERROR", 40%Z); (s_ "CRITICAL", 50%Z)].
Definition upper_char (c : ascii) : ascii :=
  let n := nat_of_ascii c in if (97 <=? n) && (n <=? 122) then ascii_of_nat (n - 32) else c.
Definition upper (s : str) : str := map upper_char s.
Definition log_level (x : lval) : res Z :=
  match x with
  | LInt z => Ok z
  | LStr s => match dget s level_dict with
              | Some _ => match dget (upper s) level_dict with Some l => Ok l | None => Err KeyError end
              | None => Err ValueError
              end
  | LOther => Err ValueError
  end.

(** * Task groups, lines 646-694 *)
Section Group.
Context {V S : Type}.
(** A subtask: number of setup arguments, setup and process on shared state. *)
Record subtask := mksub { s_nargs : nat; s_setup : list V -> S -> res S; s_process : V -> S -> res (V * S) }.
Fixpoint group_setup (tasks : list subtask) (args : list V) (st : S) : res S :=
  match tasks with
  | [] => Ok st
  | t :: tasks => rbind (s_setup t (firstn (s_nargs t) args) st) (group_setup tasks (skipn (s_nargs t) args))
  end.
Fixpoint group_process (tasks : list subtask) (x : V) (st : S) : res (V * S) :=
  match tasks with
  | [] => Ok (x, st)
  | t :: tasks => rbind (s_process t x st) (fun '(y, st) => group_process tasks y st)
  end.
End Group.
