(** Model of /repo/caput/pipeline/extensions: the tasks [Input] and [Output]
    (_pytools.py, 17-70), the deprecated base classes [_OneAndOne], [SingleBase],
    [IterBase] (_extensions.py, 30-296) and what the mixins do to write a file
    (_extensions.py, 298-513).

    [Input] and [Output] are behaviours of the pipeline of PipeModel.  For the
    base classes the methods that a subclass overrides ([process], [read_input],
    [write_output], [cast_input]) and the file system are parameters; what is
    read, created and written is recorded in order.

    Simplified: [process] may keep a private state but does not touch the
    attributes of the base class; the list given to [Input] does not change
    while it is iterated over.  Not modelled: logging. *)
From Coq Require Import String.
From Coq Require Import List Ascii Bool Arith ZArith.
From Verif Require Import PyBase PyStr PipeModel FmtModel.
Import ListNotations.
Open Scope list_scope.
Open Scope nat_scope.

(** * _pytools.py *)
Section Tools.
Context {V : Type}.
Notation pv := (pv V).

(** [Input], lines 17-43: the state is what the iterator has left.  [setup] and
    [finish] are those of [Task] and return [None]. *)
Definition input_beh : beh V (list pv) := mkbeh
  (fun s _ => (s, Ret PNone))
  (fun s a => match a with
              | [] => match s with
                      | [] => ([], Stop)
                      | x :: r => (r, Ret x)
                      end
              | _ => (s, Raise TypeError)
              end)
  (fun s => (s, Ret PNone)).

(** [Output], lines 46-79: the state is [self.outputs]. *)
Definition output_beh (callback : option (pv -> pv)) : beh V (list pv) := mkbeh
  (fun s _ => (s, Ret PNone))
  (fun s a => match a with
              | [v] => (s ++ [match callback with Some f => f v | None => v end], Ret PNone)
              | _ => (s, Raise TypeError)
              end)
  (fun s => (s, Ret PNone)).

(** A task of the user which overrides only [next], by a function of its one
    argument. *)
Definition stage (f : pv -> pv) : beh V (list pv) := mkbeh
  (fun s _ => (s, Ret PNone))
  (fun s a => match a with
              | [v] => (s, Ret (f v))
              | _ => (s, Raise TypeError)
              end)
  (fun s => (s, Ret PNone)).

(** The configuration [Input -> f1 -> ... -> fn -> Output]: of each task the
    function, the key of its output and its [base_priority]. *)
Fixpoint stages (cb : option (pv -> pv)) (pout : Z) (k : str) (fs : list ((pv -> pv) * str * Z))
  : list (tconf V (list pv) * list pv) :=
  match fs with
  | [] => [(mkconf (KOne k) (KMany []) (KMany []) (output_beh cb) None pout, [])]
  | (f, k', p) :: r =>
      (mkconf (KOne k) (KMany []) (KOne k') (stage f) None p, []) :: stages cb pout k' r
  end.
Definition chain (xs : list pv) (cb : option (pv -> pv)) (pin pout : Z) (k : str)
    (fs : list ((pv -> pv) * str * Z)) : list (tconf V (list pv) * list pv) :=
  (mkconf (KMany []) (KMany []) (KOne k) input_beh None pin, xs) :: stages cb pout k fs.
End Tools.

(** * _extensions.py *)

(** [inspect.getfullargspec(self.process)]: the positional arguments without
    [self]; whether there are [*args], [**kwargs], keyword-only arguments,
    defaults. *)
Record procspec := mkproc {
  p_nargs : nat; p_varargs : bool; p_varkw : bool; p_kwonly : bool; p_defaults : bool }.

(** The settings of a task, lines 37-39. *)
Record iocfg := mkio { input_root : str; output_root : str }.
Definition none_ := s_ "None".

(** [_OneAndOne.__init__], lines 41-48 *)
Definition no_input (p : procspec) : bool := p_nargs p =? 0.

(** [_OneAndOne.validate], lines 56-103; [n_in] is the number of [in] keys. *)
Definition validate (c : iocfg) (p : procspec) (n_in : nat) : res unit :=
  if 1 <? p_nargs p then Err CaputConfigError
  else if (p_varargs p || p_varkw p || p_kwonly p || p_defaults p)%bool then Err CaputConfigError
  else if seqb (input_root c) none_
  then if n_in =? p_nargs p then Ok tt else Err CaputConfigError
  else if negb (n_in =? 0) then Err CaputConfigError
  else if negb (p_nargs p =? 1) then Err CaputConfigError
  else Ok tt.

Section Base.
Context {V U : Type}.

(** What a task does to the file system, in order. *)
Inductive eff := ERead (f : str) | EMkdir (d : str) | EWrite (f : str) (v : V).

(** The methods of the subclass and the operating system: [process] is called
    with or without an argument; [bool(x)] of an object can raise. *)
Record env := mkenv {
  e_process : U -> option V -> U * res (option V);
  e_read : str -> res V;
  e_write : str -> V -> res unit;
  e_cast : V -> res V;
  e_truth : V -> res bool;
  e_isdir : str -> bool;
  e_mkdir : str -> res unit;
  e_expand : str -> str }.

(** [os.path.dirname]: what precedes the last slash, without the slashes at its
    end unless there is nothing else. *)
Fixpoint drop_slashes (r : str) : str :=
  match r with
  | c :: t => if ceqb c "/"%char then drop_slashes t else r
  | [] => []
  end.
Fixpoint upto_slash (r : str) : str :=
  match r with
  | c :: t => if ceqb c "/"%char then r else upto_slash t
  | [] => []
  end.
Definition dirname (f : str) : str :=
  let h := upto_slash (rev f) in
  match drop_slashes h with
  | [] => rev h
  | h' => rev h'
  end.

(** [os.makedirs]; of nothing, a [FileNotFoundError]. *)
Definition makedirs (E : env) (d : str) : res unit :=
  match d with [] => Err FileNotFoundError | _ => e_mkdir E d end.

(** [read_process_write], lines 105-142 *)
Definition write_part (E : env) (c : iocfg) (output : option V) (outfile : option str)
  : list eff * res (option V) :=
  match output with
  | Some v =>
      if negb (seqb (output_root c) none_)
      then match outfile with
           | None => ([], Err RuntimeError)
           | Some f =>
               let f := e_expand E (output_root c ++ f) in
               let d := dirname f in
               let write := match e_write E f v with
                            | Ok _ => ([EWrite f v], Ok output)
                            | Err e => ([], Err e)
                            end in
               if negb (e_isdir E d)
               then match makedirs E d with
                    | Ok _ => (EMkdir d :: fst write, snd write)
                    | Err e => ([], Err e)
                    end
               else write
           end
      else ([], Ok output)
  | None => ([], Ok None)
  end.
Definition process_part (E : env) (c : iocfg) (noin : bool) (u : U) (input : option V)
    (outfile : option str) : U * (list eff * res (option V)) :=
  if (noin && match input with Some _ => true | None => false end)%bool then (u, ([], Err RuntimeError))
  else match e_process E u (if noin then None else input) with
       | (u', Ok output) => (u', write_part E c output outfile)
       | (u', Err e) => (u', ([], Err e))
       end.
Definition read_process_write (E : env) (c : iocfg) (noin : bool) (u : U) (input : option V)
    (infile outfile : option str) : U * (list eff * res (option V)) :=
  match input, noin with
  | None, false =>
      match infile with
      | None => (u, ([], Err RuntimeError))
      | Some f =>
          let f := e_expand E (input_root c ++ f) in
          match e_read E f with
          | Ok v => let '(u', (l, r)) := process_part E c noin u (Some v) outfile in
                    (u', (ERead f :: l, r))
          | Err e => (u, ([ERead f], Err e))
          end
      end
  | _, _ => process_part E c noin u input outfile
  end.

(** [if input: input = self.cast_input(input)] *)
Definition cast_part (E : env) (input : option V) : res (option V) :=
  match input with
  | None => Ok None
  | Some v => rbind (e_truth E v) (fun b =>
                if b then rbind (e_cast E v) (fun w => Ok (Some w)) else Ok (Some v))
  end.

(** [SingleBase.next], lines 210-221: [done] is there once the first call has
    begun. *)
Definition single_next (E : env) (c : iocfg) (noin : bool) (infile outfile : str)
    (st : bool * U) (input : option V) : (bool * U) * (list eff * res (option V)) :=
  let '(done, u) := st in
  if done then (st, ([], Err PipelineStopIteration))
  else match cast_part E input with
       | Err e => ((true, u), ([], Err e))
       | Ok input => let '(u', x) := read_process_write E c noin u input (Some infile) (Some outfile) in
                     ((true, u'), x)
       end.

(** [IterBase.next], lines 273-296 *)
Record itcfg := mkit { it_io : iocfg; it_middles : list str; it_inext : str; it_outext : str }.
Definition iter_next (E : env) (c : itcfg) (noin : bool) (st : nat * U) (input : option V)
  : (nat * U) * (list eff * res (option V)) :=
  let '(i, u) := st in
  let go infile outfile :=
    match cast_part E input with
    | Err e => (st, ([], Err e))
    | Ok input =>
        let '(u', (l, r)) := read_process_write E (it_io c) noin u input infile outfile in
        ((match r with Ok _ => i + 1 | Err _ => i end, u'), (l, r))
    end in
  match nth_error (it_middles c) i with
  | None => if negb (seqb (input_root (it_io c)) none_)
            then (st, ([], Err PipelineStopIteration))
            else go None None
  | Some m => go (Some (m ++ it_inext c)) (Some (m ++ it_outext c))
  end.

(** Calls one after the other; an exception ends them. *)
Fixpoint iter_calls (E : env) (c : itcfg) (noin : bool) (st : nat * U) (inputs : list (option V))
  : (nat * U) * list (list eff * res (option V)) :=
  match inputs with
  | [] => (st, [])
  | x :: r =>
      let '(st', (l, o)) := iter_next E c noin st x in
      match o with
      | Ok _ => let '(st'', ls) := iter_calls E c noin st' r in (st'', (l, o) :: ls)
      | Err _ => (st', [(l, o)])
      end
  end.
End Base.
Arguments eff : clear implicits.
Arguments env : clear implicits.

(** * The mixins *)
(** What is written out. *)
Inductive obj := OMemGroup | OH5Group | OZarrGroup | OContainer | OOther.

(** The directory, as both mixins make it (lines 359-367 and 491-499): of the
    error of [makedirs] only that is kept which leaves no directory. *)
Definition parent_dir (isdir : str -> bool) (mkdir : str -> res unit) (after : str -> bool) (d : str)
  : list (eff obj) * res unit :=
  if isdir d then ([], Ok tt)
  else match (match d with [] => Err FileNotFoundError | _ => mkdir d end) with
       | Ok _ => ([EMkdir d], Ok tt)
       | Err e => if after d then ([], Ok tt) else ([], Err e)
       end.

(** [GroupIOMixin.write_output], lines 327-411, with both libraries installed.
    [MemGroup] is imported under [TYPE_CHECKING] only (20-22), so the test of
    line 370 is a [NameError]. *)
Definition group_write (isdir : str -> bool) (mkdir : str -> res unit) (after : str -> bool)
    (fmt : res (option format)) (f : str) (o : obj) : list (eff obj) * res unit :=
  match fmt with
  | Err e => ([], Err e)
  | Ok _ =>
      let '(l, r) := parent_dir isdir mkdir after (dirname f) in
      match r with
      | Err e => (l, Err e)
      | Ok _ => (l, Err OtherException)
      end
  end.

(** [ContainerIOMixin.write_output], lines 464-510 *)
Definition container_write (isdir : str -> bool) (mkdir : str -> res unit) (after : str -> bool)
    (save : str -> obj -> res unit) (fmt : res (option format)) (f : str) (o : obj) : list (eff obj) * res unit :=
  match fmt with
  | Err e => ([], Err e)
  | Ok _ =>
      let d := dirname f in
      let '(l, r) := match d with [] => ([], Ok tt) | _ => parent_dir isdir mkdir after d end in
      match r with
      | Err e => (l, Err e)
      | Ok _ => match o with
                | OContainer => match save f o with
                                | Ok _ => (l ++ [EWrite f o], Ok tt)
                                | Err e => (l, Err e)
                                end
                | _ => (l, Err RuntimeError)
                end
      end
  end.
