(** Model of the task pipeline, /repo/caput/pipeline/_pipeline.py: the key
    bookkeeping of tasks (lines 691-714 and 942-1040), their state machine
    (852-924, 1042-1229) and the scheduler of [Manager] (268-553).

    The code of a task ([setup], [next], [finish]) is an arbitrary function of a
    private state and of the arguments, which returns a value, raises
    [PipelineStopIteration] or raises something else.  Products are [None], plain
    objects, tuples or lists.

    Simplified: a plain object has neither a length nor an iterator.  Priorities
    are integers ([1e10] is exact in floating point; so are the sums with any
    [base_priority] below 2^53).  Not modelled: logging, profiling, breakpoints and
    interactive mode (which do not change the state), the debug check whether an
    output is one of the arguments (line 1145), the broadcast of the chosen index
    over MPI (see [CioModel.next_task_on]), [broadcast_inputs] (not
    implemented in the code either), and tasks that change the manager. *)
From Coq Require Import String.
From Coq Require Import List Ascii Bool Arith ZArith.
From Verif Require Import PyBase PyStr.
Import ListNotations.
Open Scope list_scope.
Open Scope nat_scope.

(** * Keys *)

(** What the configuration can hold under [in], [out] or [requires]. *)
Inductive atom := AStr (s : str) | ANone | AInt (z : Z).
Inductive kraw := KAtom (a : atom) | KList (l : list atom) | KTuple (l : list atom).

(** The formatted keys: [(key,)] or a list. *)
Inductive keys := KOne (k : str) | KMany (l : list str).
Definition klist (k : keys) : list str := match k with KOne s => [s] | KMany l => l end.

Fixpoint all_strings (l : list atom) : res (list str) :=
  match l with
  | [] => Ok []
  | AStr s :: t => rbind (all_strings t) (fun r => Ok (s :: r))
  | _ :: _ => Err CaputConfigError
  end.

(** [_format_product_keys], lines 691-714. *)
Definition format_product_keys (k : kraw) : res keys :=
  match k with
  | KAtom ANone => Ok (KMany [])
  | KAtom (AStr s) => Ok (KOne s)
  | KAtom (AInt _) => Err CaputConfigError
  | KTuple _ => Err CaputConfigError
  | KList l => rbind (all_strings l) (fun r => Ok (KMany r))
  end.

(** [inspect.getfullargspec] of a bound method: [nargs] counts [self]. *)
Record argspec := mkargs { nargs : nat; ndefaults : nat; varargs : bool }.

(** Lines 964-1011, for one of the two methods. *)
Definition arity_ok (a : argspec) (n : nat) : res unit :=
  if (Z.of_nat n <? Z.of_nat (nargs a) - Z.of_nat (ndefaults a) - 1)%Z then Err CaputConfigError
  else if ((Z.of_nat (nargs a) - 1 <? Z.of_nat n)%Z && negb (varargs a))%bool
       then Err CaputConfigError
  else Ok tt.

(** * Tasks *)

Section Pipe.
Context {V S : Type}.

Inductive pv := PNone | PObj (v : V) | PTuple (l : list pv) | PList (l : list pv).
Inductive outc := Ret (o : pv) | Stop | Raise (e : exn).

Record beh := mkbeh {
  b_setup : S -> list pv -> S * outc;
  b_next : S -> list pv -> S * outc;
  b_finish : S -> S * outc }.

Record tconf := mkconf {
  c_in : keys; c_req : keys; c_out : keys;
  c_beh : beh; c_limit : option Z; c_base : Z }.

(** [setup], [next], [finish], [raise] *)
Inductive pstate := SSetup | SNext | SFinish | SRaise.

Record task := mktask {
  t_conf : tconf;
  t_user : S;
  t_state : pstate;
  t_requires : option (list pv);
  t_in : option (list (list pv));
  t_num : Z }.

Definition in_keys (t : task) : list str := klist (c_in (t_conf t)).
Definition req_keys (t : task) : list str := klist (c_req (t_conf t)).
Definition out_keys (t : task) : list str := klist (c_out (t_conf t)).

(** [_setup_keys], lines 942-1040.  [setup_spec] and [next_spec] are the
    signatures of the two methods. *)
Definition setup_keys (in_ out requires : kraw) (setup_spec next_spec : argspec)
    (b : beh) (lim : option Z) (base : Z) (s : S) : res task :=
  rbind (format_product_keys requires) (fun r =>
  rbind (format_product_keys in_) (fun i =>
  rbind (format_product_keys out) (fun o =>
  rbind (arity_ok setup_spec (length (klist r))) (fun _ =>
  rbind (arity_ok next_spec (length (klist i))) (fun _ =>
  Ok (mktask (mkconf i r o b lim base) s SSetup
        (Some (repeat PNone (length (klist r)))) (Some (repeat [] (length (klist i)))) 0%Z)))))).

(** The task as left by [_setup_keys]. *)
Definition init_task (cs : tconf * S) : task :=
  mktask (fst cs) (snd cs) SSetup
    (Some (repeat PNone (length (klist (c_req (fst cs))))))
    (Some (repeat [] (length (klist (c_in (fst cs)))))) 0%Z.

Definition is_none (v : pv) : bool := match v with PNone => true | _ => false end.
Definition is_nil {A} (l : list A) : bool := match l with [] => true | _ => false end.

(** [min(..., default=d)] *)
Definition min_default (d : nat) (l : list nat) : nat :=
  match l with [] => d | x :: r => fold_left Nat.min r x end.

(** [_pipeline_is_available], lines 852-871.  A [None] in place of the list of
    queues is a [TypeError]; it does not occur in these states. *)
Definition is_available (t : task) : bool :=
  match t_state t with
  | SSetup => match t_requires t with
              | Some rs => forallb (fun r => negb (is_none r)) rs
              | None => false
              end
  | SNext => match t_in t with
             | Some qs => negb (min_default 0 (map (@length pv) qs) =? 0)
             | None => false
             end
  | _ => true
  end.

(** [_pipeline_priority], lines 873-924. *)
Definition priority (t : task) : Z :=
  (match t_state t with
   | SSetup => match t_requires t with
               | Some rs => if forallb (fun r => negb (is_none r)) rs then 1 else 0
               | None => 0
               end
   | SNext => match t_in t with
              | Some qs => (Z.of_nat (length (in_keys t)) - Z.of_nat (length (out_keys t)))
                           * Z.of_nat (min_default 1 (map (@length pv) qs))
              | None => 0
              end
   | _ => 10000000000
   end + c_base (t_conf t))%Z.

(** [_pipeline_advance_state], lines 1042-1090. *)
Definition advance_state (t : task) : task :=
  match t_state t with
  | SSetup =>
      let missing := match t_requires t with
                     | Some rs => existsb is_none (firstn (length (req_keys t)) rs)
                     | None => false
                     end in
      mktask (t_conf t) (t_user t) (if missing then SFinish else SNext) None (t_in t) (t_num t)
  | SNext => mktask (t_conf t) (t_user t) SFinish (t_requires t) None (t_num t)
  | SFinish => mktask (t_conf t) (t_user t) SRaise (t_requires t) (t_in t) (t_num t)
  | SRaise => t
  end.

Definition with_user (t : task) (s : S) : task :=
  mktask (t_conf t) s (t_state t) (t_requires t) (t_in t) (t_num t).
Definition with_in (t : task) (q : option (list (list pv))) : task :=
  mktask (t_conf t) (t_user t) (t_state t) (t_requires t) q (t_num t).
Definition with_requires (t : task) (r : option (list pv)) : task :=
  mktask (t_conf t) (t_user t) (t_state t) r (t_in t) (t_num t).
Definition with_num (t : task) (n : Z) : task :=
  mktask (t_conf t) (t_user t) (t_state t) (t_requires t) (t_in t) n.

(** What can be observed of a run: the calls of the methods of the tasks with
    their arguments and what they did, the tasks moved on for lack of input,
    and the tasks taken from the list. *)
Inductive event :=
| ESetup (i : nat) (args : list pv) (r : outc)
| ENext (i : nat) (args : list pv) (r : outc)
| EFinish (i : nat) (r : outc)
| EStarve (i : nat)
| ERemove (i : nat).

(** [_PipelineMissingData], [_PipelineFinished], another exception, or the
    output and the task afterwards. *)
Inductive tres := TOut (t : task) (o : pv) | TMissing | TFinished | TErr (e : exn).

(** [queue.Queue.get] on all the queues, none of which is empty. *)
Definition q_heads (qs : list (list pv)) : list pv := map (fun q => hd PNone q) qs.
Definition q_tails (qs : list (list pv)) : list (list pv) := map (@tl pv) qs.

Definition limit_reached (l : option Z) (n : Z) : bool :=
  match l with Some k => (k <=? n)%Z | None => false end.

(** [_pipeline_next], lines 1092-1177. *)
Definition pipeline_next (i : nat) (t : task) : list event * tres :=
  match t_state t with
  | SSetup =>
      match t_requires t with
      | None => ([], TErr TypeError)
      | Some rs =>
          if existsb is_none rs then ([], TMissing)
          else let '(s', r) := b_setup (c_beh (t_conf t)) (t_user t) rs in
               ([ESetup i rs r],
                match r with
                | Ret o => TOut (advance_state (with_user t s')) o
                | Stop => TErr PipelineStopIteration
                | Raise e => TErr e
                end)
      end
  | SNext =>
      match t_in t with
      | None => ([], TErr TypeError)
      | Some qs =>
          if existsb is_nil qs then ([], TMissing)
          else let args := q_heads qs in
               let t1 := with_in t (Some (q_tails qs)) in
               let '(s', r) := b_next (c_beh (t_conf t)) (t_user t) args in
               let t2 := with_user t1 s' in
               ([ENext i args r],
                match r with
                | Stop => TOut (advance_state t2) PNone
                | Raise e => TErr e
                | Ret PNone => TOut t2 PNone
                | Ret o =>
                    let t3 := with_num t2 (t_num t2 + 1) in
                    TOut (if limit_reached (c_limit (t_conf t3)) (t_num t3)
                          then advance_state t3 else t3) o
                end)
      end
  | SFinish =>
      let '(s', r) := b_finish (c_beh (t_conf t)) (t_user t) in
      ([EFinish i r],
       match r with
       | Ret o => TOut (advance_state (with_user t s')) o
       | Stop => TErr PipelineStopIteration
       | Raise e => TErr e
       end)
  | SRaise => ([], TFinished)
  end.

(** [_pipeline_queue_product], lines 1179-1229. *)
Fixpoint put_requires (ks : list str) (rs : list pv) (key : str) (v : pv) : res (list pv) :=
  match ks, rs with
  | [], _ => Ok rs
  | _ :: _, [] => if existsb (seqb key) ks then Err IndexError else Ok []
  | k :: ks', r :: rs' =>
      if seqb key k
      then if is_none r
           then rbind (put_requires ks' rs' key v) (fun l => Ok (v :: l))
           else Err PipelineRuntimeError
      else rbind (put_requires ks' rs' key v) (fun l => Ok (r :: l))
  end.

Fixpoint put_in (ks : list str) (qs : list (list pv)) (key : str) (v : pv) : res (list (list pv)) :=
  match ks, qs with
  | [], _ => Ok qs
  | _ :: _, [] => if existsb (seqb key) ks then Err IndexError else Ok []
  | k :: ks', q :: qs' =>
      rbind (put_in ks' qs' key v) (fun l =>
        Ok ((if seqb key k then q ++ [v] else q) :: l))
  end.

Definition queue_product (key : str) (v : pv) (t : task) : res task :=
  rbind (if existsb (seqb key) (req_keys t)
         then match t_requires t with
              | None => Err PipelineRuntimeError
              | Some rs => rbind (put_requires (req_keys t) rs key v) (fun l =>
                             Ok (with_requires t (Some l)))
              end
         else Ok t) (fun t =>
  if existsb (seqb key) (in_keys t)
  then match t_in t with
       | None => Err PipelineRuntimeError
       | Some qs => rbind (put_in (in_keys t) qs key v) (fun l => Ok (with_in t (Some l)))
       end
  else Ok t).

(** * The manager *)

Record mst := mkmst { tasks : list (option task); head : nat; idx : nat }.

Definition task_at (ts : list (option task)) (i : nat) : option task :=
  match nth_error ts i with Some (Some t) => Some t | _ => None end.

Fixpoint lset {A} (l : list A) (i : nat) (x : A) : list A :=
  match l, i with
  | [], _ => []
  | _ :: r, O => x :: r
  | y :: r, Datatypes.S j => y :: lset r j x
  end.

(** [(ii + start) % len(self.tasks) for ii in range(len(self.tasks))] *)
Definition rotation (n start : nat) : list nat := map (fun ii => (ii + start) mod n) (seq 0 n).

Definition available (m : mst) : list nat :=
  filter (fun j => match task_at (tasks m) j with Some t => is_available t | None => false end)
    (rotation (length (tasks m)) (idx m)).

Definition sort_key (ts : list (option task)) (i : nat) : Z * Z :=
  match task_at ts i with Some t => (priority t, c_base (t_conf t)) | None => (0, 0)%Z end.

(** Comparison of tuples. *)
Definition key_leb (a b : Z * Z) : bool :=
  ((fst a <? fst b) || ((fst a =? fst b) && (snd a <=? snd b)))%Z%bool.

(** [sorted(l, key=..., reverse=True)] keeps the order of equal elements. *)
Definition sorted_reverse {A} (leb : A -> A -> bool) (l : list A) : list A :=
  rev (py_sorted leb (rev l)).

(** [_iter_tasks], lines 434-452; [None] is [StopIteration]. *)
Definition iter_tasks (m : mst) : option nat :=
  find (fun j => match task_at (tasks m) j with Some _ => true | None => false end)
    (rotation (length (tasks m)) (idx m)).

(** [_next_task], lines 374-432: the index of the task. *)
Definition next_task (m : mst) : option nat :=
  match sorted_reverse (fun i j => key_leb (sort_key (tasks m) i) (sort_key (tasks m) j))
          (available m) with
  | i :: _ => Some i
  | [] => iter_tasks (mkmst (tasks m) (head m) (head m))
  end.

(** [_check_task_output], lines 454-500: the items paired with the keys. *)
Definition check_output (k : keys) (o : pv) : res (option (list pv)) :=
  match o with
  | PNone => Ok None
  | _ =>
      match klist k with
      | [] => Ok None
      | [_] =>
          match k, o with
          | KOne _, PTuple l => Ok (Some l)
          | KOne _, _ => Ok (Some [o])
          | KMany _, PTuple l | KMany _, PList l => Ok (Some l)
          | KMany _, _ => Err TypeError           (* [zip] of an object *)
          end
      | _ =>
          match o with
          | PTuple l | PList l =>
              if length (klist k) =? length l then Ok (Some l) else Err PipelineRuntimeError
          | _ => Err TypeError                    (* [len] of an object *)
          end
      end
  end.

(** Lines 353-365. *)
Fixpoint queue_all (key : str) (v : pv) (ts : list (option task)) : res (list (option task)) :=
  match ts with
  | [] => Ok []
  | None :: r => rbind (queue_all key v r) (fun l => Ok (None :: l))
  | Some t :: r => rbind (queue_product key v t) (fun t' =>
                   rbind (queue_all key v r) (fun l => Ok (Some t' :: l)))
  end.

Fixpoint queue_pairs (key_match : str -> bool) (kv : list (str * pv)) (ts : list (option task))
  : res (list (option task)) :=
  match kv with
  | [] => Ok ts
  | (k, v) :: r =>
      if key_match k
      then rbind (queue_all k v ts) (queue_pairs key_match r)
      else queue_pairs key_match r ts
  end.

(** Lines 339-345: the first task left from the current head on. *)
Fixpoint first_left (l : list (option task)) : option nat :=
  match l with
  | [] => None
  | Some _ :: _ => Some 0
  | None :: r => option_map Datatypes.S (first_left r)
  end.
Definition new_head (ts : list (option task)) (h : nat) : nat :=
  match first_left (skipn h ts) with Some ii => h + ii | None => h end.

Inductive result := Go (m : mst) | Done | Fail (e : exn).

(** One turn of the loop of [runner], lines 299-372. *)
Definition step (key_match : str -> bool) (m : mst) : list event * result :=
  match next_task m with
  | None => ([], Done)
  | Some i =>
      match task_at (tasks m) i with
      | None => ([], Done)                        (* not reached *)
      | Some t =>
          let '(ev, r) := pipeline_next i t in
          match r with
          | TMissing =>
              if i =? head m
              then (ev ++ [EStarve i],
                    Go (mkmst (lset (tasks m) i (Some (advance_state t))) (head m) i))
              else (ev, Go (mkmst (tasks m) (head m) (head m)))
          | TFinished =>
              let ts := lset (tasks m) i None in
              (ev ++ [ERemove i], Go (mkmst ts (new_head ts (head m)) i))
          | TErr e => (ev, Fail e)
          | TOut t' o =>
              let ts := lset (tasks m) i (Some t') in
              match check_output (c_out (t_conf t')) o with
              | Err e => (ev, Fail e)
              | Ok None => (ev, Go (mkmst ts (head m) i))
              | Ok (Some l) =>
                  match queue_pairs key_match (combine (out_keys t') l) ts with
                  | Err e => (ev, Fail e)
                  | Ok ts' => (ev, Go (mkmst ts' (head m) i))
                  end
              end
          end
      end
  end.

(** At most [n] turns. *)
Fixpoint run (key_match : str -> bool) (n : nat) (m : mst) : list event * result :=
  match n with
  | O => ([], Go m)
  | Datatypes.S n' =>
      let '(ev, r) := step key_match m in
      match r with
      | Go m' => let '(ev', r') := run key_match n' m' in (ev ++ ev', r')
      | _ => (ev, r)
      end
  end.

(** Lines 293-296, after the tasks have been added in the order of the
    configuration. *)
Definition start (cfg : list (tconf * S)) : mst :=
  mkmst (map (fun c => Some (init_task c)) cfg) 0 0.

End Pipe.
Arguments pv : clear implicits.
Arguments outc : clear implicits.
Arguments beh : clear implicits.
Arguments tconf : clear implicits.
Arguments task : clear implicits.
Arguments event : clear implicits.
Arguments mst : clear implicits.
Arguments result : clear implicits.
Arguments tres : clear implicits.

(** * Static validation *)

(** One entry of the list of tasks: [None] for a key that is not given. *)
Record tspec := mkspec {
  ts_type : option str;
  ts_in : option kraw; ts_requires : option kraw; ts_out : option kraw }.

Definition atom_eqb (a b : atom) : bool :=
  match a, b with
  | AStr s, AStr t => seqb s t
  | ANone, ANone => true
  | AInt x, AInt y => (x =? y)%Z
  | _, _ => false
  end.

(** The elements of [all_out_values], lines 521-527. *)
Definition out_values (t : tspec) : list atom :=
  match ts_out t with
  | None => []
  | Some (KList l) | Some (KTuple l) => l
  | Some (KAtom a) => [a]
  end.

Fixpoint no_dup_atoms (l : list atom) : bool :=
  match l with
  | [] => true
  | a :: r => negb (existsb (atom_eqb a) r) && no_dup_atoms r
  end.

(** Lines 539-553, for the value of one of the two keys: what is looked for
    among the outputs; [None] is a tuple, which is never found. *)
Definition wanted (v : option kraw) : option (list atom) :=
  match v with
  | None | Some (KAtom ANone) => Some []
  | Some (KAtom a) => Some [a]
  | Some (KList l) => Some l
  | Some (KTuple _) => None
  end.

(** The message names the type of the task: without one it is a [KeyError]. *)
Definition dangling (t : tspec) : res unit :=
  match ts_type t with Some _ => Err CaputConfigError | None => Err KeyError end.

Definition check_wanted (outs : list atom) (t : tspec) (v : option kraw) : res unit :=
  match wanted v with
  | None => dangling t
  | Some l => if forallb (fun a => existsb (atom_eqb a) outs) l then Ok tt else dangling t
  end.

Fixpoint check_specs (outs : list atom) (l : list tspec) : res unit :=
  match l with
  | [] => Ok tt
  | t :: r => rbind (check_wanted outs t (ts_in t)) (fun _ =>
              rbind (check_wanted outs t (ts_requires t)) (fun _ => check_specs outs r))
  end.

(** [_validate_task_inputs], lines 519-553. *)
Definition validate_task_inputs (l : list tspec) : res unit :=
  let all := flat_map out_values l in
  if no_dup_atoms all then check_specs all l else Err CaputConfigError.
