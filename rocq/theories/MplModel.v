(** A pipeline run by all ranks of a job.

    Every rank has its own manager and its own tasks (PipeModel); the methods of the tasks may
    make collective calls, and so does the choice of the next task. *)
From Coq Require Import List Arith Bool.
From Verif Require Import PyBase PyStr PipeModel ColModel.
Import ListNotations.
Open Scope nat_scope.

(** What the ranks send each other: the index of a task, or data of the tasks. *)
Inductive msg (W : Type) := Idx (i : nat) | Data (w : W).
Arguments Idx {W}.
Arguments Data {W}.

Section Mpl.
  Context {W V S : Type}.
  Notation prog R := (proc unit (msg W) R).
  (** The three methods of a task on one rank. *)
  Record methods := mkmeth {
    p_setup : S -> list (pv V) -> prog (S * outc V);
    p_next : S -> list (pv V) -> prog (S * outc V);
    p_finish : S -> prog (S * outc V) }.

  (** The call that [_pipeline_next] makes (pipeline/_pipeline.py lines 1092-1177), if any. *)
  Definition called (b : methods) (t : task V S) : prog (S * outc V) :=
    let none := Ret (t_user t, Stop) in
    match t_state t with
    | SSetup => match t_requires t with
                | Some rs => if existsb is_none rs then none else p_setup b (t_user t) rs
                | None => none
                end
    | SNext => match t_in t with
               | Some qs => if existsb is_nil qs then none else p_next b (t_user t) (q_heads qs)
               | None => none
               end
    | SFinish => p_finish b (t_user t)
    | SRaise => none
    end.
  (** The field [c_beh] holds the outcome of that call. *)
  Definition with_outcome (x : S * outc V) (t : task V S) : task V S :=
    let c := t_conf t in
    mktask (mkconf (c_in c) (c_req c) (c_out c) (mkbeh (fun _ _ => x) (fun _ _ => x) (fun _ => x)) (c_limit c) (c_base c))
      (t_user t) (t_state t) (t_requires t) (t_in t) (t_num t).

  (** Lines 317-372, once the task is chosen: the rest of [PipeModel.step]. *)
  Definition step_at (key_match : str -> bool) (m : mst V S) (i : nat) (t : task V S) : list (event V) * result V S :=
    let '(ev, r) := pipeline_next i t in
    match r with
    | TMissing =>
        if i =? head m
        then (ev ++ [EStarve i], Go (mkmst (lset (tasks m) i (Some (advance_state t))) (head m) i))
        else (ev, Go (mkmst (tasks m) (head m) (head m)))
    | TFinished =>
        let ts := lset (tasks m) i None in
        (ev ++ [ERemove i], Go (mkmst ts (new_head ts (head m)) i))
    | TErr e => (ev, Fail e)
    | TOut t' o =>
        let ts := lset (tasks m) i (Some t') in
        match check_output (c_out (t_conf t')) o with
        | Err e => (ev, Fail e)
        | Ok None => (ev, Go (mkmst ts (head m) i))
        | Ok (Some l) =>
            match queue_pairs key_match (combine (out_keys t') l) ts with
            | Err e => (ev, Fail e)
            | Ok ts' => (ev, Go (mkmst ts' (head m) i))
            end
        end
    end.

  (** [_next_task], lines 374-432 *)
  Definition choose {R} (n : nat) (m : mst V S) (k : option nat -> prog R) : prog R :=
    match available m, next_task m with
    | _ :: _, Some new_index =>
        Coll (world n) (CBcast 0) (Idx new_index) (fun l =>
        match nth 0 l (Idx new_index) with Idx i => k (Some i) | Data _ => k (Some new_index) end)
    | _, t => k t
    end.

  (** One turn of the loop, lines 299-372.  The chosen task may be gone on this rank (the
      attribute of None). *)
  Definition step_on (n : nat) (b : nat -> methods) (key_match : str -> bool) (m : mst V S)
    : prog (list (event V) * result V S) :=
    choose n m (fun choice =>
    match choice with
    | None => Ret ([], Done)
    | Some i =>
        match task_at (tasks m) i with
        | None => Ret ([], Fail AttributeError)
        | Some t => pbind (called (b i) t) (fun x => Ret (step_at key_match m i (with_outcome x t)))
        end
    end).

  (** At most [k] turns. *)
  Fixpoint run_on (n : nat) (b : nat -> methods) (key_match : str -> bool) (k : nat) (m : mst V S)
    : prog (list (event V) * result V S) :=
    match k with
    | O => Ret ([], Go m)
    | Datatypes.S k' =>
        pbind (step_on n b key_match m) (fun x =>
        match snd x with
        | Go m' => pbind (run_on n b key_match k' m') (fun y => Ret (fst x ++ fst y, snd y))
        | _ => Ret x
        end)
    end.
End Mpl.
Arguments methods : clear implicits.
