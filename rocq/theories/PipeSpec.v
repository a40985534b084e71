(** What is claimed of a pipeline run, in terms of the events alone. *)
From Coq Require Import List Bool Arith ZArith.
From Verif Require Import PyBase PyStr PipeModel.
Import ListNotations.
Open Scope list_scope.
Open Scope nat_scope.

Section Spec.
Context {V S : Type}.
Variable cfg : list (tconf V S * S).
Variable key_match : str -> bool.

Definition owner (e : event V) : nat :=
  match e with
  | ESetup i _ _ | ENext i _ _ | EFinish i _ | EStarve i | ERemove i => i
  end.

Definition is_setup (e : event V) := match e with ESetup _ _ _ => True | _ => False end.
Definition is_next (e : event V) := match e with ENext _ _ _ => True | _ => False end.
Definition is_finish (e : event V) := match e with EFinish _ _ => True | _ => False end.
Definition is_remove (e : event V) := match e with ERemove _ => True | _ => False end.
Definition is_starve (e : event V) := match e with EStarve _ => True | _ => False end.

Definition own (i : nat) (tr : list (event V)) : list (event V) :=
  filter (fun e => owner e =? i) tr.

(** The events of a task without the note that it starved. *)
Definition calls (i : nat) (tr : list (event V)) : list (event V) :=
  filter (fun e => (owner e =? i) && match e with EStarve _ => false | _ => true end) tr.

(** setup, then next any number of times, then finish, then removed, in this
    order; next only after setup, removed only after finish. *)
Definition at_most_one {A} (P : A -> Prop) (l : list A) := l = [] \/ exists x, l = [x] /\ P x.
Definition lifecycle (l : list (event V)) : Prop :=
  exists a b c d, l = a ++ b ++ c ++ d /\
    at_most_one is_setup a /\ Forall is_next b /\ at_most_one is_finish c /\
    at_most_one is_remove d /\ (b <> [] -> a <> []) /\ (d <> [] -> c <> []).

(** What a returned value means under the [out] keys of a task: nothing for
    [None]; for a single key that is not in a list the value itself, except
    that a tuple is unpacked; otherwise a sequence, item by item. *)
Definition items (k : keys) (o : pv V) : list (str * pv V) :=
  match o, k with
  | PNone, _ => []
  | PTuple l, _ => combine (klist k) l
  | PList l, KMany ks => combine ks l
  | PObj _, KMany _ => []
  | _, KOne s => [(s, o)]
  end.

Definition returned (e : event V) : option (nat * pv V) :=
  match e with
  | ESetup i _ (Ret o) | ENext i _ (Ret o) | EFinish i (Ret o) => Some (i, o)
  | _ => None
  end.

(** All that was produced under key [k], in order. *)
Definition produced_by (e : event V) : list (str * pv V) :=
  match returned e with
  | Some (i, o) => match nth_error cfg i with
                   | Some c => items (c_out (fst c)) o
                   | None => []
                   end
  | None => []
  end.
Definition products (k : str) (tr : list (event V)) : list (pv V) :=
  map snd (filter (fun p => seqb (fst p) k && key_match (fst p)) (flat_map produced_by tr)).

(** The arguments of the successive calls of [next] of task [i]. *)
Definition next_args (i : nat) (tr : list (event V)) : list (list (pv V)) :=
  flat_map (fun e => match e with
                     | ENext j args _ => if j =? i then [args] else []
                     | _ => []
                     end) tr.

(** The number of outputs of [next] of task [i]. *)
Definition is_output (i : nat) (e : event V) : bool :=
  match e with
  | ENext j _ (Ret PNone) => false
  | ENext j _ (Ret _) => j =? i
  | _ => false
  end.
Definition outputs (i : nat) (tr : list (event V)) : nat := length (filter (is_output i) tr).

(** Task [j] takes key [k], as an input or as a requirement. *)
Definition conf_at (i : nat) (c : tconf V S) : Prop := exists s, nth_error cfg i = Some (c, s).
Definition produces (i : nat) (k : str) : Prop := exists c, conf_at i c /\ In k (klist (c_out c)).
Definition takes (j : nat) (k : str) : Prop :=
  exists c, conf_at j c /\ (In k (klist (c_in c)) \/ In k (klist (c_req c))).

Definition producers_first : Prop :=
  forall i j k, produces i k -> takes j k -> i < j.

(** A task without inputs stops (or fails) after finitely many calls of
    [next]: it does in [n] calls. *)
Fixpoint stops_within (n : nat) (b : beh V S) (s : S) : Prop :=
  match n with
  | O => False
  | Datatypes.S n' => match b_next b s [] with
           | (s', Ret _) => stops_within n' b s'
           | _ => True
           end
  end.
Definition sources_stop : Prop :=
  forall i c s, conf_at i c -> klist (c_in c) = [] -> exists n, stops_within n (c_beh c) s.

(** A returned value fits the output keys. *)
Definition fits (k : keys) (o : pv V) : Prop :=
  o = PNone \/ klist k = [] \/ (exists s, k = KOne s) \/
  (exists l, (o = PTuple l \/ o = PList l) /\ length l = length (klist k)).

(** The call that ended a run was itself at fault: it raised [e], or returned
    a value that does not fit the output keys. *)
Definition bad_call (e : exn) (ev : event V) : Prop :=
  match ev with
  | ESetup i _ r | EFinish i r =>
      match r with
      | Raise e' => e = e'
      | Stop => e = PipelineStopIteration
      | Ret o => exists c, conf_at i c /\ ~ fits (c_out c) o
      end
  | ENext i _ r =>
      match r with
      | Raise e' => e = e'
      | Stop => False
      | Ret o => exists c, conf_at i c /\ ~ fits (c_out c) o
      end
  | _ => False
  end.

(** A task closed its inputs by itself. *)
Definition stopped_itself (i : nat) (tr : list (event V)) : Prop :=
  (exists args, In (ENext i args Stop) tr) \/
  (exists c k, conf_at i c /\ c_limit c = Some k /\ (k <= Z.of_nat (outputs i tr))%Z /\ 0 < outputs i tr).
End Spec.

(** * Validation *)
(** The keys a task is meant to produce and to take. *)
Definition given (v : option kraw) : list atom :=
  match v with
  | None | Some (KAtom ANone) => []
  | Some (KAtom a) => [a]
  | Some (KList l) | Some (KTuple l) => l
  end.

Definition valid_specs (l : list tspec) : Prop :=
  NoDup (flat_map (fun t => given (ts_out t)) l) /\
  forall t a, In t l -> In a (given (ts_in t)) \/ In a (given (ts_requires t)) ->
    exists t', In t' l /\ In a (given (ts_out t')).
