(** Ranks that are alike: they differ in their data only. *)
From Coq Require Import List Arith Bool.
From Verif Require Import PyBase PyStr PipeModel ColModel ColSpec MplModel.
Import ListNotations.
Open Scope nat_scope.

Section Spec.
  Context {V S : Type}.
  Inductive alike : pv V -> pv V -> Prop :=
  | alike_none : alike PNone PNone
  | alike_obj : forall v w, alike (PObj v) (PObj w)
  | alike_tuple : forall l l', Forall2 alike l l' -> alike (PTuple l) (PTuple l')
  | alike_list : forall l l', Forall2 alike l l' -> alike (PList l) (PList l').
  Inductive alike_outc : outc V -> outc V -> Prop :=
  | alike_ret : forall o o', alike o o' -> alike_outc (PipeModel.Ret o) (PipeModel.Ret o')
  | alike_stop : alike_outc Stop Stop
  | alike_raise : forall e e', alike_outc (Raise e) (Raise e').
  Definition alike_opt {X} (R : X -> X -> Prop) (a b : option X) : Prop :=
    match a, b with Some x, Some y => R x y | None, None => True | _, _ => False end.
  Definition alike_task (t u : task V S) : Prop :=
    c_in (t_conf t) = c_in (t_conf u) /\ c_req (t_conf t) = c_req (t_conf u) /\ c_out (t_conf t) = c_out (t_conf u)
    /\ c_limit (t_conf t) = c_limit (t_conf u) /\ c_base (t_conf t) = c_base (t_conf u)
    /\ t_state t = t_state u /\ t_num t = t_num u
    /\ alike_opt (Forall2 alike) (t_requires t) (t_requires u)
    /\ alike_opt (Forall2 (Forall2 alike)) (t_in t) (t_in u).
  Definition alike_manager (a b : mst V S) : Prop :=
    Forall2 (alike_opt alike_task) (tasks a) (tasks b) /\ head a = head b /\ idx a = idx b.
  (** The same call of the same task. *)
  Inductive alike_event : event V -> event V -> Prop :=
  | alike_setup : forall i a a' r r', Forall2 alike a a' -> alike_outc r r' -> alike_event (ESetup i a r) (ESetup i a' r')
  | alike_next : forall i a a' r r', Forall2 alike a a' -> alike_outc r r' -> alike_event (ENext i a r) (ENext i a' r')
  | alike_finish : forall i r r', alike_outc r r' -> alike_event (EFinish i r) (EFinish i r')
  | alike_starve : forall i, alike_event (EStarve i) (EStarve i)
  | alike_remove : forall i, alike_event (ERemove i) (ERemove i).
  Inductive alike_result : result V S -> result V S -> Prop :=
  | alike_go : forall a b, alike_manager a b -> alike_result (Go a) (Go b)
  | alike_done : alike_result Done Done
  | alike_fail : forall e e', alike_result (Fail e) (Fail e').
End Spec.

(** Every two of the ranks. *)
Definition among {X} (n : nat) (R : X -> X -> Prop) (x : nat -> X) : Prop := forall r q, r < n -> q < n -> R (x r) (x q).

Section Methods.
  Context {W V S : Type}.
  (** Without actions on shared files. *)
  Fixpoint no_files {S V R} (p : proc S V R) : Prop :=
    match p with Ret _ => True | Coll _ _ _ k => forall l, no_files (k l) | Act _ _ _ => False end.
  (** The ranks call a method together: whatever happens when, all return, with outcomes that are
      alike and states for which [Inv] holds. *)
  Definition together (n : nat) (Inv : (nat -> S) -> Prop) (P : nat -> proc unit (msg W) (S * outc V)) : Prop :=
    exists out, all_return (tt, map P (seq 0 n)) n (fun r x => x = out r)
      /\ among n alike_outc (fun r => snd (out r)) /\ Inv (fun r => fst (out r)).
  (** A task all of whose methods keep the ranks alike; [Inv]: what holds of its states between the
      calls. *)
  Record keeps_step (n : nat) (Inv : (nat -> S) -> Prop) (b : nat -> methods W V S) : Prop := {
    ks_ranks : forall u u', (forall r, r < n -> u r = u' r) -> Inv u -> Inv u';
    ks_alone : forall r u a, no_files (p_setup (b r) u a) /\ no_files (p_next (b r) u a) /\ no_files (p_finish (b r) u);
    ks_setup : forall u a, Inv u -> among n (Forall2 alike) a -> together n Inv (fun r => p_setup (b r) (u r) (a r));
    ks_next : forall u a, Inv u -> among n (Forall2 alike) a -> together n Inv (fun r => p_next (b r) (u r) (a r));
    ks_finish : forall u, Inv u -> together n Inv (fun r => p_finish (b r) (u r)) }.
End Methods.

(** Methods without collective calls. *)
Definition quietly {W V S} (bh : beh V S) : methods W V S :=
  mkmeth (fun u a => Ret (b_setup bh u a)) (fun u a => Ret (b_next bh u a)) (fun u => Ret (b_finish bh u)).
(** Two ends of a run. *)
Definition same_end {V S} (a b : result V S) : Prop :=
  match a, b with Go _, Go _ => True | Done, Done => True | Fail e, Fail e' => e = e' | _, _ => False end.
(** The same tasks with the same keys; the methods and the states may differ. *)
Definition same_config {V S} (c d : tconf V S * S) : Prop :=
  c_in (fst c) = c_in (fst d) /\ c_req (fst c) = c_req (fst d) /\ c_out (fst c) = c_out (fst d)
  /\ c_limit (fst c) = c_limit (fst d) /\ c_base (fst c) = c_base (fst d).
