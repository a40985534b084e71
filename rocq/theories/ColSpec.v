(** What can become of a job. *)
From Coq Require Import List.
From Verif Require Import PyBase ColModel.
Import ListNotations.

Section Spec.
  Context {S V R : Type}.
  Notation state := (state S V R).
  (** From one state to another by any number of events. *)
  Inductive reach : state -> state -> Prop :=
  | reach_refl : forall s, reach s s
  | reach_step : forall s t u, step s t -> reach t u -> reach s u.
  (** Nothing can happen any more. *)
  Definition stuck (s : state) : Prop := forall t, ~ step s t.
  (** There is no endless run. *)
  Definition no_endless_run (s : state) : Prop :=
    ~ exists f : nat -> state, f 0 = s /\ forall i, step (f i) (f (1 + i)).
  (** Whatever happens when: in the end [Q]. *)
  Definition always (s : state) (Q : state -> Prop) : Prop :=
    no_endless_run s /\ forall t, reach s t -> stuck t -> Q t.
  (** Rank [r] has returned [x]. *)
  Definition returned (s : state) (r : nat) (x : R) : Prop := nth_error (snd s) r = Some (Ret x).
  (** Rank [r] waits for others. *)
  Definition waits (s : state) (r : nat) : Prop := exists g c v k, nth_error (snd s) r = Some (Coll g c v k).
End Spec.
Section Spec2.
  Context {S V R : Type}.
  (** All [n] ranks return, rank [r] what [Q r] says. *)
  Definition all_return (s : state S V R) (n : nat) (Q : nat -> R -> Prop) : Prop :=
    always s (fun t => length (snd t) = n /\ forall r, r < n -> exists x, returned t r x /\ Q r x).
  (** The job never ends: some rank waits for ever. *)
  Definition hangs (s : state S V R) : Prop := always s (fun t => exists r, waits t r).
End Spec2.
(** [enable_mpi_exception_handler] (mpitools.py lines 314-343): a rank with an
    uncaught exception ends the whole job.  The job is over when all ranks have
    returned or one of them raised. *)
Definition over {S V R} (t : state S V (res R)) : Prop :=
  (forall r, r < length (snd t) -> exists x, returned t r x)
  \/ exists r e, returned t r (Err e).
