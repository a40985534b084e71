(** What it means that an exchange of messages always works. *)
From Coq Require Import List Arith.
From Verif Require Import MsgModel.
Import ListNotations.

Section Spec.
  Context {D : Type} (blank : D) (eager : nat -> nat -> bool).
  (** A run of [n] events. *)
  Inductive run : nat -> list (rk D) -> list (rk D) -> Prop :=
  | run_nil : forall s, run 0 s s
  | run_cons : forall n s t u, step blank eager s t -> run n t u -> run (S n) s u.
  (** Nothing can happen any more. *)
  Definition stuck (s : list (rk D)) : Prop := forall t, ~ step blank eager s t.
  (** All programs are finished, all messages have been received. *)
  Definition finished (s : list (rk D)) : Prop :=
    forall k, In k s -> prog k = [] /\ sends k = [] /\ recvs k = [].
  (** Whatever happens when: there is no endless run, and when nothing can
      happen any more all programs are finished, and [Q r store] holds of the
      buffers of every rank [r]. *)
  Definition always_ends (s : list (rk D)) (Q : nat -> list D -> Prop) : Prop :=
    (exists bound, forall n t, run n s t -> n <= bound)
    /\ (forall n t, run n s t -> stuck t -> length t = length s /\ finished t
         /\ forall r k, nth_error t r = Some k -> Q r (store k)).
End Spec.
