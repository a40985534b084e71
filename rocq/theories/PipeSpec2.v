(** What the calls of the methods of one task have to do with each other. *)
From Coq Require Import List Arith.
From Verif Require Import PyBase PyStr PipeModel PipeSpec.
Import ListNotations.
Open Scope list_scope.
Open Scope nat_scope.

Section Spec.
Context {V S : Type}.

(** The state of a task whose methods were called in this order with these
    arguments, from [s]. *)
Fixpoint state_after (b : beh V S) (s : S) (l : list (event V)) : S :=
  match l with
  | [] => s
  | ESetup _ a _ :: r => state_after b (fst (b_setup b s a)) r
  | ENext _ a _ :: r => state_after b (fst (b_next b s a)) r
  | EFinish _ _ :: r => state_after b (fst (b_finish b s)) r
  | _ :: r => state_after b s r
  end.

(** Each call did what the method does in the state left by the calls before. *)
Fixpoint replay (b : beh V S) (s : S) (l : list (event V)) : Prop :=
  match l with
  | [] => True
  | ESetup _ a o :: r => o = snd (b_setup b s a) /\ replay b (fst (b_setup b s a)) r
  | ENext _ a o :: r => o = snd (b_next b s a) /\ replay b (fst (b_next b s a)) r
  | EFinish _ o :: r => o = snd (b_finish b s) /\ replay b (fst (b_finish b s)) r
  | _ :: r => replay b s r
  end.
End Spec.
