(** C65: the names found by a pattern. *)
From Coq Require Import String.
From Coq Require Import List Ascii Bool Arith Lia.
From Verif Require Import PyBase PyStr AttrModel GlobModel GlobSpec GlobProofs GlobSpec2 GlobProofs2.
Import ListNotations.
Open Scope list_scope.
Open Scope nat_scope.

Theorem C65_matches : forall p s, fnmatch p s = true <-> Matches p s.
Proof. intros p s. apply pmatch_iff. lia. Qed.
Print Assumptions C65_matches.
(** Names beginning with a dot only for patterns beginning with one. *)
Theorem C65_found : forall names p n, Magic p ->
  (In n (dir_glob names p) <-> In n names /\ Matches p n /\
   ((exists r, p = ch "." :: r) \/ ~ exists r, n = ch "." :: r)).
Proof.
  intros names p n M. unfold dir_glob. apply has_magic_iff in M. rewrite M, filter_In, andb_true_iff, orb_true_iff, negb_true_iff, C65_matches.
  assert (H: forall s, hidden s = true <-> exists r, s = ch "." :: r).
  { intros s. unfold hidden. change (s_ ".") with [ch "."]. destruct s as [|c s]; [split; [discriminate|intros [r E]; discriminate]|].
    cbn [startswith]. rewrite andb_true_iff. split.
    - intros [E _]. apply ceqb_iff in E. subst. eauto.
    - intros [r E]. inversion E; subst. split; [now apply ceqb_iff|]. reflexivity. }
  rewrite <- H. rewrite <- (H n). destruct (hidden n); intuition congruence.
Qed.
Print Assumptions C65_found.
Example C65_matches_example : Matches (s_ "a[!0-3]*.h?") (s_ "a7.x.h5") /\ ~ Matches (s_ "a[!0-3]*.h?") (s_ "a2.x.h5") /\
  Matches (s_ "[]x]") (s_ "]") /\ ~ Matches (s_ "[]x]") (s_ "[").
Proof. rewrite <- !C65_matches. repeat split; vm_compute; congruence. Qed.
