(** C37: the texts of the names of history entries. *)
From Coq Require Import List Arith Bool Lia.
From Verif Require Import PyBase HistModel.
Import ListNotations.
Open Scope nat_scope.

(** 0 to 9 and a to f *)
Definition hex_letters : list nat := seq 48 10 ++ seq 97 6.

(** Control characters but tab, newline and carriage return: two digits in lower case. *)
Theorem C37_control : forall printable c, c < 32 \/ c = 127 -> ~ In c [9; 10; 13] ->
  exists hi lo, nth_error hex_letters (c / 16) = Some hi /\ nth_error hex_letters (c mod 16) = Some lo /\
    repr printable [c] = [39; 92; 120; hi; lo; 39].
Proof.
  intros p c H N.
  assert (G : Forall (fun c => c < 32 \/ c = 127 -> ~ In c [9; 10; 13] ->
    exists hi lo, nth_error hex_letters (c / 16) = Some hi /\ nth_error hex_letters (c mod 16) = Some lo /\
      repr p [c] = [39; 92; 120; hi; lo; 39]) (seq 0 32 ++ [127])).
  { cbn [seq app]. repeat (constructor; [intros _ M; first [exfalso; apply M; cbn; tauto | do 2 eexists; (split; [reflexivity|split; reflexivity])]|]).
    constructor. }
  rewrite Forall_forall in G. apply G; try assumption. apply in_or_app. destruct H as [H| ->]; [left; apply in_seq; lia|right; left; reflexivity].
Qed.
Print Assumptions C37_control.

(** The other ASCII characters stand for themselves, but a backslash; a quote is put into the other quotes. *)
Theorem C37_plain : forall printable s, Forall (fun c => 32 <= c < 127 /\ c <> 92 /\ c <> 39) s ->
  repr printable s = 39 :: s ++ [39].
Proof.
  intros p s H. unfold repr, quote_for.
  assert (E : existsb (Nat.eqb 39) s = false).
  { apply not_true_iff_false. intro G. apply existsb_exists in G as (c & Hc & Ec). apply Nat.eqb_eq in Ec.
    rewrite Forall_forall in H. specialize (H c Hc). lia. }
  rewrite E. cbn [andb]. f_equal. f_equal. clear E. induction H as [|c s (A & B & C) H IH]; [reflexivity|].
  cbn [flat_map]. rewrite IH. change (repr_char p 39 c ++ s = [c] ++ s). f_equal. unfold repr_char.
  repeat match goal with |- context [?a =? ?b] => destruct (Nat.eqb_spec a b); [exfalso; lia|] end.
  destruct (Nat.ltb_spec c 32); [exfalso; lia|]. destruct (Nat.ltb_spec c 127); [reflexivity|exfalso; lia].
Qed.
Print Assumptions C37_plain.

Example C37_text_example : forall printable, repr printable [31] = [39; 92; 120; 49; 102; 39] /\ repr printable [97; 98] = [39; 97; 98; 39].
Proof. intro p. split; reflexivity. Qed.
