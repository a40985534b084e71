(** C96: names without extension. *)
From Coq Require Import String.
From Coq Require Import List Ascii Bool Arith Lia.
From Verif Require Import PyBase PyStr MemModel AttrModel GlobModel FlowModel FlowSpec FlowProofs FlowProps.
Import ListNotations.
Open Scope list_scope.
Open Scope nat_scope.

(** Dots at the beginning do not start an extension. *)
Theorem C96_hidden : forall d k name, ~ In slash name -> ~ In dot name ->
  stem (d ++ slash :: repeat dot k ++ name) = repeat dot k ++ name.
Proof.
  intros d k name N1 N2.
  assert (P : ~ In slash (repeat dot k ++ name)).
  { intros I. apply in_app_or in I as [I|I]; auto. apply repeat_spec in I. discriminate. }
  unfold stem, path_split. cbn [snd]. rewrite tail_of_app by exact P. unfold splitext0.
  destruct k as [|k].
  - cbn [repeat List.app]. rewrite tail_of_none by exact N2. now rewrite Nat.sub_diag.
  - replace (repeat dot (S k) ++ name) with (repeat dot k ++ dot :: name).
    2:{ change (dot :: name) with ([dot] ++ name). rewrite app_assoc. f_equal. symmetry. apply repeat_cons. }
    rewrite tail_of_app by exact N2. rewrite app_length, repeat_length. cbn [length].
    replace (k + S (length name) - length name) with (length (repeat dot k) + 1) by (rewrite repeat_length; lia).
    rewrite firstn_app_2. cbn [firstn]. rewrite rev_app_distr. cbn [rev List.app].
    assert (F : forallb (ceqb dot) (rev (repeat dot k)) = true).
    { apply forallb_forall. intros x I. apply in_rev, repeat_spec in I. subst. reflexivity. }
    now rewrite F.
Qed.
Print Assumptions C96_hidden.
Example C96_hidden_example : stem (s_ "/home/.cache") = s_ ".cache" /\ stem (s_ "/home/..x") = s_ "..x" /\ stem (s_ "/home/.x.h5") = s_ ".x".
Proof. repeat split. Qed.
