(** Theorems about byte orders. *)
From Coq Require Import String.
From Coq Require Import List Bool Arith.
From Verif Require Import PyBase PyStr OrdModel OrdSpec.
Import ListNotations.
Open Scope nat_scope.
Open Scope list_scope.

Lemma same_or_native sys a :
  ensure_native_byteorder sys a = a \/
  exists n, odt a = Scalar (own sys) n /\ ensure_native_byteorder sys a = mkoarray (Scalar Equal n) (elements a).
Proof.
  destruct a as [[o n|l] e]; [|left; reflexivity]. unfold ensure_native_byteorder. destruct o, sys; cbn; auto; right; eauto.
Qed.
Lemma own_value sys n l v : Value sys (Scalar (own sys) n) l v <-> Value sys (Scalar Equal n) l v.
Proof.
  split; intro V; inversion V; subst;
    repeat match goal with H : lowest_first _ _ |- _ => destruct H as [H|[H ?]] | H : highest_first _ _ |- _ => destruct H as [H|[H ?]] end;
    try discriminate; try (destruct sys; discriminate); subst; try (destruct sys; try discriminate);
    solve [apply Low; unfold lowest_first; auto | apply High; unfold highest_first; auto].
Qed.

(** * C376 *)
(** The values stay. *)
Theorem C376_values sys a : elements (ensure_native_byteorder sys a) = elements a /\
  forall e v, Value sys (odt (ensure_native_byteorder sys a)) e v <-> Value sys (odt a) e v.
Proof.
  destruct (same_or_native sys a) as [E|(n & D & E)]; rewrite E; [split; [reflexivity|tauto]|]. split; [reflexivity|].
  intros e v. rewrite D. symmetry. apply own_value.
Qed.
Print Assumptions C376_values.
(** No scalar type with the order of the architecture written out is left; others are left alone. *)
Theorem C376_scalar sys o n es : 
  ~ Explicit sys (odt (ensure_native_byteorder sys (mkoarray (Scalar o n) es))) /\
  (~ Explicit sys (Scalar o n) -> ensure_native_byteorder sys (mkoarray (Scalar o n) es) = mkoarray (Scalar o n) es).
Proof.
  destruct (same_or_native sys (mkoarray (Scalar o n) es)) as [E|(k & D & E)]; rewrite E.
  - split; [|auto]. intro X. inversion X as [k Y|]. subst. destruct sys; discriminate E.
  - cbn in *. split; [intro X; inversion X as [j Y|]; destruct sys; discriminate|].
    injection D as -> ->. intros X. destruct X. constructor.
Qed.
Print Assumptions C376_scalar.
Example C376_example :
  ensure_native_byteorder LittleArch (mkoarray (Scalar Less 2) [[1; 2]]) = mkoarray (Scalar Equal 2) [[1; 2]] /\
  ensure_native_byteorder LittleArch (mkoarray (Scalar Greater 2) [[1; 2]]) = mkoarray (Scalar Greater 2) [[1; 2]] /\
  Value LittleArch (Scalar Equal 2) [1; 2] (VNumber 513) /\ Value LittleArch (Scalar Greater 2) [1; 2] (VNumber 258).
Proof.
  repeat split.
  - apply (Low LittleArch Equal [1; 2]). right. auto.
  - apply (High LittleArch Greater [1; 2]). left. reflexivity.
Qed.

(** * C377 *)
(** The order of fields stays written out. *)
Theorem C377_compound_refuted : exists sys a, Explicit sys (odt (ensure_native_byteorder sys a)).
Proof.
  exists LittleArch, (mkoarray (Compound [(s_ "a", Scalar Less 2)]) [[1; 2]]).
  apply (There _ (s_ "a") (Scalar Less 2)); [left; reflexivity|]. apply (Here LittleArch).
Qed.
Print Assumptions C377_compound_refuted.
Example C377_example : let a := mkoarray (Compound [(s_ "a", Scalar Less 2); (s_ "b", Scalar Bar 1)]) [[1; 2; 3]] in
  ensure_native_byteorder LittleArch a = a /\
  ~ Explicit LittleArch (newbyteorder Equal (odt a)).
Proof.
  split; [reflexivity|]. intro X. inversion X as [|? ? ? J Y]. subst. destruct J as [H|[H|[]]]; injection H as <- <-; inversion Y.
Qed.
