From Coq Require Import String.
From Coq Require Import List Ascii Bool Arith Lia.
From Verif Require Import PyBase PyStr AttrModel GlobModel GlobSpec2.
Import ListNotations.
Open Scope list_scope.
Open Scope nat_scope.

Lemma ceqb_iff a b : ceqb a b = true <-> a = b.
Proof. unfold ceqb. destruct (ascii_dec a b); split; congruence. Qed.
Lemma ceqb_no a b : ceqb a b = false <-> a <> b.
Proof. unfold ceqb. destruct (ascii_dec a b); split; congruence. Qed.

Lemma upto_close_some : forall s body rest, upto_close s = Some (body, rest) <-> s = body ++ "]"%char :: rest /\ ~ In "]"%char body.
Proof.
  induction s as [|c s IH]; intros body rest; cbn [upto_close].
  - split; [discriminate|]. intros [H _]. destruct body; discriminate.
  - destruct (ceqb c "]"%char) eqn:E.
    + apply ceqb_iff in E. subst c. split.
      * intros H. inversion H; subst. split; auto.
      * intros [H N]. destruct body as [|b body]; cbn in H; inversion H; subst; [reflexivity|]. destruct N. now left.
    + apply ceqb_no in E. split.
      * destruct (upto_close s) as [[b r]|] eqn:U; [|discriminate]. cbn. intros H. inversion H; subst. destruct (IH b rest) as [I _].
        destruct (I eq_refl) as [-> N]. split; [reflexivity|]. intros [K|K]; auto.
      * intros [H N]. destruct body as [|b body]; cbn in H; inversion H; subst; [contradiction|].
        destruct (IH body rest) as [_ I]. rewrite I; [reflexivity|]. split; auto. intros K. apply N. now right.
Qed.
Lemma class_of_iff : forall s neg body rest, class_of s = Some (neg, body, rest) <-> Bracket s neg body rest.
Proof.
  assert (G: forall s neg body rest,
    match s with
    | c :: r => if ceqb c "]" then option_map (fun p => (neg : bool, c :: fst p, snd p)) (upto_close r)
                else option_map (fun p => (neg, fst p, snd p)) (upto_close s)
    | [] => None
    end = Some (neg, body, rest) <-> exists a b, body = a :: b /\ s = a :: b ++ "]"%char :: rest /\ ~ In "]"%char b).
  { intros s neg body rest. destruct s as [|c r]; [split; [discriminate|intros (a & b & _ & H & _); discriminate]|].
    destruct (ceqb c "]"%char) eqn:E.
    - split.
      + destruct (upto_close r) as [[b t]|] eqn:U; [|discriminate]. cbn. intros H. inversion H; subst. apply upto_close_some in U as [-> N]. eauto.
      + intros (a & b & -> & H & N). inversion H; subst. assert (U: upto_close (b ++ "]"%char :: rest) = Some (b, rest)) by now apply upto_close_some.
        now rewrite U.
    - cbn [upto_close]. rewrite E. split.
      + destruct (upto_close r) as [[b t]|] eqn:U; [|discriminate]. cbn. intros H. inversion H; subst. apply upto_close_some in U as [-> N]. eauto.
      + intros (a & b & -> & H & N). inversion H; subst. assert (U: upto_close (b ++ "]"%char :: rest) = Some (b, rest)) by now apply upto_close_some.
        now rewrite U. }
  intros s neg body rest. unfold class_of. destruct s as [|c s].
  - split; [discriminate|inversion 1].
  - destruct (ceqb c "!"%char) eqn:E.
    + apply ceqb_iff in E. subst c. split.
      * intros H. assert (neg = true).
        { destruct s as [|d s]; [discriminate|]. destruct (ceqb d "]"%char); destruct (upto_close _); try discriminate; inversion H; reflexivity. }
        subst neg. apply G in H as (a & b & -> & -> & N). now constructor.
      * inversion 1 as [a b r Na Nb|a b r Nb]; subst; [contradiction|]. apply (G (a :: b ++ "]"%char :: rest)). eauto.
    + apply ceqb_no in E. split.
      * intros H. assert (neg = false).
        { destruct (ceqb c "]"%char); destruct (upto_close _); try discriminate; inversion H; reflexivity. }
        subst neg. apply (G (c :: s)) in H as (a & b & -> & H & N). inversion H; subst. now constructor.
      * inversion 1 as [a b r Na Nb|a b r Nb]; subst; [|contradiction]. apply (G (c :: b ++ "]"%char :: rest)). eauto.
Qed.
Lemma class_of_rest s neg body rest : class_of s = Some (neg, body, rest) -> length rest < length s.
Proof.
  intros H. apply class_of_iff in H. inversion H; subst; cbn; rewrite app_length; cbn; lia.
Qed.
Lemma in_class_iff : forall body c, in_class body c = true <-> InSet body c.
Proof.
  assert (G: forall n body c, length body <= n -> (in_class body c = true <-> InSet body c)).
  { induction n as [|n IH]; intros body c L.
    { destruct body; [|cbn in L; lia]. split; [discriminate|inversion 1]. }
    assert (Plain: forall a r, (forall b t, r <> "-"%char :: b :: t) -> length r <= n ->
              (ceqb a c || in_class r c = true <-> InSet (a :: r) c)).
    { intros a r Hr L'. rewrite orb_true_iff, IH by assumption. split.
      - intros [E|E]; [apply ceqb_iff in E; subst; now apply IS_one|now apply IS_skip].
      - inversion 1; subst; try (exfalso; now eapply Hr); auto. left. now apply ceqb_iff. }
    destruct body as [|a [|h [|b r]]].
    - split; [discriminate|inversion 1].
    - cbn [in_class]. apply (Plain a []); [discriminate|cbn in *; lia].
    - change (in_class (a :: [h]) c) with (ceqb a c || in_class [h] c). apply (Plain a [h]); [discriminate|cbn in *; lia].
    - change (in_class (a :: h :: b :: r) c) with
        (if ceqb h "-" then ((nat_of_ascii a <=? nat_of_ascii c) && (nat_of_ascii c <=? nat_of_ascii b)) || in_class r c
         else ceqb a c || in_class (h :: b :: r) c).
      destruct (ceqb h "-"%char) eqn:E.
      + apply ceqb_iff in E. subst h. rewrite orb_true_iff, andb_true_iff, !Nat.leb_le, IH by (cbn in L; lia). split.
        * intros [K|K]; [now apply IS_range|now apply IS_range_skip].
        * inversion 1; subst; auto; exfalso; match goal with K : forall b t, _ <> _ |- _ => now eapply K end.
      + apply ceqb_no in E. apply Plain; [congruence|cbn in *; lia]. }
  intros body c. now apply (G (length body)).
Qed.

Lemma pmatch_iff : forall fuel p s, length p + length s < fuel -> (pmatch fuel p s = true <-> Matches p s).
Proof.
  induction fuel as [|fuel IH]; intros p s L; [lia|]. cbn [pmatch]. destruct p as [|a p'].
  { destruct s; split; try discriminate; try constructor; inversion 1. }
  cbn [length] in L. destruct (ceqb a "*"%char) eqn:E1.
  { apply ceqb_iff in E1. subst a. rewrite orb_true_iff, IH by lia. split.
    - intros [H|H]; [exact (M_star p' [] s H)|]. destruct s as [|c s']; [discriminate|]. apply IH in H; [|cbn in *; lia].
      inversion H; subst.
      + exact (M_star p' (c :: s) t H1).
      + congruence.
    - inversion 1; subst; [|congruence]. destruct s0 as [|c s0]; [now left|]. right. cbn [List.app]. apply IH.
      + cbn in *. lia.
      + now constructor. }
  apply ceqb_no in E1. destruct s as [|c s'].
  { split; [discriminate|]. inversion 1; subst; congruence. }
  cbn [length] in L. destruct (ceqb a "?"%char) eqn:E2.
  { apply ceqb_iff in E2. subst a. rewrite IH by lia. split; [now constructor|]. inversion 1; subst; auto; congruence. }
  apply ceqb_no in E2. destruct (ceqb a "["%char) eqn:E3.
  - apply ceqb_iff in E3. subst a. destruct (class_of p') as [[[neg body] rest]|] eqn:C.
    + pose proof (class_of_rest _ _ _ _ C) as Lr. rewrite andb_true_iff, IH by lia.
      assert (U: forall n b r, Bracket p' n b r -> n = neg /\ b = body /\ r = rest).
      { intros n b r K. apply class_of_iff in K. rewrite C in K. inversion K; auto. }
      apply class_of_iff in C. split.
      * intros [X M]. destruct neg; cbn [xorb] in X.
        -- apply (M_not_in p' body rest); auto. rewrite <- in_class_iff. destruct (in_class body c); discriminate || discriminate.
        -- apply (M_in p' body rest); auto. apply in_class_iff. destruct (in_class body c); auto.
      * inversion 1 as [| | |r b t c0 s0 B I M|r b t c0 s0 B I M|a0 p0 s0 N1 N2 N3 M]; subst.
        -- destruct (U _ _ _ B) as (<- & -> & ->). apply in_class_iff in I. rewrite I. auto.
        -- destruct (U _ _ _ B) as (<- & -> & ->). split; auto. destruct (in_class body c) eqn:K; auto. apply in_class_iff in K. contradiction.
        -- exfalso. exact (N3 eq_refl _ _ _ C).
    + assert (U: forall n b r, ~ Bracket p' n b r).
      { intros n b r K. apply class_of_iff in K. rewrite C in K. discriminate. }
      rewrite andb_true_iff, IH by lia. split.
      * intros [X M]. apply ceqb_iff in X. subst c. constructor; auto.
      * inversion 1; subst; try (exfalso; match goal with B : Bracket _ _ _ _ |- _ => exact (U _ _ _ B) end). split; [now apply ceqb_iff|auto].
  - apply ceqb_no in E3. rewrite andb_true_iff, IH by lia. split.
    + intros [X M]. apply ceqb_iff in X. subst c. constructor; auto.
    + inversion 1; subst; try contradiction. split; [now apply ceqb_iff|auto].
Qed.
