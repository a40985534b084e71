(** Strings and paths. *)
From Coq Require Import List Ascii Bool Arith Lia.
From Verif Require Import PyBase PyStr MemModel MemSpec.
Import ListNotations.

(** *** Words *)
Lemma ceqb_refl : forall c, ceqb c c = true.
Proof. intro c. now apply ceqb_eq. Qed.

Lemma words_from_split : forall s cur,
  words_from cur s = filter nonempty (match split slash s with w :: ws => (cur ++ w) :: ws | [] => [] end).
Proof.
  induction s as [|x s IH]; intro cur; cbn [words_from split].
  - rewrite app_nil_r. cbn. destruct cur; reflexivity.
  - pose proof (split_nonempty slash s) as N. destruct (ceqb x slash).
    + rewrite IH. destruct (split slash s) as [|w ws]; [congruence|]. cbn [app].
      rewrite app_nil_r. destruct cur; reflexivity.
    + rewrite IH. destruct (split slash s) as [|w ws]; [congruence|].
      now rewrite <- app_assoc.
Qed.
Lemma words_split : forall s, words s = filter nonempty (split slash s).
Proof.
  intro s. unfold words. rewrite words_from_split. pose proof (split_nonempty slash s) as N.
  destruct (split slash s); [congruence|reflexivity].
Qed.

Definition good (w : str) : Prop := w <> [] /\ ~ In slash w.
Lemma words_good : forall s, Forall good (words s).
Proof.
  intro s. rewrite words_split. apply Forall_forall. intros w H. apply filter_In in H as [H1 H2].
  split; [intros ->; discriminate|]. eapply split_noslash; eauto.
Qed.

Lemma words_from_app : forall a b cur, words_from cur (a ++ slash :: b) = words_from cur a ++ words b.
Proof.
  induction a as [|x a IH]; intros b cur.
  - cbn [app words_from]. rewrite ceqb_refl. reflexivity.
  - cbn [app words_from]. destruct (ceqb x slash).
    + rewrite IH. now rewrite app_assoc.
    + apply IH.
Qed.
Lemma words_app : forall a b, words (a ++ slash :: b) = words a ++ words b.
Proof. intros. apply words_from_app. Qed.
Lemma words_slash : forall b, words (slash :: b) = words b.
Proof. intro b. apply (words_app [] b). Qed.
Lemma words_from_word : forall w cur, ~ In slash w -> words_from cur w = flush (cur ++ w).
Proof.
  induction w as [|x w IH]; intros cur H; cbn [words_from]; [now rewrite app_nil_r|].
  replace (ceqb x slash) with false by (symmetry; apply ceqb_neq; intros ->; apply H; now left).
  rewrite IH by (intro G; apply H; now right). now rewrite <- app_assoc.
Qed.
Lemma words_word : forall w, good w -> words w = [w].
Proof.
  intros w [H1 H2]. unfold words. rewrite words_from_word by assumption. destruct w; [congruence|reflexivity].
Qed.
Lemma words_snoc_slash : forall a, words (a ++ [slash]) = words a.
Proof. intro a. rewrite words_app. apply app_nil_r. Qed.

(** *** Canonical paths *)

Lemma join_snoc : forall us w, us <> [] -> join slash (us ++ [w]) = join slash us ++ slash :: w.
Proof.
  induction us as [|u us IH]; intros w H; [congruence|]. destruct us as [|v us]; [reflexivity|].
  change ((u :: v :: us) ++ [w]) with (u :: (v :: us) ++ [w]).
  change (join slash (u :: (v :: us) ++ [w])) with (u ++ slash :: join slash ((v :: us) ++ [w])).
  rewrite IH by discriminate. change (join slash (u :: v :: us)) with (u ++ slash :: join slash (v :: us)).
  now rewrite <- app_assoc.
Qed.
Lemma join_last : forall us, us <> [] -> Forall good us ->
  exists p c, join slash us = p ++ [c] /\ c <> slash.
Proof.
  intros us Hne Hg. destruct (exists_last Hne) as (vs & w & ->).
  apply Forall_app in Hg as [_ Hw]. apply Forall_inv in Hw as [H1 H2].
  destruct (exists_last H1) as (w0 & c & ->).
  assert (Hc : c <> slash) by (intros ->; apply H2, in_or_app; right; now left).
  destruct vs as [|v vs].
  - exists w0, c. split; [reflexivity|exact Hc].
  - rewrite join_snoc by discriminate. exists (join slash (v :: vs) ++ slash :: w0), c.
    split; [|exact Hc]. now rewrite <- app_assoc.
Qed.
Lemma startswith_word : forall w, ~ In slash w -> startswith [slash] w = false.
Proof.
  intros [|x w] H; [reflexivity|]. cbn.
  replace (ceqb slash x) with false; [reflexivity|]. symmetry. apply ceqb_neq. intros <-. apply H. now left.
Qed.
Lemma path_join_canonical : forall us w, Forall good us -> good w ->
  path_join (canonical us) w = canonical (us ++ [w]).
Proof.
  intros us w Hu [H1 H2]. unfold path_join. rewrite startswith_word by assumption.
  destruct us as [|u us].
  - cbn. reflexivity.
  - destruct (join_last (u :: us)) as (p & c & E & Hc); [discriminate|assumption|].
    unfold canonical at 1. rewrite E. change (slash :: p ++ [c]) with ((slash :: p) ++ [c]).
    rewrite rev_unit.
    replace (ceqb c slash) with false by (symmetry; now apply ceqb_neq).
    unfold canonical. rewrite join_snoc by discriminate. rewrite <- app_comm_cons. unfold canonical.
    rewrite E. reflexivity.
Qed.
Lemma fold_join : forall ws us, Forall good us -> Forall good ws ->
  fold_left path_join ws (canonical us) = canonical (us ++ ws).
Proof.
  induction ws as [|w ws IH]; intros us Hu Hw; cbn [fold_left]; [now rewrite app_nil_r|].
  pose proof (Forall_inv Hw) as H1. pose proof (Forall_inv_tail Hw) as H2.
  rewrite path_join_canonical by assumption. rewrite IH; [now rewrite <- app_assoc| |assumption].
  apply Forall_app. split; [assumption|]. constructor; [assumption|constructor].
Qed.
Lemma isabs_absolute : forall p, isabs p = true <-> absolute p.
Proof.
  intro p. unfold isabs, absolute. destruct p as [|x p]; cbn.
  - split; [discriminate|intros (r & H); discriminate].
  - rewrite andb_true_r, ceqb_eq. split; [intros <-; eauto|intros (r & H); congruence].
Qed.
Theorem format_canonical : forall p, absolute p -> format_abs_path p = Ok (canonical (words p)).
Proof.
  intros p H. unfold format_abs_path. rewrite (proj2 (isabs_absolute p) H). cbn [negb].
  rewrite <- words_split. change [slash] with (canonical []). rewrite fold_join; [reflexivity|constructor|apply words_good].
Qed.
Theorem format_relative : forall p, ~ absolute p -> format_abs_path p = Err ValueError.
Proof.
  intros p H. unfold format_abs_path. destruct (isabs p) eqn:E0; [|reflexivity].
  exfalso. apply H. now apply isabs_absolute.
Qed.
Lemma absolute_dec : forall p, absolute p \/ ~ absolute p.
Proof.
  intro p. destruct (isabs p) eqn:E0; [left; now apply isabs_absolute|right].
  intro H. apply isabs_absolute in H. congruence.
Qed.
Lemma canonical_absolute : forall ws, absolute (canonical ws).
Proof. intro ws. eexists. reflexivity. Qed.
Lemma words_canonical : forall ws, Forall good ws -> words (canonical ws) = ws.
Proof.
  intros ws H. unfold canonical. rewrite words_slash. destruct ws as [|w ws]; [reflexivity|].
  rewrite words_split, split_join; [|discriminate|].
  - clear -H. induction H as [|x l [H1 H2] H IH]; [reflexivity|]. cbn [filter].
    destruct x; [congruence|]. cbn [nonempty]. now rewrite IH.
  - rewrite Forall_forall in H. intros u Hu. apply (H u Hu).
Qed.
Lemma split_canonical : forall ws, ws <> [] -> Forall good ws -> split slash (canonical ws) = [] :: ws.
Proof.
  intros ws Hne H. unfold canonical. cbn [split]. rewrite ceqb_refl.
  rewrite split_join; [reflexivity|assumption|]. rewrite Forall_forall in H. intros u Hu. apply (H u Hu).
Qed.
Lemma canonical_root : forall ws, Forall good ws -> seqb (canonical ws) [slash] = match ws with [] => true | _ => false end.
Proof.
  intros ws H. destruct ws as [|w ws]; [reflexivity|]. apply seqb_neq. intro E0.
  apply (f_equal words) in E0. rewrite words_canonical in E0 by assumption. discriminate.
Qed.

(** *** What a name means *)
Lemma words_path_join : forall self name, absolute self -> words (path_join self name) = target self name.
Proof.
  intros self name (r & ->). unfold path_join, target. destruct name as [|c name].
  - cbn [startswith]. destruct (rev (slash :: r)) as [|x l] eqn:E0.
    + apply (f_equal (@rev ascii)) in E0. rewrite rev_involutive in E0. discriminate.
    + destruct (ceqb x slash); [now rewrite app_nil_r|]. apply words_snoc_slash.
  - cbn [startswith]. rewrite andb_true_r.
    destruct (ceqb c slash) eqn:E1.
    + apply ceqb_eq in E1. subst c. now rewrite ceqb_refl.
    + replace (ceqb slash c) with false by (symmetry; apply ceqb_neq; apply ceqb_neq in E1; congruence).
      destruct (rev (slash :: r)) as [|x l] eqn:E0.
      * apply (f_equal (@rev ascii)) in E0. rewrite rev_involutive in E0. discriminate.
      * assert (Hs : slash :: r = rev l ++ [x]).
        { apply (f_equal (@rev ascii)) in E0. rewrite rev_involutive in E0. exact E0. }
        rewrite Hs. destruct (ceqb x slash) eqn:E2.
        -- apply ceqb_eq in E2. subst x. rewrite <- app_assoc. cbn [app].
           rewrite words_app. now rewrite words_snoc_slash.
        -- apply words_app.
Qed.
Lemma path_join_absolute : forall self name, absolute self -> absolute (path_join self name).
Proof.
  intros self name (r & ->). unfold path_join. destruct (startswith [slash] name) eqn:E0.
  - now apply isabs_absolute.
  - destruct (rev (slash :: r)) as [|x l] eqn:E1.
    + apply (f_equal (@rev ascii)) in E1. rewrite rev_involutive in E1. discriminate.
    + destruct (ceqb x slash); eexists; reflexivity.
Qed.
Lemma target_absolute : forall self name, absolute name -> target self name = words name.
Proof. intros self name (r & ->). unfold target. now rewrite ceqb_refl. Qed.
Lemma path_join_plain : forall self name, plain_end name -> plain_end (path_join self name).
Proof.
  intros self name (p & c & -> & Hc). unfold path_join, plain_end.
  destruct (startswith [slash] (p ++ [c])); [eauto|].
  destruct (rev self) as [|x l]; [eauto|].
  destruct (ceqb x slash).
  - exists (self ++ p), c. now rewrite app_assoc.
  - exists (self ++ slash :: p), c. split; [|exact Hc]. now rewrite <- app_assoc.
Qed.

(** *** Splitting off the last name *)
Lemma in_last_split : forall c (s : str), In c s -> exists a b, s = a ++ c :: b /\ ~ In c b.
Proof.
  intros c s. induction s as [|x s IH]; intro H; [destruct H|].
  destruct (in_dec ascii_dec c s) as [Hi|Hi].
  - destruct (IH Hi) as (a & b & -> & Hb). exists (x :: a), b. auto.
  - destruct H as [->|H]; [|contradiction]. exists [], s. auto.
Qed.
Lemma lstrip_words : forall s, words (lstrip slash s) = words s.
Proof.
  induction s as [|x s IH]; [reflexivity|]. cbn [lstrip]. destruct (ceqb x slash) eqn:E0; [|reflexivity].
  apply ceqb_eq in E0. subst x. now rewrite words_slash.
Qed.
Lemma lstrip_form : forall s, exists k, s = repeat slash k ++ lstrip slash s.
Proof.
  induction s as [|x s IH]; [exists 0; reflexivity|]. cbn [lstrip]. destruct (ceqb x slash) eqn:E0.
  - apply ceqb_eq in E0. subst x. destruct IH as (k & IH). exists (S k). cbn. now rewrite <- IH.
  - exists 0. reflexivity.
Qed.
Lemma rev_repeat : forall (x : ascii) n, rev (repeat x n) = repeat x n.
Proof.
  intros x n. induction n as [|n IH]; [reflexivity|]. cbn [repeat rev]. rewrite IH.
  clear IH. induction n as [|n IH]; [reflexivity|]. cbn. now rewrite IH.
Qed.
Lemma words_trailing : forall a k, words (a ++ repeat slash k) = words a.
Proof.
  intros a k. induction k as [|k IH]; [now rewrite app_nil_r|].
  replace (repeat slash (S k)) with (repeat slash k ++ [slash]).
  - rewrite app_assoc, words_snoc_slash. exact IH.
  - clear. induction k as [|k IH]; [reflexivity|]. cbn. now rewrite IH.
Qed.
Lemma rstrip_form : forall s, exists k, s = rstrip slash s ++ repeat slash k.
Proof.
  intro s. destruct (lstrip_form (rev s)) as (k & E0). exists k.
  apply (f_equal (@rev ascii)) in E0. rewrite rev_involutive, rev_app_distr, rev_repeat in E0. exact E0.
Qed.
Lemma rstrip_words : forall s, words (rstrip slash s) = words s.
Proof.
  intro s. destruct (rstrip_form s) as (k & E0). rewrite E0 at 2. now rewrite words_trailing.
Qed.
Lemma path_split_spec : forall P, absolute P -> plain_end P ->
  exists h t, path_split P = (h, t) /\ absolute h /\ good t /\ words P = words h ++ [t].
Proof.
  intros P (r & Hr) (p & c & Hp & Hc).
  destruct (in_last_split slash P) as (a & b & HP & Hb); [rewrite Hr; now left|].
  assert (Hg : good b).
  { split; [|exact Hb]. intros ->. rewrite Hp in HP.
    apply app_inj_tail in HP as [_ HP]. congruence. }
  unfold path_split. unfold head_of.
  assert (Ht : tail_of slash P = b) by (rewrite HP; now apply tail_of_app).
  rewrite Ht.
  assert (Hh : firstn (length P - length b) P = a ++ [slash]).
  { rewrite HP. replace (a ++ slash :: b) with ((a ++ [slash]) ++ b) by (now rewrite <- app_assoc).
    rewrite app_length. replace (length (a ++ [slash]) + length b - length b) with (length (a ++ [slash])) by lia.
    rewrite firstn_app, Nat.sub_diag, firstn_all. cbn. apply app_nil_r. }
  rewrite Hh. eexists. exists b. split; [reflexivity|].
  assert (Habs : absolute (a ++ [slash])).
  { destruct a as [|x a]; [eexists; reflexivity|]. rewrite Hr in HP. injection HP as <- _. eexists. reflexivity. }
  assert (HW : words P = words (a ++ [slash]) ++ [b]).
  { rewrite HP, words_app, words_snoc_slash. f_equal. now apply words_word. }
  destruct (forallb (ceqb slash) (a ++ [slash])) eqn:EF.
  - auto.
  - split; [|split; [exact Hg|now rewrite rstrip_words]].
    destruct (rstrip_form (a ++ [slash])) as (k & E0).
    destruct (rstrip slash (a ++ [slash])) as [|y s'] eqn:ER.
    + exfalso. rewrite E0 in EF. cbn [app] in EF.
      assert (forallb (ceqb slash) (repeat slash k) = true).
      { clear. induction k as [|k IH]; [reflexivity|]. cbn [repeat forallb]. now rewrite ceqb_refl. }
      congruence.
    + destruct Habs as (q & Hq). rewrite Hq in E0. injection E0 as <- _. eexists. reflexivity.
Qed.
