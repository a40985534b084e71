(** Proofs about LoadModel.v. *)
From Coq Require Import String.
From Coq Require Import List Ascii Bool Arith Lia.
From Verif Require Import PyBase PyStr MemModel MemSpec MemProofs MemProofs2 LoadModel LoadSpec.
Import ListNotations.
Open Scope list_scope.
Open Scope nat_scope.

Section Dict.
Context {V : Type}.
Implicit Types l : list (str * V).

Lemma dget_In : forall l k v, dget k l = Some v -> In (k, v) l.
Proof.
  induction l as [|[k' v'] l IH]; intros k v H; cbn in H; [discriminate|].
  destruct (seqb k k') eqn:E; [apply seqb_eq in E; subst; injection H as ->; now left|]. right. auto.
Qed.
Lemma dget_entry : forall l k v, dict l -> dget k l = Some v <-> entry l k v.
Proof.
  intros l k v D. split; [apply dget_In|]. unfold entry. intros I.
  induction l as [|[k' v'] l IH]; [contradiction|]. cbn. inversion D as [|? ? N D']; subst.
  destruct I as [I|I].
  - injection I as -> ->. now rewrite seqb_refl.
  - destruct (seqb k k') eqn:E.
    + apply seqb_eq in E. subst. exfalso. apply N. apply in_map_iff. now exists (k', v).
    + auto.
Qed.
Lemma dget_no_entry : forall l k, dget k l = None <-> no_entry l k.
Proof.
  intros l k. unfold no_entry. split.
  - intros H v I. induction l as [|[k' v'] l IH]; [contradiction|]. cbn in H.
    destruct (seqb k k') eqn:E; [discriminate|]. destruct I as [I|I]; [|now apply IH].
    injection I as -> ->. now rewrite seqb_refl in E.
  - intros H. destruct (dget k l) as [v|] eqn:E; [|reflexivity]. apply dget_In in E. now destruct (H v).
Qed.
End Dict.

Lemma dget_update : forall e d k, dict e -> dget k (update d e) = match dget k e with Some v => Some v | None => dget k d end.
Proof.
  induction e as [|[k' v'] e IH]; intros d k D; [reflexivity|]. inversion D as [|? ? N D']; subst.
  unfold update in *. cbn [fold_left fst snd dget]. rewrite IH by exact D'.
  destruct (seqb k k') eqn:E.
  - apply seqb_eq in E. subst. replace (dget k' e) with (@None yv).
    + apply dget_dput_same.
    + symmetry. apply dget_no_entry. intros v I. apply N. apply in_map_iff. now exists (k', v).
  - destruct (dget k e); [reflexivity|]. apply dget_dput_other. now apply seqb_neq.
Qed.

(** Layers. *)
Lemma shows_app : forall k ls (l : list (str * yv)) v, dict l ->
  shows k (ls ++ [l]) v <-> match dget k l with Some w => v = w | None => shows k ls v end.
Proof.
  intros k ls l v D. split.
  - intros H. inversion H as [ls' l' v' E EQ|ls' l' v' N S EQ]; apply app_inj_tail in EQ as [-> ->].
    + apply dget_entry in E; [|exact D]. now rewrite E.
    + apply dget_no_entry in N. now rewrite N.
  - destruct (dget k l) as [w|] eqn:E.
    + intros ->. apply shows_top. apply dget_entry; auto.
    + intros H. apply shows_below; [|exact H]. now apply dget_no_entry.
Qed.

Lemma shows_layers : forall ls k v, Forall dict ls ->
  dget k (fold_left update ls []) = Some v <-> shows k ls v.
Proof.
  intros ls. induction ls as [|l ls IH] using rev_ind; intros k v F.
  - cbn. split; [discriminate|]. intros H. inversion H as [ls' l' v' E EQ|ls' l' v' N S EQ]; destruct ls'; discriminate.
  - apply Forall_app in F as [F1 F2]. inversion F2; subst. rewrite fold_left_app. cbn [fold_left].
    rewrite dget_update, shows_app by assumption. destruct (dget k l) as [w|].
    + split; congruence.
    + now apply IH.
Qed.

Lemma update_nil : forall d : list (str * yv), dict d -> update [] d = d.
Proof.
  intros d. unfold update.
  assert (H : forall d acc : list (str * yv), dict (acc ++ d) -> fold_left (fun d kv => dput (fst kv) (snd kv) d) d acc = acc ++ d).
  { clear d. induction d as [|[k v] d IH]; intros acc D; cbn [fold_left fst snd]; [now rewrite app_nil_r|].
    replace (dput k v acc) with (acc ++ [(k, v)]).
    - rewrite IH; rewrite <- app_assoc; [reflexivity|exact D].
    - assert (N : ~ In k (map fst acc)).
      { unfold dict in D. rewrite map_app in D. cbn in D. apply NoDup_remove_2 in D. intros I. apply D. apply in_or_app. now left. }
      clear D IH. induction acc as [|[k' v'] acc IH]; [reflexivity|]. cbn.
      destruct (seqb k k') eqn:E; [apply seqb_eq in E; subst; exfalso; apply N; now left|].
      f_equal. apply IH. intros I. apply N. now right. }
  intros D. now rewrite (H d []).
Qed.

Lemma dict_layers : forall (ls : list (list (str * yv))) acc, dict acc -> dict (fold_left update ls acc).
Proof.
  induction ls as [|l ls IH]; intros acc D; [exact D|]. apply IH. unfold update.
    revert acc D. induction l as [|[k v] l IHl]; intros acc D; [exact D|]. cbn [fold_left fst snd]. apply IHl.
    clear - D. induction acc as [|[k' v'] acc IH]; cbn; [repeat constructor; intros []|].
    inversion D as [|? ? N D']; subst. destruct (seqb k k') eqn:E.
    - constructor; assumption.
    - cbn. constructor; [|now apply IH]. intros I. apply N. clear - I E.
      induction acc as [|[k2 v2] acc IH]; cbn in *.
      + destruct I as [I|[]]. subst. now rewrite seqb_refl in E.
      + destruct (seqb k k2); cbn in I; [exact I|]. destruct I as [I|I]; [now left|right; auto].
Qed.

(** Updates one after the other equal one update with all. *)
Lemma update_shows : forall global ls k v, Forall dict (global :: ls) ->
  dget k (update global (fold_left update ls [])) = Some v <-> shows k (global :: ls) v.
Proof.
  intros global ls k v F. inversion F as [|? ? Dg F']; subst.
  assert (D : dict (fold_left update ls [])).
  { apply dict_layers. constructor. }
  rewrite dget_update by exact D.
  replace (global :: ls) with ([global] ++ ls) by reflexivity.
  rewrite <- (shows_layers ([global] ++ ls)) by exact F.
  clear F. revert D. induction ls as [|l ls IH] using rev_ind; intros D.
  - cbn [fold_left List.app]. rewrite update_nil by exact Dg. reflexivity.
  - apply Forall_app in F' as [F1 F2]. inversion F2; subst.
    rewrite app_assoc, !fold_left_app. rewrite fold_left_app in D. cbn [fold_left] in *.
    rewrite !dget_update by assumption. destruct (dget k l) as [w|]; [reflexivity|].
    apply IH; auto.
    apply dict_layers. constructor.
Qed.

(** ** Names of classes *)

Lemma split_last : forall m c, ~ In dot c -> split dot (m ++ dot :: c) = split dot m ++ [c].
Proof.
  intros m c N. rewrite <- (join_split dot m) at 1.
  pose proof (split_nonempty dot m) as NE. pose proof (split_noslash dot m) as NS.
  assert (E : join dot (split dot m) ++ dot :: c = join dot (split dot m ++ [c])).
  { clear NS. induction (split dot m) as [|w ws IH]; [contradiction|]. destruct ws as [|v ws]; [reflexivity|].
    change (join dot (w :: v :: ws)) with (w ++ dot :: join dot (v :: ws)).
    change ((w :: v :: ws) ++ [c]) with (w :: v :: (ws ++ [c])).
    change (join dot (w :: v :: ws ++ [c])) with (w ++ dot :: join dot ((v :: ws) ++ [c])).
    rewrite <- app_assoc. cbn [List.app]. rewrite IH by discriminate. reflexivity. }
  rewrite E. apply split_join.
  - destruct (split dot m); discriminate.
  - intros w I. apply in_app_or in I as [I|[<-|[]]]; [now apply NS|exact N].
Qed.

Lemma import_class_dotted : forall w m c, m <> [] -> ~ In dot c ->
  import_class w (m ++ dot :: c) =
  lbind (import_module w m) (fun md => match m_attr md c with Some k => Good k | None => Bad (plain AttributeErr) end).
Proof.
  intros w m c NE N. unfold import_class. rewrite split_last by exact N.
  rewrite removelast_last, last_last, join_split. destruct m; [congruence|reflexivity].
Qed.
Lemma import_class_single : forall w c, ~ In dot c ->
  import_class w c = match w_globals w c with Some k => Good k | None => Bad (plain KeyErr) end.
Proof. intros w c N. unfold import_class. rewrite split_word by exact N. reflexivity. Qed.

Lemma add_group_bad : forall all ks e, fold_left (add_group all) ks (Bad e) = Bad e.
Proof. intros all ks e. induction ks; cbn; auto. Qed.

Lemma add_groups : forall all (ks : list str) ds acc,
  Forall2 (fun k d => exists n, dget k all = Some (YDict n d)) ks ds ->
  fold_left (add_group all) (map YStr ks) (Good acc) = Good (fold_left update ds acc).
Proof.
  intros all ks ds acc H. revert acc. induction H as [|k d ks ds [n E] H IH]; intros acc; [reflexivity|].
  cbn [map fold_left]. unfold add_group at 2. cbn [lbind]. rewrite E. cbn [update_with]. apply IH.
Qed.
