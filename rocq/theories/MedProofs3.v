(** Proofs about the moving window. *)
From Coq Require Import List ZArith Bool Sorted Permutation Lia.
From Verif Require Import PyBase MedModel MedSpec MedProofs MedProofs2.
Import ListNotations.
Open Scope Z_scope.

Definition mask (x : datum) : datum := if snd x =? 0 then (0, 0) else x.

Definition inv (st : tree * list datum) (w : list datum) : Prop :=
  snd st = map mask w /\ avl (fst st) /\ ordered (inorder (fst st)) /\
  Permutation (inorder (fst st)) (weighty w).

Lemma weighty_app : forall a b, weighty (a ++ b) = weighty a ++ weighty b.
Proof. intros. apply filter_app. Qed.

Lemma inv_empty : inv (E, []) [].
Proof. repeat split; cbn; auto. constructor. Qed.

Lemma enter_inv : forall st w x, inv st w -> inv (enter x st) (w ++ [x]).
Proof.
  intros [t fifo] w x (H1 & H2 & H3 & H4). cbn [fst snd] in *. unfold enter.
  unfold inv. rewrite map_app, weighty_app. cbn [map weighty filter].
  assert (Hm : mask x = if snd x =? 0 then (0, 0) else x) by reflexivity. rewrite Hm.
  destruct (Z.eqb_spec (snd x) 0) as [H0|H0]; cbn [negb fst snd].
  - rewrite app_nil_r. subst. auto.
  - destruct (insert_spec x t H2) as (I1 & _ & I2 & I3).
    subst. repeat split; auto.
    eapply Permutation_trans; [exact I2|].
    eapply Permutation_trans; [apply perm_skip, H4|]. apply Permutation_cons_append.
Qed.
Lemma enter_all_inv : forall xs st w, inv st w -> inv (enter_all xs st) (w ++ xs).
Proof.
  induction xs as [|x xs IH]; intros st w H; cbn [enter_all fold_left].
  - now rewrite app_nil_r.
  - change (x :: xs) with ([x] ++ xs). rewrite app_assoc. apply IH. now apply enter_inv.
Qed.

Lemma leave_inv : forall st x w, inv st (x :: w) -> exists st', leave st = Ok st' /\ inv st' w.
Proof.
  intros [t fifo] x w (H1 & H2 & H3 & H4). cbn [fst snd] in *. unfold leave. rewrite H1. cbn [map].
  cbn [weighty filter] in H4. 
  assert (Hm : mask x = if snd x =? 0 then (0, 0) else x) by reflexivity. rewrite Hm. clear Hm.
  destruct (Z.eqb_spec (snd x) 0) as [H0|H0]; cbn [snd].
  - exists (t, map mask w). split; [reflexivity|]. repeat split; auto.
  - apply Z.eqb_neq in H0. rewrite H0. cbn [negb] in H4.
    pose proof (remove_spec x t H2 H3) as HR. destruct (remove x t) as [t'|].
    + destruct HR as (R1 & R2 & R3 & _). exists (t', map mask w). split; [reflexivity|].
      repeat split; auto. cbn [fst]. eapply Permutation_cons_inv.
      eapply Permutation_trans; [exact R2|exact H4].
    + exfalso. apply HR. eapply Permutation_in; [apply Permutation_sym, H4|]. now left.
Qed.
Lemma leave_n_inv : forall xs st w, inv st (xs ++ w) ->
  exists st', leave_n (length xs) st = Ok st' /\ inv st' w.
Proof.
  induction xs as [|x xs IH]; intros st w H; cbn [length leave_n].
  - exists st. auto.
  - destruct (leave_inv st x (xs ++ w) H) as (st1 & E1 & H1). rewrite E1. cbn [rbind].
    now apply IH.
Qed.

(** *** Slices of rows *)
Lemma lslice_snoc : forall A (l : list A) a b, (a <= b)%nat ->
  lslice a (b + 1) l = lslice a b l ++ match nth_error l b with Some x => [x] | None => [] end.
Proof.
  intros A l a b H. unfold lslice. revert a b H. induction l as [|y l IH]; intros a b H.
  - rewrite !skipn_nil, !firstn_nil. destruct b; reflexivity.
  - destruct a as [|a].
    + cbn [skipn]. rewrite !Nat.sub_0_r. clear H. specialize (IH 0%nat).
      cbn [skipn] in IH. destruct b as [|b].
      * cbn. now destruct l.
      * cbn [Nat.add firstn nth_error app]. f_equal. specialize (IH b (Nat.le_0_l b)).
        now rewrite !Nat.sub_0_r in IH.
    + destruct b as [|b]; [lia|]. cbn [skipn Nat.add nth_error].
      specialize (IH a b ltac:(lia)). exact IH.
Qed.
Lemma lslice_cons : forall A (l : list A) a b, (a < b)%nat -> (a < length l)%nat ->
  exists x, nth_error l a = Some x /\ lslice a b l = x :: lslice (a + 1) b l.
Proof.
  intros A l a b Hab. unfold lslice. revert a b Hab. induction l as [|y l IH]; intros a b Hab Hl; [cbn in Hl; lia|].
  destruct a as [|a].
  - exists y. split; [reflexivity|]. destruct b as [|b]; [lia|]. cbn.
    now rewrite Nat.sub_0_r.
  - destruct b as [|b]; [lia|]. cbn in Hl. destruct (IH a b ltac:(lia) ltac:(lia)) as (x & E1 & E2).
    exists x. split; [exact E1|]. exact E2.
Qed.

(** *** The loop *)
Section Loop.
  Context (rows : list (list datum)) (half width : nat) (nan : bool) (m : method).
  Context (Hw : Forall (fun r => length r = width) rows).
  Context (Q : list datum -> Z * Z -> Prop).
  Context (Qperm : forall a b ans, Permutation a b -> Q a ans -> Q b ans).
  Context (HQ : forall i t, (i < length rows)%nat -> t <> E -> avl t -> ordered (inorder t) ->
                 Permutation (inorder t) (weighty (window_rows rows half i)) ->
                 exists ans, weighted_median t m = Ok ans /\ Q (inorder t) ans).

  Definition out_ok (nan : bool) (i : nat) (v : option (Z * Z)) : Prop :=
    let w := weighty (window_rows rows half i) in
    (w <> [] -> exists ans, v = Some ans /\ Q w ans) /\
    (w = [] -> v = if nan then None else Some (0, 1)).

  Lemma report_ok : forall b i st, (i < length rows)%nat -> inv st (window_rows rows half i) ->
    exists v, report b (fst st) m = Ok v /\ out_ok b i v.
  Proof.
    intros b i [t fifo] Hi (H1 & H2 & H3 & H4). cbn [fst snd] in *.
    unfold report, median_or_nan, out_ok.
    destruct t as [|tl td tr ta tb tc te] eqn:Et.
    - cbn [inorder] in H4. apply Permutation_nil in H4. rewrite H4.
      destruct b; eexists; (split; [reflexivity|]); split; congruence.
    - rewrite <- Et in *.
      destruct (HQ i t Hi ltac:(congruence) H2 H3 H4) as (ans & E1 & E2).
      exists (Some ans). split.
      + destruct b; rewrite E1; reflexivity.
      + split.
        * intros _. exists ans. split; [reflexivity|]. eapply Qperm; eauto.
        * intro Hn. rewrite Hn in H4. apply Permutation_sym, Permutation_nil in H4.
          rewrite Et in H4. cbn [inorder] in H4. destruct (inorder tl); discriminate.
  Qed.

  Lemma loop_ok : forall todo i st, (1 <= i)%nat -> (i + todo = length rows)%nat ->
    inv st (window_rows rows half (i - 1)) ->
    exists vs, mwm_loop rows half width nan m todo i st = Ok vs /\ length vs = todo /\
      forall k v, nth_error vs k = Some v -> out_ok nan (i + k) v.
  Proof.
    induction todo as [|todo IH]; intros i st Hi Hn Hst; cbn [mwm_loop].
    - exists []. split; [reflexivity|]. split; [reflexivity|]. intros k v Hk. destruct k; discriminate.
    - assert (Hmid : exists st1, (if (half + 1 <=? i)%nat then leave_n width st else Ok st) = Ok st1 /\
                       inv st1 (concat (lslice (i - half) (i + half) rows))).
      { unfold window_rows in Hst. replace (i - 1 + half + 1)%nat with (i + half)%nat in Hst by lia.
        destruct (Nat.leb_spec (half + 1) i) as [Hc|Hc].
        - destruct (lslice_cons _ rows (i - 1 - half) (i + half)) as (r & R1 & R2); [lia|lia|].
          rewrite R2 in Hst. cbn [concat] in Hst.
          assert (Hr : length r = width).
          { rewrite Forall_forall in Hw. apply Hw. eapply nth_error_In; eauto. }
          replace (i - 1 - half + 1)%nat with (i - half)%nat in Hst by lia.
          destruct (leave_n_inv _ _ _ Hst) as (st' & E1 & E2). rewrite Hr in E1. eauto.
        - exists st. split; [reflexivity|].
          replace (i - 1 - half)%nat with (i - half)%nat in Hst by lia. exact Hst. }
      destruct Hmid as (st1 & E1 & I1). rewrite E1. cbn [rbind].
      set (st2 := match nth_error rows (i + half) with Some xs => enter_all xs st1 | None => st1 end).
      assert (I2 : inv st2 (window_rows rows half i)).
      { unfold window_rows. rewrite lslice_snoc by lia. rewrite concat_app.
        subst st2. destruct (nth_error rows (i + half)) as [xs|]; cbn [concat].
        - rewrite app_nil_r. now apply enter_all_inv.
        - rewrite app_nil_r. exact I1. }
      destruct (report_ok nan i st2 ltac:(lia) I2) as (v & E2 & O2). rewrite E2. cbn [rbind].
      destruct (IH (S i) st2) as (vs & E3 & L3 & O3); [lia|lia| |].
      { replace (S i - 1)%nat with i by lia. exact I2. }
      rewrite E3. cbn [rbind]. exists (v :: vs). split; [reflexivity|]. split; [cbn; lia|].
      intros [|k] v' Hk; cbn [nth_error] in Hk.
      + injection Hk as <-. now rewrite Nat.add_0_r.
      + replace (i + S k)%nat with (S i + k)%nat by lia. now apply O3.
  Qed.

  Lemma mwm_rows_ok : rows <> [] ->
    exists vs, mwm_rows rows half width nan m = Ok vs /\ length vs = length rows /\
      forall i v, nth_error vs i = Some v -> out_ok (if (i =? 0)%nat then false else nan) i v.
  Proof.
    intro Hne. unfold mwm_rows.
    assert (Hlen : (0 < length rows)%nat) by (destruct rows; [congruence|cbn; lia]).
    assert (I0 : inv (enter_all (concat (firstn (half + 1) rows)) (E, [])) (window_rows rows half 0)).
    { unfold window_rows, lslice. cbn [Nat.sub skipn]. rewrite Nat.sub_0_r.
      apply (enter_all_inv _ (E, []) []), inv_empty. }
    destruct (report_ok false 0 _ Hlen I0) as (v0 & E0 & O0). rewrite E0. cbn [rbind].
    destruct (loop_ok (length rows - 1) 1 _ ltac:(lia) ltac:(lia) I0) as (vs & E1 & L1 & O1).
    rewrite E1. cbn [rbind]. exists (v0 :: vs). split; [reflexivity|]. split; [cbn; lia|].
    intros [|i] v Hv; cbn [nth_error] in Hv.
    - injection Hv as <-. exact O0.
    - cbn [Nat.eqb]. apply (O1 i v Hv).
  Qed.
End Loop.

(** *** Invariance of the answers *)
Lemma quantile_value_perm : forall a b n d v, Permutation a b ->
  quantile_value a n d v -> quantile_value b n d v.
Proof.
  intros a b n d v H ((w & H1 & H2) & H3). split.
  - exists w. split; [eapply Permutation_in; eauto|exact H2].
  - unfold weight_below, weight_upto in *.
    rewrite <- !(sum_weights_perm _ _ _ H). exact H3.
Qed.
Lemma quantile_lower_perm : forall a b n d v, Permutation a b ->
  quantile_lower a n d v -> quantile_lower b n d v.
Proof.
  intros a b n d v H (H1 & H2). split; [eapply quantile_value_perm; eauto|].
  intros u Hu. apply H2. eapply quantile_value_perm; [apply Permutation_sym|]; eauto.
Qed.
Lemma quantile_higher_perm : forall a b n d v, Permutation a b ->
  quantile_higher a n d v -> quantile_higher b n d v.
Proof.
  intros a b n d v H (H1 & H2). split; [eapply quantile_value_perm; eauto|].
  intros u Hu. apply H2. eapply quantile_value_perm; [apply Permutation_sym|]; eauto.
Qed.
Lemma quantile_answer_perm : forall a b n d m ans, Permutation a b ->
  quantile_answer a n d m ans -> quantile_answer b n d m ans.
Proof.
  intros a b n d m [x y] H (H1 & H2). split; [exact H1|]. destruct m.
  - destruct H2 as (lo & hi & A & B & C). exists lo, hi.
    split; [eapply quantile_lower_perm; eauto|]. split; [eapply quantile_higher_perm; eauto|exact C].
  - destruct H2 as (v & A & B). exists v. split; [eapply quantile_lower_perm; eauto|exact B].
  - destruct H2 as (v & A & B). exists v. split; [eapply quantile_higher_perm; eauto|exact B].
Qed.
Lemma median_answer_perm : forall m a b ans, Permutation a b ->
  median_answer a m ans -> median_answer b m ans.
Proof.
  intros m a b ans H. unfold median_answer, weight_total. rewrite (sum_weights_perm _ _ _ H).
  now apply quantile_answer_perm.
Qed.

Lemma weighty_positive : forall l, nonneg l -> positive (weighty l).
Proof.
  intros l H. unfold positive, weighty. apply Forall_forall. intros x Hx. apply filter_In in Hx as [H1 H2].
  unfold nonneg in H. rewrite Forall_forall in H. specialize (H x H1).
  destruct (Z.eqb_spec (snd x) 0); cbn in H2; [discriminate|lia].
Qed.
Lemma in_lslice : forall A a b (l : list A) x, In x (lslice a b l) -> In x l.
Proof.
  intros A a b l x H. apply In_nth_error in H as [k Hk]. unfold lslice in Hk.
  apply nth_error_In in Hk.
  revert Hk. generalize (b - a)%nat. intros n Hk.
  assert (In x (skipn a l)).
  { rewrite <- (firstn_skipn n (skipn a l)). apply in_app_iff. now left. }
  rewrite <- (firstn_skipn a l). apply in_app_iff. now right.
Qed.
Lemma nonneg_window : forall rows half i, Forall nonneg rows -> nonneg (window_rows rows half i).
Proof.
  intros rows half i H. apply Forall_forall. intros x Hx. unfold window_rows in Hx.
  apply in_concat in Hx as (r & Hr & Hx). apply in_lslice in Hr.
  rewrite Forall_forall in H. specialize (H r Hr). unfold nonneg in H. rewrite Forall_forall in H. auto.
Qed.

Lemma ordered_sides : forall P S, ordered (P ++ S) -> forall x y, In x P -> In y S -> datum_le x y.
Proof.
  induction P as [|p P IH]; intros S H x y Hx Hy; [destruct Hx|].
  inversion H as [|? ? H1 H2]; subst. destruct Hx as [<-|Hx].
  - rewrite Forall_forall in H2. apply H2, in_app_iff. now right.
  - eapply IH; eauto.
Qed.

Theorem mwm_rows_split : forall rows half width nan, rows <> [] ->
  Forall (fun r => length r = width) rows -> Forall nonneg rows ->
  exists vs, mwm_rows rows half width nan MSplit = Ok vs /\ length vs = length rows /\
    forall i v, nth_error vs i = Some v ->
      out_ok rows half (fun w => median_answer w MSplit) (if (i =? 0)%nat then false else nan) i v.
Proof.
  intros rows half width nan Hne Hw Hn. apply mwm_rows_ok; auto.
  - intros a b ans. apply median_answer_perm.
  - intros i t Hi Ht Ha Ho Hp. apply median_split; auto.
    eapply Permutation_Forall; [apply Permutation_sym, Hp|].
    apply weighty_positive, nonneg_window, Hn.
Qed.

Theorem mwm_rows_no_tie : forall rows half width nan m, rows <> [] ->
  Forall (fun r => length r = width) rows -> Forall nonneg rows ->
  (forall i, (i < length rows)%nat -> ~ window_tie (weighty (window_rows rows half i))) ->
  exists vs, mwm_rows rows half width nan m = Ok vs /\ length vs = length rows /\
    forall i v, nth_error vs i = Some v ->
      out_ok rows half (fun w => median_answer w m) (if (i =? 0)%nat then false else nan) i v.
Proof.
  intros rows half width nan m Hne Hw Hn Ht. apply mwm_rows_ok; auto.
  - intros a b ans. apply median_answer_perm.
  - intros i t Hi Hte Ha Ho Hp. apply median_no_tie; auto.
    + eapply Permutation_Forall; [apply Permutation_sym, Hp|].
      apply weighty_positive, nonneg_window, Hn.
    + intros P S HPS Heq. apply (Ht i Hi). exists P, S. split; [|split].
      * rewrite <- HPS. now apply Permutation_sym.
      * rewrite Heq. unfold weight_total. now apply sum_weights_perm.
      * apply ordered_sides. now rewrite <- HPS.
Qed.
