(** Proofs about normalising in place ([norm_vec2]). *)
From Coq Require Import List Bool Arith ZArith Reals Lra Lia Permutation.
From Verif Require Import PyBase RedSpec ArrModel ArrSpec ArrProofs SolveModel SphModel.
Import ListNotations.
Open Scope nat_scope.

Lemma contiguous_app : forall a b sd, contiguous_from sd (a ++ b) = contiguous_from sd a && contiguous_from (count (map fst a) * sd) b.
Proof.
  induction a as [|[d s] a IH]; intros b sd; [cbn [app contiguous_from andb map]; unfold count; cbn [fold_right]; now rewrite Nat.mul_1_l|].
  cbn [app contiguous_from map fst]. unfold count in *. cbn [fold_right]. destruct (d =? 1) eqn:E.
  - apply Nat.eqb_eq in E. subst d. rewrite IH, Nat.mul_1_l. reflexivity.
  - rewrite IH, andb_assoc. f_equal. f_equal. ring.
Qed.
Lemma collapse_cons d s x rest : collapse ((d, s) :: x :: rest) =
  match collapse (x :: rest) with
  | None => None
  | Some (n, t) => if d =? 1 then Some (n, t) else if n =? 1 then Some (d, s) else if (s =? Z.of_nat n * t)%Z then Some (d * n, t) else None
  end.
Proof. reflexivity. Qed.
Lemma collapse_contiguous : forall lead sd, (forall d s, In (d, s) lead -> 0 < d) -> contiguous_from sd (rev lead) = true ->
  exists n t, collapse lead = Some (n, t) /\ n = count (map fst lead) /\ (n = 1 \/ t = Z.of_nat sd).
Proof.
  induction lead as [|[d s] rest IH]; intros sd P C; [exists 1, 0%Z; auto|].
  cbn [rev] in C. rewrite contiguous_app in C. apply andb_true_iff in C as [C1 C2].
  destruct (IH sd ltac:(intros; eapply P; right; eassumption) C1) as (n & t & E & N & T).
  rewrite map_rev, count_rev in C2. rewrite <- N in C2. cbn [contiguous_from] in C2.
  destruct rest as [|x rest].
  - cbn [collapse map fst] in *. exists d, s. unfold count in *. cbn [fold_right] in *. split; [reflexivity|]. split; [lia|].
    destruct (d =? 1) eqn:D; [left; now apply Nat.eqb_eq|]. right. rewrite andb_true_r in C2. apply Z.eqb_eq in C2. injection E as <- <-. lia.
  - rewrite collapse_cons, E. cbn [map fst]. cbn [map] in N.
    assert (K : count (d :: fst x :: map fst rest) = d * n) by (rewrite N; reflexivity). rewrite K.
    assert (n > 0). { rewrite N. clear -P. assert (Q : forall l : list (nat * Z), (forall d s, In (d, s) l -> 0 < d) -> count (map fst l) > 0).
      { induction l as [|[a b] l IH]; intros H; [cbn; lia|]. cbn [map fst]. unfold count in *. cbn [fold_right]. specialize (IH ltac:(intros; eapply H; right; eassumption)). specialize (H a b (or_introl eq_refl)). nia. }
      apply (Q (x :: rest)). intros d' s' I. apply (P d' s'). now right. }
    destruct (d =? 1) eqn:D.
    + apply Nat.eqb_eq in D. subst d. exists n, t. rewrite Nat.mul_1_l. auto.
    + apply Nat.eqb_neq in D. rewrite andb_true_r in C2. apply Z.eqb_eq in C2. destruct (n =? 1) eqn:N1.
      * apply Nat.eqb_eq in N1. exists d, s. split; [reflexivity|]. split; [lia|]. right. subst s. rewrite N1. lia.
      * apply Nat.eqb_neq in N1. destruct T as [T|T]; [contradiction|]. destruct (Z.eqb_spec s (Z.of_nat n * t)) as [Q|Q]; [|exfalso; apply Q; subst; lia].
        exists (d * n), t. auto.
Qed.
Lemma norm_at_vals : forall (m : nan_mem) b i, let a := (b + 2 * Z.of_nat i)%Z in
  let n := hypot (m a) (m (a + 1)%Z) in
  norm_at m b i a = bind (m a) (fun x => bind n (quot x)) /\ norm_at m b i (a + 1)%Z = bind (m (a + 1)%Z) (fun y => bind n (quot y)) /\
  (forall c, c <> a -> c <> (a + 1)%Z -> norm_at m b i c = m c).
Proof.
  intros m b i a n. unfold norm_at. fold a. fold n. unfold update.
  replace (a =? a + 1)%Z with false by (symmetry; apply Z.eqb_neq; lia).
  replace (a + 1 =? a)%Z with false by (symmetry; apply Z.eqb_neq; lia). rewrite !Z.eqb_refl.
  split; [reflexivity|]. split; [reflexivity|]. intros c A B.
  apply Z.eqb_neq in A, B. now rewrite A, B.
Qed.
Lemma norm_loop : forall order (m : nan_mem) b, NoDup order ->
  let m' := fold_left (fun m i => norm_at m b i) order m in
  (forall i, In i order -> m' (b + 2 * Z.of_nat i)%Z = norm_at m b i (b + 2 * Z.of_nat i)%Z /\ m' (b + 2 * Z.of_nat i + 1)%Z = norm_at m b i (b + 2 * Z.of_nat i + 1)%Z) /\
  (forall c, (forall i, In i order -> c <> (b + 2 * Z.of_nat i)%Z /\ c <> (b + 2 * Z.of_nat i + 1)%Z) -> m' c = m c).
Proof.
  induction order as [|k order IH]; intros m b ND; [split; [intros i []|reflexivity]|].
  inversion ND as [|? ? Nk ND']; subst. cbn [fold_left]. destruct (IH (norm_at m b k) b ND') as [A B]. split.
  - intros i [<-|I].
    + assert (F : forall j, In j order -> j <> k) by congruence.
      split; apply B; intros j Hj; specialize (F j Hj); lia.
    + destruct (A i I) as [A1 A2]. rewrite A1, A2. assert (F : i <> k) by congruence.
      destruct (norm_at_vals (norm_at m b k) b i) as (V1 & V2 & _). destruct (norm_at_vals m b i) as (W1 & W2 & _).
      destruct (norm_at_vals m b k) as (_ & _ & O). rewrite V1, V2, W1, W2. rewrite !O by lia. auto.
  - intros c H. rewrite B by (intros i Hi; apply H; now right). apply (norm_at_vals m b k); apply H; now left.
Qed.
Lemma removelast_combine : forall (lead : list nat) (s : list Z) d t, length s = length lead -> removelast (combine (lead ++ [d]) (s ++ [t])) = combine lead s.
Proof.
  intros lead s d t L. assert (E : combine (lead ++ [d]) (s ++ [t]) = combine lead s ++ [(d, t)]).
  { revert s L. induction lead as [|x lead IH]; intros [|y s] L; try discriminate; [reflexivity|]. cbn. f_equal. apply IH. cbn in L. lia. }
  rewrite E. apply removelast_last.
Qed.
Lemma combine_app_one : forall (lead : list nat) (s : list Z) d t, length s = length lead -> combine (lead ++ [d]) (s ++ [t]) = combine lead s ++ [(d, t)].
Proof.
  intros lead s d t L. revert s L. induction lead as [|x lead IH]; intros [|y s] L; try discriminate; [reflexivity|]. cbn. f_equal. apply IH. cbn in L. lia.
Qed.
Lemma norm_vec2_contiguous : forall (m : nan_mem) lead strides off order,
  let v := mkview (lead ++ [2]) strides off in
  WellFormed v -> Forall (lt 0) lead -> c_contiguous v = true ->
  norm_vec2 m v order = Ok (fold_left (fun m i => norm_at m off i) order m).
Proof.
  intros m lead strides off order v W P C. unfold norm_vec2. cbn [v_shape v]. rewrite last_last. cbn [Nat.eqb negb].
  assert (E : empty v = false).
  { unfold empty. cbn [v_shape v]. rewrite existsb_app. cbn [existsb Nat.eqb orb]. rewrite orb_false_r.
    apply not_true_iff_false. intros X. apply existsb_exists in X as (d & I & X). rewrite Forall_forall in P. apply P in I. destruct d; [lia|discriminate]. }
  unfold c_contiguous in C. rewrite E in C. clear E. cbn [orb] in C.
  unfold WellFormed in W. cbn [v_strides v_shape v] in W. rewrite app_length in W. cbn [length] in W.
  destruct (exists_last (l := strides)) as (s & t & ->); [intros ->; cbn in W; lia|]. rewrite app_length in W. cbn [length] in W.
  assert (Ls : length s = length lead) by lia.
  cbn [v_shape v_strides v] in C. rewrite combine_app_one, rev_app_distr in C by assumption.
  cbn [rev app contiguous_from Nat.eqb] in C.
  apply andb_true_iff in C as [C1 C2]. apply Z.eqb_eq in C1. change (Z.of_nat 1) with 1%Z in C1. subst t.
  change (2 * 1) with 2 in C2.
  destruct (collapse_contiguous (combine lead s) 2) as (n & t & Ec & En & Et); [|exact C2|].
  { intros d x I. apply in_combine_l in I. rewrite Forall_forall in P. now apply P. }
  unfold reshape2. cbn [v_shape v_strides v_off v]. rewrite removelast_combine by assumption. rewrite Ec, last_last.
  replace (c_contiguous (mkview [n; 2] [t; 1%Z] off)) with true; [reflexivity|]. symmetry.
  unfold c_contiguous. cbn [v_shape v_strides combine rev app contiguous_from Nat.eqb]. apply orb_true_iff. right.
  cbn [Z.of_nat Pos.of_succ_nat Z.eqb Pos.eqb andb]. destruct (n =? 1) eqn:N1; [reflexivity|]. apply Nat.eqb_neq in N1.
  destruct Et as [Et|Et]; [contradiction|]. subst t. reflexivity.
Qed.
Lemma lead_pos : forall lead strides off idx j, let v := mkview (lead ++ [2]) strides off in
  WellFormed v -> c_contiguous v = true -> InShape idx lead -> j < 2 ->
  addr v (idx ++ [j]) = (off + 2 * Z.of_nat (pos false lead idx) + Z.of_nat j)%Z.
Proof.
  intros lead strides off idx j v W C H J. assert (H' : InShape (idx ++ [j]) (v_shape v)).
  { cbn [v_shape v]. apply Forall2_app; [assumption|]. constructor; [assumption|constructor]. }
  rewrite (contig_addr false v _ W C H'). cbn [v_off v_shape v]. unfold pos. rewrite !rev_app_distr. cbn [rev app fidx]. lia.
Qed.
Lemma lead_some : forall lead k, k < count lead -> exists idx, InShape idx lead /\ pos false lead idx = k.
Proof. intros lead k H. destruct (unravel_in false lead k H). eauto. Qed.
