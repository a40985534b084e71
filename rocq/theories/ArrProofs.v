From Coq Require Import List Bool Arith ZArith Lia Permutation.
From Verif Require Import PyBase RedModel RedSpec ArrModel ArrSpec.
Import ListNotations.
Open Scope nat_scope.

(** * Positions *)
Fixpoint fidx (shape idx : list nat) : nat :=
  match shape, idx with
  | d :: shape, i :: idx => i + d * fidx shape idx
  | _, _ => 0
  end.
Lemma fidx_lt : forall shape idx, InShape idx shape -> fidx shape idx < count shape.
Proof.
  intros shape idx H. induction H as [|i d idx shape L H IH]; cbn [fidx count fold_right]; [lia|]. fold (count shape). nia.
Qed.
Lemma unravel_fidx : forall shape idx, InShape idx shape -> unravel_f shape (fidx shape idx) = idx.
Proof.
  intros shape idx H. induction H as [|i d idx shape L H IH]; cbn [fidx unravel_f]; [reflexivity|].
  rewrite (Nat.mul_comm d), Nat.mod_add, Nat.div_add, Nat.mod_small, Nat.div_small by lia. cbn [plus]. now rewrite IH.
Qed.
Lemma unravel_f_in : forall shape k, k < count shape -> InShape (unravel_f shape k) shape /\ fidx shape (unravel_f shape k) = k.
Proof.
  induction shape as [|d shape IH]; intros k H; cbn [unravel_f fidx]; [split; [constructor|cbn in H; lia]|].
  cbn [count fold_right] in H. fold (count shape) in H. assert (d <> 0) by (intros ->; cbn in H; lia).
  destruct (IH (k / d)) as [A B]; [apply Nat.div_lt_upper_bound; lia|]. split.
  - constructor; [apply Nat.mod_upper_bound; lia|exact A].
  - rewrite B. pose proof (Nat.div_mod k d). lia.
Qed.
Lemma count_rev : forall shape, count (rev shape) = count shape.
Proof.
  assert (A : forall a b, count (a ++ b) = count a * count b) by (induction a as [|x a IH]; intros b; [symmetry; apply Nat.mul_1_l|]; unfold count in *; cbn [app fold_right]; rewrite IH; apply Nat.mul_assoc).
  induction shape as [|d shape IH]; [reflexivity|]. cbn [rev]. rewrite A, IH. unfold count. cbn [fold_right]. rewrite Nat.mul_1_r. apply Nat.mul_comm.
Qed.
Lemma inshape_rev : forall idx shape, InShape idx shape -> InShape (rev idx) (rev shape).
Proof.
  intros idx shape H. induction H as [|i d idx shape L H IH]; cbn [rev]; [constructor|]. apply Forall2_app; [exact IH|]. constructor; [exact L|constructor].
Qed.
Definition pos (fortran : bool) (shape idx : list nat) : nat := if fortran then fidx shape idx else fidx (rev shape) (rev idx).
Lemma pos_lt : forall b shape idx, InShape idx shape -> pos b shape idx < count shape.
Proof. intros [] shape idx H; cbn [pos]; [now apply fidx_lt|]. rewrite <- count_rev. now apply fidx_lt, inshape_rev. Qed.
Lemma unravel_pos : forall b shape idx, InShape idx shape -> unravel b shape (pos b shape idx) = idx.
Proof.
  intros [] shape idx H; cbn [pos unravel]; [now apply unravel_fidx|]. unfold unravel_c. rewrite unravel_fidx by now apply inshape_rev. apply rev_involutive.
Qed.
Lemma unravel_in : forall b shape k, k < count shape -> InShape (unravel b shape k) shape /\ pos b shape (unravel b shape k) = k.
Proof.
  intros [] shape k H; cbn [pos unravel]; [now apply unravel_f_in|]. unfold unravel_c. rewrite <- count_rev in H. destruct (unravel_f_in (rev shape) k H) as [A B].
  split; [apply inshape_rev in A; now rewrite rev_involutive in A|]. now rewrite rev_involutive.
Qed.

(** * Contiguity *)
Lemma dot_contiguous : forall shape strides idx sd, length strides = length shape -> InShape idx shape -> contiguous_from sd (combine shape strides) = true ->
  dot idx strides = Z.of_nat (sd * fidx shape idx).
Proof.
  intros shape strides idx sd L H. revert strides sd L. induction H as [|i d idx shape Li H IH]; intros strides sd L C; [destruct strides; [cbn; lia|discriminate]|].
  destruct strides as [|s strides]; [discriminate|]. cbn [length] in L. cbn [combine contiguous_from] in C. cbn [dot fidx].
  destruct (d =? 1) eqn:E.
  - apply Nat.eqb_eq in E. subst d. rewrite (IH strides sd) by (auto; lia). assert (i = 0) by lia. subst i. lia.
  - apply andb_true_iff in C as [C1 C2]. apply Z.eqb_eq in C1. subst s. rewrite (IH strides (d * sd)) by (auto; lia). nia.
Qed.
Lemma dot_app : forall a b s t, length a = length s -> dot (a ++ b) (s ++ t) = (dot a s + dot b t)%Z.
Proof.
  induction a as [|i a IH]; intros b s t L; destruct s as [|x s]; try discriminate; cbn [app dot]; [lia|]. cbn [length] in L. rewrite IH by lia. lia.
Qed.
Lemma dot_rev : forall a s, length a = length s -> dot (rev a) (rev s) = dot a s.
Proof.
  induction a as [|i a IH]; intros s L; destruct s as [|x s]; try discriminate; [reflexivity|]. cbn [rev]. cbn [length] in L.
  rewrite dot_app by (rewrite !rev_length; lia). rewrite IH by lia. cbn [dot]. lia.
Qed.
Lemma combine_rev : forall A B (a : list A) (b : list B), length a = length b -> rev (combine a b) = combine (rev a) (rev b).
Proof.
  induction a as [|x a IH]; intros b L; destruct b as [|y b]; try discriminate; [reflexivity|]. cbn [combine rev]. cbn [length] in L. rewrite IH by lia.
  assert (X : forall (c : list A) (d : list B), length c = length d -> combine (c ++ [x]) (d ++ [y]) = combine c d ++ [(x, y)]).
  { induction c as [|u c IHc]; intros d Ld; destruct d as [|v d]; try discriminate; [reflexivity|]. cbn [app combine]. cbn [length] in Ld. rewrite IHc by lia. reflexivity. }
  symmetry. apply X. rewrite !rev_length. lia.
Qed.
Definition contig (fortran : bool) (v : view) : bool := if fortran then f_contiguous v else c_contiguous v.
Lemma inshape_length : forall idx shape, InShape idx shape -> length idx = length shape.
Proof. intros idx shape H. induction H; cbn; congruence. Qed.
Lemma not_empty : forall v idx, InShape idx (v_shape v) -> empty v = false.
Proof.
  intros v idx H. unfold empty. apply not_true_iff_false. intros E. apply existsb_exists in E as (d & I & E). apply Nat.eqb_eq in E. subst d.
  induction H as [|i d idx shape L H IH]; [destruct I|]. destruct I as [->|I]; [lia|auto].
Qed.
Lemma contig_addr : forall b v idx, WellFormed v -> contig b v = true -> InShape idx (v_shape v) -> addr v idx = (v_off v + Z.of_nat (pos b (v_shape v) idx))%Z.
Proof.
  intros b v idx W C H. unfold addr. f_equal. assert (E := not_empty v idx H). destruct b; cbn [contig pos] in *.
  - unfold f_contiguous in C. rewrite E in C. cbn [orb] in C. rewrite (dot_contiguous _ _ _ 1 W H C). lia.
  - unfold c_contiguous in C. rewrite E in C. cbn [orb] in C. rewrite combine_rev in C by now rewrite W.
    rewrite <- dot_rev by (rewrite (inshape_length _ _ H); now rewrite W).
    rewrite (dot_contiguous (rev (v_shape v)) _ _ 1); [lia|now rewrite !rev_length|now apply inshape_rev|exact C].
Qed.
(** The contiguity of new arrays. *)
Lemma f_strides_length : forall shape sd, length (f_strides sd shape) = length shape.
Proof. induction shape as [|d shape IH]; intros sd; cbn; [reflexivity|now rewrite IH]. Qed.
Lemma f_strides_contiguous : forall shape sd, contiguous_from sd (combine shape (f_strides sd shape)) = true.
Proof.
  induction shape as [|d shape IH]; intros sd; [reflexivity|]. cbn [f_strides combine contiguous_from]. rewrite IH. destruct (d =? 1) eqn:E.
  - apply Nat.eqb_eq in E. subst d. rewrite Nat.mul_1_l in *. apply IH.
  - now rewrite Z.eqb_refl.
Qed.
Lemma new_view_wf : forall b shape base, WellFormed (new_view b shape base).
Proof. intros [] shape base; unfold WellFormed; cbn; unfold c_strides; rewrite ?rev_length, f_strides_length, ?rev_length; reflexivity. Qed.
Lemma new_view_contig : forall b shape base, contig b (new_view b shape base) = true.
Proof.
  intros [] shape base; cbn [contig].
  - unfold f_contiguous. cbn. rewrite f_strides_contiguous. apply orb_true_r.
  - unfold c_contiguous. cbn. unfold c_strides. rewrite combine_rev by (rewrite rev_length, f_strides_length, rev_length; reflexivity).
    rewrite rev_involutive, f_strides_contiguous. apply orb_true_r.
Qed.
Definition Agree (a b : list (nat * Z)) : Prop := Forall2 (fun x y => fst x = fst y /\ (fst x = 1 \/ snd x = snd y)) a b.
Lemma agree_contiguous : forall a b sd, Agree a b -> contiguous_from sd a = contiguous_from sd b.
Proof.
  intros a b sd H. revert sd. induction H as [|[d s] [d' s'] a b [E1 E2] H IH]; intros sd; [reflexivity|]. cbn [fst snd] in *. subst d'. cbn [contiguous_from].
  destruct (d =? 1) eqn:E; [apply IH|]. apply Nat.eqb_neq in E. destruct E2 as [->|<-]; [congruence|]. now rewrite IH.
Qed.
Lemma contiguous_agree : forall shape s t sd, length s = length shape -> length t = length shape -> contiguous_from sd (combine shape s) = true -> contiguous_from sd (combine shape t) = true ->
  Agree (combine shape s) (combine shape t).
Proof.
  induction shape as [|d shape IH]; intros s t sd Ls Lt Cs Ct; [constructor|]. destruct s as [|x s]; [discriminate|]. destruct t as [|y t]; [discriminate|].
  cbn [combine contiguous_from length] in *. destruct (d =? 1) eqn:E.
  - apply Nat.eqb_eq in E. constructor; [split; [reflexivity|now left]|]. eapply IH; eauto; lia.
  - apply andb_true_iff in Cs as [Cs Cs']. apply andb_true_iff in Ct as [Ct Ct']. apply Z.eqb_eq in Cs, Ct. subst. constructor; [split; [reflexivity|now right]|]. eapply IH; eauto; lia.
Qed.
Lemma agree_rev : forall a b, Agree a b -> Agree (rev a) (rev b).
Proof. intros a b H. induction H; cbn [rev]; [constructor|]. apply Forall2_app; [assumption|]. constructor; [assumption|constructor]. Qed.
Lemma is_fortran_new : forall x base, WellFormed x -> is_fortran (empty_like x base) = is_fortran x.
Proof.
  intros x base W. unfold empty_like. destruct (is_fortran x) eqn:F.
  - unfold is_fortran in F |- *. apply andb_true_iff in F as [F C]. apply negb_true_iff in C. pose proof (new_view_contig true (v_shape x) base) as N. cbn [contig] in N. rewrite N. cbn [andb].
    apply negb_true_iff. unfold c_contiguous, f_contiguous in *. change (empty (new_view true (v_shape x) base)) with (empty x) in *.
    apply orb_false_iff in C as [E C]. rewrite E in *. cbn [orb] in *. rewrite <- C. apply agree_contiguous, agree_rev.
    apply contiguous_agree with 1; auto. cbn. apply f_strides_length.
  - unfold is_fortran. pose proof (new_view_contig false (v_shape x) base) as N. cbn [contig] in N. rewrite N. apply andb_false_r.
Qed.

(** * The loop *)
Section Loop.
Context {V : Type}.
Variable inv : V -> V.
Lemma loop_window : forall order m src b, NoDup order ->
  (forall a i j, src = Window a -> In i order -> In j order -> i <> j -> (a + Z.of_nat i <> b + Z.of_nat j)%Z) ->
  let m' := loop inv m src (Window b) order in
  (forall k, In k order -> m' (b + Z.of_nat k)%Z = inv (read m src k)) /\ (forall a, (forall k, In k order -> (b + Z.of_nat k)%Z <> a) -> m' a = m a).
Proof.
  intros order m src b N. revert m. induction N as [|k order I N IH]; intros m H m'; cbn [loop] in m'; [split; [intros k []|reflexivity]|].
  destruct (IH (write m (Window b) k (inv (read m src k)))) as [A B].
  { intros a i j E Ii Ij. apply (H a i j E); now right. }
  fold m' in A, B. split.
  - intros j [<-|J].
    + rewrite B; [cbn [write]; unfold update; now rewrite Z.eqb_refl|]. intros j J E. apply I. now replace k with j by lia.
    + rewrite (A j J). f_equal. destruct src as [a|l]; [|reflexivity]. cbn [read write]. unfold update.
      destruct (Z.eqb_spec (a + Z.of_nat j) (b + Z.of_nat k)) as [E|E]; [|reflexivity]. exfalso. apply (H a j k eq_refl); [now right|now left| |exact E]. intros ->. contradiction.
  - intros a Ha. rewrite B by (intros j J; apply Ha; now right). cbn [write]. unfold update. destruct (Z.eqb_spec a (b + Z.of_nat k)) as [->|E]; [|reflexivity]. elim (Ha k); [now left|reflexivity].
Qed.
Lemma loop_copied : forall order m src l, loop inv m src (Copied l) order = m.
Proof. induction order as [|k order IH]; intros m src l; [reflexivity|]. cbn [loop write]. apply IH. Qed.
Lemma read_ravel : forall b (m : mem V) v idx, WellFormed v -> InShape idx (v_shape v) -> read m (ravel b m v) (pos b (v_shape v) idx) = m (addr v idx).
Proof.
  intros b m v idx W H. unfold ravel. destruct (if b then f_contiguous v else c_contiguous v) eqn:C; cbn [read].
  - f_equal. symmetry. now apply contig_addr.
  - now rewrite unravel_pos.
Qed.
Lemma invert_ok : forall m x out order, WellFormed x -> WellFormed out -> v_shape x = v_shape out -> is_fortran x = is_fortran out -> contig (is_fortran out) out = true ->
  Compatible x out -> Permutation order (seq 0 (count (v_shape x))) ->
  Elementwise inv m (invert_into inv m x out order) x out /\ Untouched m (invert_into inv m x out order) out.
Proof.
  intros m x out order Wx Wo S F C D P. set (b := is_fortran out) in *. unfold invert_into, ravel_a. rewrite F. fold b.
  assert (RO : ravel b m out = Window (v_off out)) by (unfold ravel; unfold contig in C; now rewrite C). rewrite RO.
  assert (N : NoDup order) by (apply (Permutation_NoDup (Permutation_sym P)), seq_NoDup).
  assert (InO : forall k, In k order <-> k < count (v_shape x)).
  { intros k. split; intros H; [apply (Permutation_in k P), in_seq in H; lia|apply (Permutation_in k (Permutation_sym P)), in_seq; lia]. }
  destruct (loop_window order m (ravel b m x) (v_off out) N) as [A B].
  { intros a i j E Ii Ij Nij K. unfold ravel in E. destruct (if b then f_contiguous x else c_contiguous x) eqn:Cx; [|discriminate]. injection E as <-.
    apply InO in Ii, Ij. destruct (unravel_in b (v_shape x) i Ii) as [I1 I2]. destruct (unravel_in b (v_shape x) j Ij) as [J1 J2].
    assert (Nu : unravel b (v_shape x) i <> unravel b (v_shape x) j) by congruence.
    apply (D _ _ I1 ltac:(rewrite <- S; exact J1) Nu). rewrite (contig_addr b x) by auto. rewrite (contig_addr b out) by (auto; rewrite <- S; auto). rewrite <- S, I2, J2. exact K. }
  split.
  - intros idx H. rewrite (contig_addr b out) by (auto; rewrite <- S; auto). rewrite <- S. rewrite A by (apply InO; now apply pos_lt). f_equal. now apply read_ravel.
  - intros a Ha. apply B. intros k Ik. apply InO in Ik. destruct (unravel_in b (v_shape x) k Ik) as [I1 I2]. rewrite <- I2. rewrite S. rewrite S in I1. rewrite <- (contig_addr b out) by auto. now apply Ha.
Qed.
End Loop.
