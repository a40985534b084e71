(** Proofs about the quickselect with doubles: bounds on the rounding. *)
From Coq Require Import ZArith Reals List Bool Arith Permutation Lia Lra.
From Flocq Require Import Core Relative IEEE754.BinarySingleNaN IEEE754.Binary IEEE754.Bits.
From Verif Require Import PyBase MedModel MedSpec MedProofs MedProofs2 MedProofs3 QselModel QselProofs TruncModel TruncSpec TruncProofs BtModel BtSpec BtProofs BtProofs2 BtProofs3 BtProofs4 BtProofs5 InvModel InvSpec InvProofs InvProps TfModel TfProofs GqModel GqSpec GqProofs GqProofs2 GqProofs3 GqProofs4 GqProofs5.
Import ListNotations.
Open Scope R_scope.

Local Instance q53' : Prec_gt_0 53 := eq_refl.

Definition unit_ : R := 2 ^ 1074.
Definition eps : R := / 2 ^ 53.
Lemma unit_pos : 0 < unit_.
Proof. apply pow2_R_pos. Qed.
Lemma eps_pos : 0 < eps.
Proof. apply Rinv_0_lt_compat, pow2_R_pos. Qed.
Lemma units_value : forall w c, Units w c -> Word 64 w /\ IsDouble w (IZR c / unit_).
Proof. intros w c H. now apply units_double. Qed.
Lemma value_units : forall w x, Word 64 w -> IsDouble w x -> exists c, Units w c /\ x = IZR c / unit_.
Proof. intros w x W (c & H & ->). exists c. split; [now split|reflexivity]. Qed.
Lemma F2R_units : forall k, F2R (Float radix2 k (-1074)) = IZR k / unit_.
Proof. intro k. unfold F2R. cbn [Fnum Fexp]. change (-1074)%Z with (- Z.of_nat 1074)%Z. now rewrite bpow_inv. Qed.
Lemma rnd_units : forall k, Rabs (rnd64 (IZR k / unit_) - IZR k / unit_) <= eps * Rabs (IZR k / unit_).
Proof.
  intro k. pose proof (relative_error_N_FLT_F2R_emin radix2 (-1074) 53 ltac:(reflexivity) (fun x => negb (Z.even x)) k) as H.
  cbv zeta in H. rewrite F2R_units in H. eapply Rle_trans; [exact H|]. apply Req_le. f_equal.
  unfold eps. change (- (53) + 1)%Z with (- Z.of_nat 52)%Z. rewrite bpow_inv. rewrite <- Rinv_mult. reflexivity.
Qed.
(** in units *)
Lemma rnd_units' : forall k c, rnd64 (IZR k / unit_) = IZR c / unit_ -> Rabs (IZR c - IZR k) <= eps * Rabs (IZR k).
Proof.
  intros k c E. pose proof (rnd_units k) as H. rewrite E in H. pose proof unit_pos as P.
  unfold Rdiv in H. rewrite <- Rmult_minus_distr_r in H. rewrite !Rabs_mult in H.
  rewrite (Rabs_pos_eq (/ unit_)) in H by (left; now apply Rinv_0_lt_compat).
  apply Rmult_le_reg_r with (/ unit_); [now apply Rinv_0_lt_compat|]. now rewrite Rmult_assoc.
Qed.
Lemma rnd_monotone : forall x k c, x <= IZR k / unit_ -> generic_format radix2 (FLT_exp (-1074) 53) (IZR k / unit_) ->
  rnd64 x = IZR c / unit_ -> (c <= k)%Z.
Proof.
  intros x k c L F E. apply le_IZR. apply Rmult_le_reg_r with (/ unit_); [apply Rinv_0_lt_compat, unit_pos|].
  fold (IZR c / unit_). rewrite <- E. apply round_le_generic; auto with typeclass_instances.
Qed.
Lemma rnd_nonneg : forall x c, 0 <= x -> rnd64 x = IZR c / unit_ -> (0 <= c)%Z.
Proof.
  intros x c P E. apply le_IZR. apply Rmult_le_reg_r with (/ unit_); [apply Rinv_0_lt_compat, unit_pos|].
  fold (IZR c / unit_). rewrite <- E, Rmult_0_l. apply round_ge_generic; auto with typeclass_instances. apply generic_format_0.
Qed.
Lemma units_format : forall w c, Units w c -> generic_format radix2 (FLT_exp (-1074) 53) (IZR c / unit_).
Proof. intros w c H. destruct (units_value _ _ H) as [W V]. eapply double_format; eassumption. Qed.
Lemma small_units : forall k, (Z.abs k < 2 ^ 2097)%Z -> Rabs (IZR k / unit_) < 2 ^ 1023.
Proof.
  intros k H. unfold Rdiv. rewrite Rabs_mult. rewrite (Rabs_pos_eq (/ unit_)) by (left; apply Rinv_0_lt_compat, unit_pos).
  apply Rmult_lt_reg_r with unit_; [exact unit_pos|]. rewrite Rmult_assoc, Rinv_l, Rmult_1_r by (apply Rgt_not_eq, unit_pos).
  unfold unit_. rewrite <- pow_add. rewrite <- abs_IZR. rewrite pow2_R. apply IZR_lt. exact H.
Qed.

Lemma add_units : forall s a w b, Units s a -> Units w b -> (0 <= a)%Z -> (0 <= b)%Z -> (a + b < 2 ^ 2097)%Z ->
  exists c, Units (add64 s w) c /\ (0 <= c)%Z /\ Rabs (IZR c - (IZR a + IZR b)) <= eps * (IZR a + IZR b).
Proof.
  intros s a w b Ha Hb Pa Pb L. destruct (units_value _ _ Ha) as [Wa Va]. destruct (units_value _ _ Hb) as [Wb Vb].
  assert (E : IZR a / unit_ + IZR b / unit_ = IZR (a + b) / unit_) by (rewrite plus_IZR; unfold Rdiv; ring).
  pose proof (add64_round s w _ _ Wa Wb Va Vb) as H. rewrite E in H.
  assert (K : (Z.abs (a + b) < 2 ^ 2097)%Z) by (rewrite Z.abs_eq by lia; exact L). specialize (H (small_units _ K)).
  destruct (value_units _ _ (proj1 (w64_f64 _)) H) as (c & Hc & Ec). exists c.
  split; [exact Hc|]. split.
  - apply (rnd_nonneg _ _) with (2 := Ec). apply Rmult_le_pos; [apply IZR_le; lia|left; apply Rinv_0_lt_compat, unit_pos].
  - pose proof (rnd_units' _ _ Ec) as R0. rewrite (Rabs_pos_eq (IZR (a + b))) in R0 by (apply IZR_le; lia).
    now rewrite plus_IZR in R0.
Qed.
Lemma sub_units : forall s a w b, Units s a -> Units w b -> (0 <= b < a)%Z -> (a < 2 ^ 2097)%Z ->
  exists c, Units (sub64 s w) c /\ (0 <= c <= a)%Z /\ Rabs (IZR c - (IZR a - IZR b)) <= eps * (IZR a - IZR b).
Proof.
  intros s a w b Ha Hb P L. destruct (units_value _ _ Ha) as [Wa Va]. destruct (units_value _ _ Hb) as [Wb Vb].
  assert (E : IZR a / unit_ - IZR b / unit_ = IZR (a - b) / unit_) by (rewrite minus_IZR; unfold Rdiv; ring).
  pose proof (sub64_round s w _ _ Wa Wb Va Vb) as H. rewrite E in H.
  assert (K : (Z.abs (a - b) < 2 ^ 2097)%Z).
  { rewrite Z.abs_eq by lia. apply Z.le_lt_trans with a; [lia|exact L]. }
  specialize (H (small_units _ K)).
  destruct (value_units _ _ (proj1 (w64_f64 _)) H) as (c & Hc & Ec). exists c.
  split; [exact Hc|]. split; [split|].
  - apply (rnd_nonneg _ _) with (2 := Ec). apply Rmult_le_pos; [apply IZR_le; lia|left; apply Rinv_0_lt_compat, unit_pos].
  - apply (rnd_monotone _ a c) with (3 := Ec); [|eapply units_format; exact Ha].
    apply Rmult_le_compat_r; [left; apply Rinv_0_lt_compat, unit_pos|apply IZR_le; lia].
  - pose proof (rnd_units' _ _ Ec) as R0. rewrite (Rabs_pos_eq (IZR (a - b))) in R0 by (apply IZR_le; lia).
    now rewrite minus_IZR in R0.
Qed.
Lemma mul_units : forall s a w b, Units s a -> Units w b -> (0 <= a < 2 ^ 2097)%Z -> (0 <= b <= 2 ^ 1074)%Z ->
  exists c, Units (mul64 s w) c /\ (0 <= c <= a)%Z /\
    Rabs (IZR c - IZR a * (IZR b / unit_)) <= eps * (IZR a * (IZR b / unit_)) + / 2.
Proof.
  intros s a w b Ha Hb Pa Pb. destruct (units_value _ _ Ha) as [Wa Va]. destruct (units_value _ _ Hb) as [Wb Vb].
  pose proof unit_pos as U.
  assert (Q : 0 <= IZR b / unit_ <= 1).
  { split; [apply Rmult_le_pos; [apply IZR_le; lia|left; now apply Rinv_0_lt_compat]|].
    apply Rmult_le_reg_r with unit_; [exact U|]. unfold Rdiv. rewrite Rmult_assoc, Rinv_l, Rmult_1_r, Rmult_1_l by lra.
    unfold unit_. rewrite pow2_R. apply IZR_le. exact (proj2 Pb). }
  assert (A : 0 <= IZR a / unit_) by (apply Rmult_le_pos; [apply IZR_le; lia|left; now apply Rinv_0_lt_compat]).
  assert (K : (Z.abs a < 2 ^ 2097)%Z) by (rewrite Z.abs_eq by (exact (proj1 Pa)); exact (proj2 Pa)).
  pose proof (small_units a K) as S. rewrite Rabs_pos_eq in S by exact A.
  set (q := IZR b / unit_) in *. clearbody q.
  assert (M : 0 <= IZR a / unit_ * q <= IZR a / unit_).
  { split; [apply Rmult_le_pos; lra|]. rewrite <- (Rmult_1_r (IZR a / unit_)) at 2. apply Rmult_le_compat_l; lra. }
  pose proof (mul64_round s w _ _ Wa Wb Va Vb) as H. rewrite Rabs_pos_eq in H by lra.
  assert (S' : IZR a / unit_ * q < 2 ^ 1023) by (eapply Rle_lt_trans; [exact (proj2 M)|exact S]). specialize (H S').
  destruct (value_units _ _ (proj1 (w64_f64 _)) H) as (c & Hc & Ec). exists c.
  split; [exact Hc|]. split; [split|].
  - apply (rnd_nonneg _ _) with (2 := Ec). exact (proj1 M).
  - apply (rnd_monotone _ a c) with (3 := Ec); [exact (proj2 M)|eapply units_format; exact Ha].
  - pose proof (rnd64_error (IZR a / unit_ * q)) as R0. rewrite Ec in R0. rewrite (Rabs_pos_eq (IZR a / unit_ * q)) in R0 by lra.
    replace (/ 2 ^ 1075) with (/ 2 * / unit_) in R0
      by (unfold unit_; rewrite <- Rinv_mult; reflexivity).
    fold eps in R0.
    replace (IZR c / unit_ - IZR a / unit_ * q) with ((IZR c - IZR a * q) * / unit_) in R0 by (unfold Rdiv; ring).
    replace (IZR a / unit_ * q * eps + / 2 * / unit_) with ((eps * (IZR a * q) + / 2) * / unit_) in R0 by (unfold Rdiv; ring).
    rewrite Rabs_mult, (Rabs_pos_eq (/ unit_)) in R0 by (left; now apply Rinv_0_lt_compat).
    apply Rmult_le_reg_r with (/ unit_); [now apply Rinv_0_lt_compat|exact R0].
Qed.
