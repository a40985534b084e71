(** Lemmas for the truncation of arrays: relative tolerances. *)
From Coq Require Import ZArith Reals List Bool Lia Lra Psatz.
From Flocq Require Import Core IEEE754.BinarySingleNaN IEEE754.Binary IEEE754.Bits.
From Verif Require Import PyBase TruncModel TruncSpec TruncProofs TruncFloat TruncProps0 BtModel BtSpec BtProofs BtProofs2.
Import ListNotations.
Open Scope Z_scope.

(** Units *)
Lemma pow2_R : forall n, (2 ^ n)%R = IZR (2 ^ Z.of_nat n).
Proof. intros n. apply pow_IZR. Qed.
Lemma pow2_R_pos : forall n, (0 < 2 ^ n)%R.
Proof. intros n. apply pow_lt. lra. Qed.

Lemma abs_units : forall u n, Rabs (IZR u / 2 ^ n) = (IZR (Z.abs u) / 2 ^ n)%R.
Proof.
  intros u n. unfold Rdiv. rewrite Rabs_mult, abs_IZR. f_equal. apply Rabs_right. left.
  apply Rinv_0_lt_compat, pow2_R_pos.
Qed.
Lemma units_lt : forall u n k, (Rabs (IZR u / 2 ^ n) < 2 ^ k)%R -> Z.abs u < 2 ^ (Z.of_nat (n + k)).
Proof.
  intros u n k H. rewrite abs_units in H. apply lt_IZR. rewrite <- pow2_R, pow_add.
  pose proof (pow2_R_pos n). apply Rmult_lt_compat_r with (r := (2 ^ n)%R) in H; [|assumption].
  unfold Rdiv in H. rewrite Rmult_assoc, Rinv_l in H by lra. lra.
Qed.
Lemma units_band : forall u n a b, (a <= n)%nat -> (b <= n)%nat ->
  2 ^ Z.of_nat (n - a) <= Z.abs u < 2 ^ Z.of_nat (n - b) -> (/ 2 ^ a <= Rabs (IZR u / 2 ^ n) < / 2 ^ b)%R.
Proof.
  intros u n a b La Lb [H1 H2]. rewrite abs_units.
  apply IZR_le in H1. apply IZR_lt in H2. rewrite <- pow2_R in H1, H2.
  assert (D : forall c, (c <= n)%nat -> (/ 2 ^ c = 2 ^ (n - c) / 2 ^ n)%R).
  { intros c L. replace n with (c + (n - c))%nat at 2 by lia. rewrite pow_add.
    pose proof (pow2_R_pos c). pose proof (pow2_R_pos (n - c)). field. lra. }
  rewrite !D by assumption. unfold Rdiv. pose proof (Rinv_0_lt_compat _ (pow2_R_pos n)).
  split; [apply Rmult_le_compat_r|apply Rmult_lt_compat_r]; lra.
Qed.

Lemma bpow_inv : forall n, bpow radix2 (- Z.of_nat n) = (/ 2 ^ n)%R.
Proof.
  intros n. rewrite bpow_opp. f_equal. rewrite <- (IZR_Zpower radix2) by lia. symmetry. apply pow_IZR.
Qed.
Lemma bpow_nat : forall n, bpow radix2 (Z.of_nat n) = (2 ^ n)%R.
Proof. intros n. rewrite <- (IZR_Zpower radix2) by lia. symmetry. apply pow_IZR. Qed.
Lemma half_inv : forall n, (/ 2 * / 2 ^ n = / 2 ^ (S n))%R.
Proof. intros n. cbn [pow]. rewrite Rinv_mult. reflexivity. Qed.

(** The product, as a number or as an overflow *)
Lemma mul32_bound : forall a b x y, Word 32 a -> Word 32 b -> IsFloat a x -> IsFloat b y ->
  (exists t, IsFloat (mul32 a b) t /\ (Rabs t <= Rabs (x * y) * (1 + / 2 ^ 24) + / 2 ^ 150)%R)
  \/ (ieee_units 23 8 (mul32 a b) = None /\ (2 ^ 128 <= Rabs (x * y) * (1 + / 2 ^ 24) + / 2 ^ 150)%R).
Proof.
  intros a b x y Wa Wb Ha Hb.
  destruct (IsFloat_B2R a x Wa Ha) as [Fa Ra]. destruct (IsFloat_B2R b y Wb Hb) as [Fb Rb].
  pose proof (units32 (mul32 a b) (mul32_word a b)) as M.
  assert (P : let g := b32_mult mode_NE (f32 a) (f32 b) in
    (is_finite 24 128 g = true
     /\ (Rabs (B2R 24 128 g) <= Rabs (B2R 24 128 (f32 a) * B2R 24 128 (f32 b)) * (1 + /2 * bpow radix2 (- Z.of_nat 23)) + /2 * bpow radix2 (- Z.of_nat 149))%R)
    \/ (is_finite 24 128 g = false
        /\ (bpow radix2 (Z.of_nat 128) <= Rabs (B2R 24 128 (f32 a) * B2R 24 128 (f32 b)) * (1 + /2 * bpow radix2 (- Z.of_nat 23)) + /2 * bpow radix2 (- Z.of_nat 149))%R))
    by exact (product 23 8 _ _ binop_nan_pl32 (f32 a) (f32 b) Fa Fb).
  cbv zeta in P. rewrite Ra, Rb, !bpow_inv, !half_inv in P.
  assert (Q : f32 (mul32 a b) = b32_mult mode_NE (f32 a) (f32 b)) by apply w32_f32.
  rewrite Q in M.
  destruct P as [[P1 P2]|[P1 P2]].
  - left. destruct (ieee_units 23 8 (mul32 a b)) as [u|] eqn:Eu; [destruct M as [_ M]|].
    + exists (IZR u / 2 ^ 149)%R. split; [exists u; auto|].
      change (-149) with (- Z.of_nat 149) in M. rewrite bpow_inv in M. unfold Rdiv. rewrite <- M. exact P2.
    + exfalso. exact (eq_true_false_abs _ P1 M).
  - right. split.
    + destruct (ieee_units 23 8 (mul32 a b)) as [u|]; [|reflexivity]. destruct M as [M _].
      exfalso. exact (eq_true_false_abs _ M P1).
    + rewrite bpow_nat in P2. exact P2.
Qed.

Lemma mul64_bound : forall a b x y, Word 64 a -> Word 64 b -> IsDouble a x -> IsDouble b y ->
  (exists t, IsDouble (mul64 a b) t /\ (Rabs t <= Rabs (x * y) * (1 + / 2 ^ 53) + / 2 ^ 1075)%R)
  \/ (ieee_units 52 11 (mul64 a b) = None /\ (2 ^ 1024 <= Rabs (x * y) * (1 + / 2 ^ 53) + / 2 ^ 1075)%R).
Proof.
  intros a b x y Wa Wb Ha Hb.
  destruct (IsDouble_B2R a x Wa Ha) as [Fa Ra]. destruct (IsDouble_B2R b y Wb Hb) as [Fb Rb].
  pose proof (units64 (mul64 a b) (mul64_word a b)) as M.
  assert (P : let g := b64_mult mode_NE (f64 a) (f64 b) in
    (is_finite 53 1024 g = true
     /\ (Rabs (B2R 53 1024 g) <= Rabs (B2R 53 1024 (f64 a) * B2R 53 1024 (f64 b)) * (1 + /2 * bpow radix2 (- Z.of_nat 52)) + /2 * bpow radix2 (- Z.of_nat 1074))%R)
    \/ (is_finite 53 1024 g = false
        /\ (bpow radix2 (Z.of_nat 1024) <= Rabs (B2R 53 1024 (f64 a) * B2R 53 1024 (f64 b)) * (1 + /2 * bpow radix2 (- Z.of_nat 52)) + /2 * bpow radix2 (- Z.of_nat 1074))%R))
    by exact (product 52 11 _ _ binop_nan_pl64 (f64 a) (f64 b) Fa Fb).
  cbv zeta in P. rewrite Ra, Rb, !bpow_inv, !half_inv in P.
  assert (Q : f64 (mul64 a b) = b64_mult mode_NE (f64 a) (f64 b)) by apply w64_f64.
  rewrite Q in M.
  destruct P as [[P1 P2]|[P1 P2]].
  - left. destruct (ieee_units 52 11 (mul64 a b)) as [u|] eqn:Eu; [destruct M as [_ M]|].
    + exists (IZR u / 2 ^ 1074)%R. split; [exists u; auto|].
      change (-1074) with (- Z.of_nat 1074) in M. rewrite bpow_inv in M. unfold Rdiv. rewrite <- M. exact P2.
    + exfalso. exact (eq_true_false_abs _ P1 M).
  - right. split.
    + destruct (ieee_units 52 11 (mul64 a b)) as [u|]; [|reflexivity]. destruct M as [M _].
      exfalso. exact (eq_true_false_abs _ M P1).
    + rewrite bpow_nat in P2. exact P2.
Qed.
