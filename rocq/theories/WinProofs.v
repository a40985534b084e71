From Coq Require Import List Reals Lra Lia Arith.
From Verif Require Import WinModel WinSpec.
Import ListNotations.
Open Scope R_scope.

Lemma length_linspace : forall a b n, length (linspace a b n) = n.
Proof. intros. unfold linspace. rewrite map_length, seq_length. reflexivity. Qed.
Lemma length_cosines : forall a b n, length (cosines a b n) = n.
Proof.
  intros. unfold cosines. destruct (Nat.eqb_spec n 1); [subst; reflexivity|].
  rewrite map_length, seq_length. reflexivity.
Qed.
Lemma length_sinc : forall t l, length (sinc_window t l) = (t * l)%nat.
Proof. intros. unfold sinc_window. rewrite map_length. apply length_linspace. Qed.
Lemma length_mul : forall x y, length x = length y -> length (mul x y) = length x.
Proof. intros. unfold mul. rewrite map_length, combine_length. lia. Qed.

Lemma nth_map_seq : forall (f : nat -> R) n i, (i < n)%nat -> nth i (map f (seq 0 n)) 0 = f i.
Proof.
  intros f n i H. rewrite (nth_indep _ 0 (f 0%nat)) by (rewrite map_length, seq_length; exact H).
  rewrite map_nth, seq_nth by exact H. reflexivity.
Qed.
Lemma nth_mul : forall x y i, length x = length y -> nth i (mul x y) 0 = nth i x 0 * nth i y 0.
Proof.
  intros x y i L. unfold mul. revert y i L. induction x as [|a x IH]; intros [|b y] i L; try discriminate L.
  - destruct i; simpl; ring.
  - destruct i; simpl; [reflexivity|]. apply IH. simpl in L. lia.
Qed.

Lemma nth_sinc : forall t l n, (n < t * l)%nat -> nth n (sinc_window t l) 0 = np_sinc (place t l n).
Proof.
  intros t l n H. unfold sinc_window, linspace.
  rewrite map_map. rewrite nth_map_seq by exact H. f_equal. unfold place.
  assert (T : (0 < t)%nat) by nia. assert (Q : (0 < l)%nat) by nia.
  apply lt_INR in T. apply lt_INR in Q. simpl in T, Q. rewrite mult_INR. field. lra.
Qed.
Lemma sinc_sound : is_sinc np_sinc.
Proof.
  unfold is_sinc, np_sinc. split.
  - destruct (Req_EM_T 0 0); [reflexivity|lra].
  - intros x. destruct (Req_EM_T x 0) as [->|N].
    + rewrite Rmult_0_r, sin_0. ring.
    + pose proof PI_RGT_0. field. lra.
Qed.
Lemma sinc_unique : forall f x, is_sinc f -> f x = np_sinc x.
Proof.
  intros f x [F0 F]. destruct sinc_sound as [G0 G].
  destruct (Req_dec x 0) as [->|N]; [rewrite F0, G0; reflexivity|].
  pose proof PI_RGT_0. apply (Rmult_eq_reg_l (PI * x)); [rewrite F, G; reflexivity|].
  apply Rmult_integral_contrapositive. lra.
Qed.
Lemma sinc_even : forall x, np_sinc (- x) = np_sinc x.
Proof.
  intros x. unfold np_sinc. destruct (Req_EM_T (- x) 0), (Req_EM_T x 0); try lra.
  replace (PI * - x) with (- (PI * x)) by ring. rewrite sin_neg. pose proof PI_RGT_0. field. lra.
Qed.
Lemma sinc_bound : forall x, Rabs (np_sinc x) <= 1.
Proof.
  intros x. unfold np_sinc. destruct (Req_EM_T x 0) as [E|N]; [rewrite Rabs_R1; lra|].
  pose proof PI_RGT_0 as P.
  assert (B : forall y, 0 < y -> Rabs (sin y) <= y).
  { intros y Y. apply Rabs_le. split.
    - destruct (Rle_dec y PI) as [L|L].
      + pose proof (sin_ge_0 y ltac:(lra) L). lra.
      + pose proof (SIN_bound y). pose proof PI2_1. lra.
    - left. apply sin_lt_x. exact Y. }
  unfold Rdiv. rewrite Rabs_mult, Rabs_Rinv by (apply Rmult_integral_contrapositive; lra).
  assert (A : 0 < Rabs (PI * x)).
  { apply Rabs_pos_lt. apply Rmult_integral_contrapositive. lra. }
  apply (Rmult_le_reg_r (Rabs (PI * x))); [exact A|].
  rewrite Rmult_assoc, Rinv_l, Rmult_1_r, Rmult_1_l by lra.
  destruct (Rle_lt_dec 0 (PI * x)) as [L|L].
  - rewrite (Rabs_right (PI * x)) by lra. apply B.
    destruct L as [L|L]; [exact L|]. rewrite <- L, Rabs_R0 in A. lra.
  - rewrite (Rabs_left (PI * x)) by lra. rewrite <- Rabs_Ropp, <- sin_neg. apply B. lra.
Qed.
Lemma sin_pi_Z : forall k : Z, sin (PI * IZR k) = 0.
Proof. intros k. rewrite Rmult_comm. apply sin_eq_0_1. exists k. reflexivity. Qed.
Lemma sinc_whole : forall k : Z, (k <> 0)%Z -> np_sinc (IZR k) = 0.
Proof.
  intros k K. unfold np_sinc. destruct (Req_EM_T (IZR k) 0) as [E|N].
  - apply eq_IZR in E. contradiction.
  - rewrite sin_pi_Z. unfold Rdiv. ring.
Qed.

Lemma nth_cosines : forall a b M n, (n < M)%nat -> (1 < M)%nat -> nth n (cosines a b M) 0 = raised a b M n.
Proof.
  intros a b M n H M1. unfold cosines. destruct (Nat.eqb_spec M 1); [lia|].
  rewrite nth_map_seq by exact H. unfold raised. apply lt_INR in M1 as R1. simpl in R1.
  rewrite minus_INR by lia. simpl (INR 1).
  replace (PI * (1 - INR M + 2 * INR n) / (INR M - 1)) with (- (PI - 2 * PI * INR n / (INR M - 1))) by (field; lra).
  rewrite cos_neg, Rtrigo_facts.cos_pi_minus. ring.
Qed.
Lemma raised_range : forall a b M n, 0 <= b -> a - b <= raised a b M n <= a + b.
Proof.
  intros a b M n B. unfold raised. pose proof (COS_bound (2 * PI * INR n / INR (M - 1))) as [L U]. nra.
Qed.
Lemma raised_mirror : forall a b M n, (1 < M)%nat -> (n < M)%nat -> raised a b M (M - 1 - n) = raised a b M n.
Proof.
  intros a b M n M1 H. unfold raised. f_equal. f_equal.
  rewrite (minus_INR (M - 1) n) by lia.
  assert (P : 0 < INR (M - 1)) by (change 0 with (INR 0); apply lt_INR; lia).
  replace (2 * PI * (INR (M - 1) - INR n) / INR (M - 1)) with (- (2 * PI * INR n / INR (M - 1)) + 2 * PI) by (field; lra).
  rewrite <- (cos_neg (2 * PI * INR n / INR (M - 1))).
  replace (2 * PI) with (2 * 1 * PI) at 2 by ring.
  change 1 with (INR 1) at 1. rewrite (cos_period _ 1). reflexivity.
Qed.
