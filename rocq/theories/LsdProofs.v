(** Proofs about stellar days. *)
From Coq Require Import List Bool Reals ZArith Lra Lia.
From Verif Require Import PyBase SolveModel SolveProofs LsdModel LsdSpec.
Open Scope R_scope.

Lemma floor_bounds x : IZR (Int_part x) <= x < IZR (Int_part x) + 1.
Proof. destruct (base_Int_part x). lra. Qed.
Lemma floor_unique x n : IZR n <= x < IZR n + 1 -> Int_part x = n.
Proof.
  intros H. pose proof (floor_bounds x) as F. assert (A : IZR (Int_part x) < IZR (n + 1)) by (rewrite plus_IZR; lra).
  assert (B : IZR n < IZR (Int_part x + 1)) by (rewrite plus_IZR; lra). apply lt_IZR in A. apply lt_IZR in B. lia.
Qed.
Lemma rmod_bounds x y : 0 < y -> 0 <= rmod x y < y.
Proof.
  intros H. unfold rmod. pose proof (floor_bounds (x / y)) as [A B]. assert (E : x = y * (x / y)) by (field; lra).
  split; [assert (y * IZR (Int_part (x / y)) <= y * (x / y)) by (apply Rmult_le_compat_l; lra)|assert (y * (x / y) < y * (IZR (Int_part (x / y)) + 1)) by (apply Rmult_lt_compat_l; lra)]; lra.
Qed.
Lemma rmod_shift x y : exists k, rmod x y = x + y * IZR k.
Proof. exists (- Int_part (x / y))%Z. unfold rmod. rewrite opp_IZR. lra. Qed.
Lemma rmod_unique x y r k : 0 < y -> 0 <= r < y -> x = r + y * IZR k -> rmod x y = r.
Proof.
  intros H B ->. unfold rmod. replace ((r + y * IZR k) / y) with (r / y + IZR k) by (field; lra). rewrite (floor_unique _ k); [lra|].
  assert (0 <= r / y) by (apply Rmult_le_pos; [lra|left; now apply Rinv_0_lt_compat]). assert (r / y < 1) by (apply (Rmult_lt_reg_r y); [lra|]; replace (r / y * y) with r by (field; lra); lra). lra.
Qed.
Lemma rint_near x n : Rabs (x - IZR n) < 1 / 2 -> rint x = n.
Proof.
  intros H. apply Rabs_def2 in H as [A B]. unfold rint. destruct (Rle_or_lt (IZR n) x) as [C|C].
  - rewrite (floor_unique x n) by lra. rewrite (proj2 (rltb_true _ _)) by lra. reflexivity.
  - rewrite (floor_unique x (n - 1)) by (rewrite minus_IZR; lra). rewrite minus_IZR. destruct (rltb (x - (IZR n - 1)) (1 / 2)) eqn:D; [apply rltb_true in D; lra|].
    rewrite (proj2 (rltb_true _ _)) by lra. lia.
Qed.
Lemma rint_bounds x : Rabs (x - IZR (rint x)) <= 1 / 2.
Proof.
  pose proof (floor_bounds x) as [A B]. unfold rint. destruct (rltb (x - IZR (Int_part x)) (1 / 2)) eqn:C; [apply rltb_true in C; apply Rabs_le; lra|].
  assert (C' : 1 / 2 <= x - IZR (Int_part x)) by (apply Rnot_lt_le; intros D; apply rltb_true in D; congruence).
  destruct (rltb (1 / 2) (x - IZR (Int_part x))) eqn:D; [apply Rabs_le; rewrite plus_IZR; lra|].
  assert (D' : x - IZR (Int_part x) <= 1 / 2) by (apply Rnot_lt_le; intros F; apply rltb_true in F; congruence).
  destruct (Z.even (Int_part x)); apply Rabs_le; rewrite ?plus_IZR; lra.
Qed.
Lemma rint_IZR n : rint (IZR n) = n.
Proof. apply rint_near. rewrite Rminus_diag_eq by reflexivity. rewrite Rabs_R0. lra. Qed.
Lemma day_pos : 86164 < day < 86165.
Proof. unfold day. lra. Qed.
Lemma day_stellar d : d * 240 * stellar_second = d / 360 * day.
Proof. unfold stellar_second, UT1_second, day. lra. Qed.

Lemma leap_clock tt leap a b : Clock tt leap -> leap_seconds_between tt a b = Ok (leap b - leap a)%Z.
Proof.
  intros (c & H). unfold leap_seconds_between. rewrite !H.
  replace ((c + (b + IZR (leap b)) / 86400 - (c + (a + IZR (leap a)) / 86400)) * 24 * 3600 - (b - a)) with (IZR (leap b - leap a)) by (rewrite minus_IZR; field).
  rewrite rint_IZR, Rminus_diag_eq, Rabs_R0 by reflexivity. destruct (rltb (1 / 100) 0) eqn:E; [apply rltb_true in E; lra|reflexivity].
Qed.
(** The wait until the angle [era], in seconds. *)
Definition wait (turns : R -> R) (era t0 : R) : R := rmod (era / 360 - turns t0) 1 * day.
Lemma wait_bounds turns era t0 : 0 <= wait turns era t0 < day.
Proof. pose proof day_pos. pose proof (rmod_bounds (era / 360 - turns t0) 1). unfold wait. split; [apply Rmult_le_pos; lra|]. rewrite <- (Rmult_1_l day) at 2. apply Rmult_lt_compat_r; lra. Qed.
Lemma era_to_unix_eq turns tt leap era t0 : Clock tt leap ->
  era_to_unix turns tt era t0 = Ok (t0 + wait turns era t0 - IZR (leap (t0 + wait turns era t0)) + IZR (leap t0)).
Proof.
  intros H. unfold era_to_unix. rewrite day_stellar. replace (rmod (era - unix_to_era turns t0) 360 / 360 * day) with (wait turns era t0).
  - rewrite (leap_clock _ leap) by assumption. cbn [rbind]. rewrite minus_IZR. f_equal. lra.
  - unfold wait. f_equal. unfold unix_to_era. destruct (rmod_shift (turns t0) 1) as (k & ->). destruct (rmod_shift (era / 360 - turns t0) 1) as (m & E).
    rewrite (rmod_unique (era - 360 * (turns t0 + 1 * IZR k)) 360 (360 * rmod (era / 360 - turns t0) 1) (- k - m)%Z); [lra|lra| |].
    + pose proof (rmod_bounds (era / 360 - turns t0) 1). lra.
    + rewrite E, minus_IZR, opp_IZR. lra.
Qed.
Lemma wait_angle turns era t0 : exists k : Z, turns t0 + wait turns era t0 / day = era / 360 + IZR k.
Proof.
  unfold wait. destruct (rmod_shift (era / 360 - turns t0) 1) as (k & ->). exists k. pose proof day_pos. field. lra.
Qed.
Lemma era_angle turns t : SameAngle (unix_to_era turns t) (360 * turns t).
Proof. unfold SameAngle, unix_to_era. destruct (rmod_shift (turns t) 1) as (k & ->). exists k. lra. Qed.
Lemma lsa_eq turns lon t : unix_to_lsa turns lon t = 360 * rmod (meridian turns lon t) 1.
Proof.
  unfold unix_to_lsa, unix_to_era, meridian. destruct (rmod_shift (turns t) 1) as (k & ->). destruct (rmod_shift (turns t + lon / 360) 1) as (m & E).
  apply (rmod_unique _ _ _ (k - m)%Z); [lra| |]; [pose proof (rmod_bounds (turns t + lon / 360) 1); lra|]. rewrite E, minus_IZR. lra.
Qed.
Lemma wait_shift turns x y t0 : SameAngle x y -> wait turns x t0 = wait turns y t0.
Proof.
  intros (k & ->). unfold wait. f_equal. destruct (rmod_shift (y / 360 - turns t0) 1) as (m & E). apply (rmod_unique _ _ _ (k - m)%Z); [lra| |]; [apply rmod_bounds; lra|].
  rewrite E, minus_IZR. lra.
Qed.
Lemma lsa_to_unix_eq turns tt leap lon lsa t0 : Clock tt leap ->
  lsa_to_unix turns tt lon lsa t0 = Ok (t0 + wait turns (lsa - lon) t0 - IZR (leap (t0 + wait turns (lsa - lon) t0)) + IZR (leap t0)).
Proof.
  intros H. unfold lsa_to_unix. rewrite (era_to_unix_eq _ _ leap) by assumption. rewrite (wait_shift _ (rmod (lsa - lon) 360) (lsa - lon)); [reflexivity|].
  destruct (rmod_shift (lsa - lon) 360) as (k & ->). exists k. lra.
Qed.
