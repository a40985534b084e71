(** Theorems about the approximations of spherical Bessel functions. *)
From Coq Require Import List Bool Reals ZArith Lra Lia.
From Verif Require Import PyBase SolveModel SolveProofs SphModel SphProofs JlModel JlSpec JlProofs JlProps JlSpec2 JlProofs2.
Import ListNotations.
Open Scope R_scope.

(** * C374 *)
(** What the formulas are: Debye's expansions, to the second order without the last term of [U2], ... *)
Theorem C374_low l a : 0 < l + 1 / 2 -> 0 < a ->
  jl_approx_lowz l ((l + 1 / 2) / cosh a) = Some (debye_low U1 (fun p => U2 p - 385 / 1152 * p ^ 6) l a).
Proof. apply lowz_debye. Qed.
Print Assumptions C374_low.
(** ... and only the first terms of [V1] and [V2]. *)
Theorem C374_high l b : 0 < l + 1 / 2 -> 0 < b < PI / 2 ->
  jl_approx_highz l ((l + 1 / 2) / cos b) = Some (debye_high (fun p => 3 * p / 24) (fun p => - (81 * p ^ 2) / 1152) l b).
Proof.
  intros A B. rewrite highz_debye by assumption. f_equal. unfold debye_high. generalize (/ tan b). intro p.
  replace (V1 p - 5 / 24 * p ^ 3) with (3 * p / 24) by (unfold V1; field).
  replace (V2 p + 462 / 1152 * p ^ 4 + 385 / 1152 * p ^ 6) with (- (81 * p ^ 2) / 1152) by (unfold V2; field). reflexivity.
Qed.
Print Assumptions C374_high.
Lemma low_argument l z : 0 < z < l + 1 / 2 -> exists a, 0 < a /\ z = (l + 1 / 2) / cosh a.
Proof.
  intros [P Q]. set (nu := l + 1 / 2) in *. set (x := nu / z).
  assert (X : 1 < x). { unfold x. apply Rmult_lt_reg_r with z; [assumption|]. unfold Rdiv. rewrite Rmult_assoc, Rinv_l by lra. lra. }
  assert (S : 0 < x ^ 2 - 1) by nra. pose proof (sqrt_lt_R0 _ S) as T. pose proof (sqrt_sqrt (x ^ 2 - 1) (Rlt_le _ _ S)) as W.
  exists (ln (x + sqrt (x ^ 2 - 1))). split; [rewrite <- ln_1; apply ln_increasing; lra|].
  unfold cosh. rewrite exp_Ropp, exp_ln by lra. set (t := sqrt _) in *. replace (/ (x + t)) with (x - t).
  - replace ((x + t + (x - t)) / 2) with x by field. unfold x. field. lra.
  - apply Rmult_eq_reg_r with (x + t); [|lra]. rewrite Rinv_l by lra. nra.
Qed.
(** Every argument below [nu] is of this form. *)
Example C374_example : exists a, 0 < a /\ 1 / 1000 = (30 + 1 / 2) / cosh a /\
  jl_approx_lowz 30 (1 / 1000) = Some (debye_low U1 (fun p => U2 p - 385 / 1152 * p ^ 6) 30 a).
Proof.
  destruct (low_argument 30 (1 / 1000)) as (a & P & E); [lra|]. exists a. split; [assumption|]. split; [assumption|].
  rewrite E. apply C374_low; lra.
Qed.

(** * C375 *)
Definition E0 : R := 4194304.
Definition z0 : R := 3 * E0 / (E0 * E0 + 1).
Lemma exp_three_halves : exp (3 / 2) <= 4.66.
Proof.
  assert (B : exp (3 / 64) <= 64 / 61).
  { assert (P : 61 / 64 < exp (- (3 / 64))) by (replace (61 / 64) with (1 + - (3 / 64)) by field; apply exp_ineq1; lra).
    rewrite exp_Ropp in P. pose proof (exp_pos (3 / 64)) as Q. set (x := exp (3 / 64)) in *.
    apply Rmult_lt_compat_r with (r := x) in P; [|assumption]. rewrite Rinv_l in P by lra. lra. }
  assert (D : forall x u v, exp x <= u -> u * u <= v -> exp (2 * x) <= v).
  { intros x u v H K. replace (2 * x) with (x + x) by ring. rewrite exp_plus. pose proof (exp_pos x). nra. }
  apply (D (3 / 64) _ 1.1008) in B; [|lra]. apply (D _ _ 1.2118) in B; [|lra]. apply (D _ _ 1.46847) in B; [|lra].
  apply (D _ _ 2.15641) in B; [|lra]. apply (D _ _ 4.6502) in B; [|lra]. 
  replace (3 / 2) with (2 * (2 * (2 * (2 * (2 * (3 / 64)))))) by field. lra.
Qed.

Lemma small_bessel : 0 < z0 -> z0 < 1 -> z0 / 3 - z0 ^ 3 / 24 <= sbessel 1 z0.
Proof.
  generalize z0. intros z P Q. rewrite sbessel_1.
  pose proof (proj1 (pre_sin_bound z 0 ltac:(lra) ltac:(lra))) as S. pose proof (proj2 (pre_cos_bound z 0 ltac:(lra) ltac:(lra))) as C.
  unfold sin_approx, cos_approx, sin_term, cos_term in S, C. cbn [sum_f_R0 Nat.mul Nat.add] in S, C. 
  assert (S' : z - z ^ 3 / 6 <= sin z) by (cbn in S; lra). assert (C' : cos z <= 1 - z ^ 2 / 2 + z ^ 4 / 24) by (cbn in C; lra).
  apply Rle_trans with ((z - z ^ 3 / 6) / z ^ 2 - (1 - z ^ 2 / 2 + z ^ 4 / 24) / z); [right; field; lra|].
  assert (0 < / z ^ 2) by (apply Rinv_0_lt_compat; nra). assert (0 < / z) by (apply Rinv_0_lt_compat; lra).
  unfold Rdiv. apply Rplus_le_compat; [apply Rmult_le_compat_r; lra|]. apply Ropp_le_contravar, Rmult_le_compat_r; lra.
Qed.
Lemma cosh_E : (1 + 1 / 2) / cosh (ln E0) = z0.
Proof. unfold cosh, z0. rewrite exp_Ropp, exp_ln by (unfold E0; lra). unfold E0. field. Qed.
Lemma tanh_E : tanh (ln E0) = (E0 * E0 - 1) / (E0 * E0 + 1).
Proof. unfold tanh, sinh, cosh. rewrite exp_Ropp, exp_ln by (unfold E0; lra). unfold E0. field. Qed.
Lemma exp_E t : exp ((1 + 1 / 2) * t - (1 + 1 / 2) * ln E0) = exp (3 / 2 * t) / 8589934592.
Proof.
  replace ((1 + 1 / 2) * t - (1 + 1 / 2) * ln E0) with (3 / 2 * t + - (INR 33 * ln 2)).
  - rewrite exp_plus, exp_Ropp. unfold Rdiv. f_equal. f_equal. change (exp (INR 33 * ln 2)) with (Rpower 2 (INR 33)). rewrite Rpower_pow by lra. lra.
  - replace E0 with (2 ^ 22) by (unfold E0; lra). rewrite ln_pow by lra. cbn [INR]. lra.
Qed.
(** Close to zero the function of order 1 is more than a tenth too small. *)
Theorem C375_small_refuted : exists l z, 0 < z /\ 0 < sbessel l z /\ forall sj, exists x,
  jl_elem sj (INR l) z = Some (Some x) /\ x < 9 / 10 * sbessel l z.
Proof.
  exists 1%nat, z0. assert (P : 0 < z0) by (unfold z0, E0; lra). assert (Q : z0 < 1 / 1000000) by (unfold z0, E0; lra).
  assert (Z3 : z0 ^ 3 < z0 / 1000000) by nra.
  pose proof (small_bessel P ltac:(lra)) as B. split; [assumption|]. split; [lra|]. intro sj.
  destruct (C119_values sj (INR 1) z0) as (_ & V & _). destruct V as (x & V1 & V2); [assumption|right; cbn [INR]; lra|].
  exists x. split; [assumption|]. cbn [INR] in V2. rewrite <- cosh_E in V2.
  assert (La : 0 < ln E0) by (rewrite <- ln_1; apply ln_increasing; unfold E0; lra).
  rewrite lowz_plain in V2 by lra. rewrite cosh_E, tanh_E, exp_E in V2. set (t := (E0 * E0 - 1) / (E0 * E0 + 1)) in *.
  assert (T : 0 < 1 - t <= 1 / 1000000000) by (unfold t, E0; lra).
  assert (Ex : exp (3 / 2 * t) <= 4.66).
  { eapply Rle_trans; [|exact exp_three_halves]. apply Rlt_le, exp_increasing. lra. }
  assert (R : 0.0010357 <= sqrt (z0 * ((1 + 1 / 2) * t))).
  { rewrite <- (sqrt_square 0.0010357) by lra. apply sqrt_le_1_alt. unfold t, z0, E0. lra. }
  injection V2 as <-. set (q := sqrt _) in *. pose proof (exp_pos (3 / 2 * t)) as Pe. set (g := exp _) in *.
  match goal with |- g / _ * ?s / _ < _ => assert (S : 0 < s <= 0.7975) by (unfold t, E0; lra); set (r := s) in * end.
  assert (Z0 : 0.000000238418 < z0 / 3) by (unfold z0, E0; lra).
  apply Rle_lt_trans with (4.66 / 8589934592 * 0.7975 / (2 * 0.0010357)); [|lra].
  unfold Rdiv. apply Rmult_le_compat; [nra|apply Rlt_le, Rinv_0_lt_compat; lra| |apply Rinv_le_contravar; lra].
  apply Rmult_le_compat; [nra|lra|nra|lra].
Qed.
Print Assumptions C375_small_refuted.
Example C375_example : z0 < 1 / 1000000 /\ lca 1 z0 = true.
Proof.
  split; [unfold z0, E0; lra|]. apply lca_true. unfold z0, E0. lra.
Qed.
