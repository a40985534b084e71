(** Proofs about the approximations of spherical Bessel functions. *)
From Coq Require Import List Bool Reals ZArith Lra Lia.
From Verif Require Import PyBase SolveModel SolveProofs SphModel SphProofs JlModel JlSpec JlProofs JlSpec2.
Import ListNotations.
Open Scope R_scope.

Lemma cosh_sinh a : cosh a ^ 2 - sinh a ^ 2 = 1.
Proof.
  unfold cosh, sinh. assert (E : exp a * exp (- a) = 1) by (rewrite <- exp_plus, Rplus_opp_r; apply exp_0).
  generalize dependent (exp (- a)). generalize (exp a). intros x y E. nra.
Qed.
Lemma cosh_plus_sinh a : cosh a + sinh a = exp a.
Proof. unfold cosh, sinh. field. Qed.
Lemma cosh_pos a : 0 < cosh a.
Proof. unfold cosh. pose proof (exp_pos a). pose proof (exp_pos (- a)). lra. Qed.
Lemma sinh_pos a : 0 < a -> 0 < sinh a.
Proof. intros H. unfold sinh. assert (exp (- a) < exp a) by (apply exp_increasing; lra). lra. Qed.
Lemma arccosh_cosh a : 0 < a -> arccosh (cosh a) = Some a.
Proof.
  intros H. pose proof (cosh_pos a) as C. pose proof (sinh_pos a H) as S. pose proof (cosh_sinh a) as E. unfold arccosh.
  assert (L : 1 <= cosh a) by nra. apply rleb_true in L. rewrite L.
  replace (cosh a ^ 2 - 1) with (sinh a * sinh a) by nra. rewrite sqrt_square by lra. now rewrite cosh_plus_sinh, ln_exp.
Qed.
Lemma tanh_pos a : 0 < a -> 0 < tanh a.
Proof. intros H. unfold tanh. apply Rdiv_lt_0_compat; [now apply sinh_pos|apply cosh_pos]. Qed.

Lemma sqrt_of x y : 0 <= y -> x = y * y -> sqrt x = y.
Proof. intros H ->. now apply sqrt_square. Qed.
Lemma lowz_plain l a : 0 < l + 1 / 2 -> 0 < a ->
  jl_approx_lowz l ((l + 1 / 2) / cosh a) = Some (
    exp ((l + 1 / 2) * tanh a - (l + 1 / 2) * a) * (1 + 1 / (8 * ((l + 1 / 2) * tanh a)) - 5 * (l + 1 / 2) ^ 2 / (24 * ((l + 1 / 2) * tanh a) ^ 3)
      + 9 / (128 * ((l + 1 / 2) * tanh a) ^ 2) - 231 * (l + 1 / 2) ^ 2 / (576 * ((l + 1 / 2) * tanh a) ^ 4)) /
    (2 * sqrt ((l + 1 / 2) / cosh a * ((l + 1 / 2) * tanh a)))).
Proof.
  intros Pn Pa. unfold jl_approx_lowz. set (nu := l + 1 / 2) in *.
  pose proof (cosh_pos a) as C. pose proof (sinh_pos a Pa) as S. pose proof (cosh_sinh a) as E. pose proof (tanh_pos a Pa) as T. pose proof (arccosh_cosh a Pa) as A.
  assert (Et : tanh a = sinh a / cosh a) by reflexivity.
  set (c := cosh a) in *. set (s := sinh a) in *. set (t := tanh a) in *. clearbody c s t.
  assert (Pz : 0 < nu / c) by (apply Rdiv_lt_0_compat; lra). assert (Pt : 0 < nu * t) by nra.
  assert (E1 : nu * nu - nu / c * (nu / c) = (nu * t) * (nu * t)).
  { rewrite Et. replace (nu * (s / c) * (nu * (s / c))) with (nu * nu * (s ^ 2) / (c ^ 2)) by (field; lra).
    replace (s ^ 2) with (c ^ 2 - 1) by lra. field. lra. }
  rewrite E1, root_ok by nra. cbn [bind]. rewrite sqrt_square by lra. rewrite quot_ok by lra. cbn [bind].
  replace (nu / (nu / c)) with c by (field; lra). rewrite A. cbn [bind].
  rewrite !quot_ok by (try apply Rmult_integral_contrapositive_currified; try apply pow_nonzero; lra). cbn [bind].
  assert (Pe : 0 < nu / c * (nu * t)) by nra.
  rewrite root_ok by lra. cbn [bind]. pose proof (sqrt_lt_R0 _ Pe) as Q. rewrite quot_ok by lra. reflexivity.
Qed.
Lemma lowz_debye l a : 0 < l + 1 / 2 -> 0 < a ->
  jl_approx_lowz l ((l + 1 / 2) / cosh a) = Some (debye_low U1 (fun p => U2 p - 385 / 1152 * p ^ 6) l a).
Proof.
  intros Pn Pa. rewrite lowz_plain by assumption. unfold debye_low. set (nu := l + 1 / 2) in *. f_equal.
  pose proof (cosh_pos a) as C. pose proof (tanh_pos a Pa) as T.
  set (c := cosh a) in *. set (t := tanh a) in *. clearbody c t.
  assert (Pz : 0 < nu / c) by (apply Rdiv_lt_0_compat; lra). assert (Pt : 0 < nu * t) by nra.
  pose proof PI_RGT_0 as Pp.
  assert (K : sqrt (PI / (2 * (nu / c))) / sqrt (2 * PI * (nu * t)) = / (2 * sqrt (nu / c * (nu * t)))).
  { assert (P1 : 0 < 2 * PI * (nu * t)) by nra.
    rewrite <- sqrt_div_alt by exact P1. 
    replace (PI / (2 * (nu / c)) / (2 * PI * (nu * t))) with (/ (4 * (nu / c * (nu * t)))) by (field; repeat split; lra).
    rewrite sqrt_inv. f_equal. rewrite sqrt_mult_alt by lra. f_equal. apply sqrt_of; lra. }
  replace (nu * (t - a)) with (nu * t - nu * a) by ring.
  unfold Rdiv at 1. rewrite <- K. generalize (exp (nu * t - nu * a)). intro x.
  assert (P2 : 0 < sqrt (2 * PI * (nu * t))) by (apply sqrt_lt_R0, Rmult_lt_0_compat; [lra|exact Pt]).
  generalize dependent (sqrt (2 * PI * (nu * t))). intros q2 _ P2. generalize (sqrt (PI / (2 * (nu / c)))). intro q1. unfold U1, U2.
  field. repeat split; lra.
Qed.

Lemma highz_debye l b : 0 < l + 1 / 2 -> 0 < b < PI / 2 ->
  jl_approx_highz l ((l + 1 / 2) / cos b) = Some (debye_high (fun p => V1 p - 5 / 24 * p ^ 3) (fun p => V2 p + 462 / 1152 * p ^ 4 + 385 / 1152 * p ^ 6) l b).
Proof.
  intros Pn Pb. unfold jl_approx_highz, debye_high. set (nu := l + 1 / 2) in *.
  assert (C : 0 < cos b) by (apply cos_gt_0; lra). assert (S : 0 < sin b) by (apply sin_gt_0; lra).
  pose proof (sin2_cos2 b) as E. unfold Rsqr in E. assert (Et : tan b = sin b / cos b) by reflexivity.
  assert (A : arcsin (cos b) = Some (PI / 2 - b)).
  { rewrite arcsin_ok by (pose proof (COS_bound b); lra). f_equal. rewrite cos_sin. replace (PI / 2 + b) with (PI - (PI / 2 - b)) by lra.
    rewrite sin_PI_x. apply asin_sin. lra. }
  pose proof PI_RGT_0 as Pp.
  set (c := cos b) in *. set (s := sin b) in *. set (t := tan b) in *. clearbody c s t.
  assert (Pz : 0 < nu / c) by (apply Rdiv_lt_0_compat; lra). assert (T : 0 < t) by (rewrite Et; apply Rdiv_lt_0_compat; lra).
  assert (Pt : 0 < nu * t) by nra.
  rewrite quot_ok by nra. cbn [bind]. replace (nu * nu / (nu / c * (nu / c))) with (c * c) by (field; lra).
  replace (1 - c * c) with (s * s) by lra. rewrite root_ok by nra. cbn [bind]. rewrite sqrt_square by lra.
  rewrite quot_ok by nra. cbn [bind]. rewrite quot_ok by lra. cbn [bind].
  replace (nu / (nu / c)) with c by (field; lra). rewrite A. cbn [bind].
  replace (nu / (nu / c * s)) with (/ t) by (rewrite Et; field; lra).
  rewrite !quot_ok by (try apply Rmult_integral_contrapositive_currified; try apply pow_nonzero; lra). cbn [bind].
  rewrite root_ok by lra. cbn [bind]. pose proof (sqrt_lt_R0 _ S) as Q. rewrite quot_ok by nra. f_equal.
  replace (nu / c * s - nu * (PI / 2 - (PI / 2 - b)) - PI / 4) with (nu * t - nu * b - PI / 4) by (rewrite Et; field; lra).
  assert (K : sqrt (PI / (2 * (nu / c))) * sqrt (2 / (PI * (nu * t))) = / (nu / c * sqrt s)).
  { rewrite <- sqrt_mult_alt by (apply Rlt_le, Rdiv_lt_0_compat; lra).
    replace (PI / (2 * (nu / c)) * (2 / (PI * (nu * t)))) with (/ ((nu / c) * (nu / c) * s)) by (rewrite Et; field; repeat split; lra).
    rewrite sqrt_inv. f_equal. rewrite sqrt_mult_alt by nra. now rewrite sqrt_square by lra. }
  rewrite <- Rmult_assoc, K. generalize (cos (nu * t - nu * b - PI / 4)) (sin (nu * t - nu * b - PI / 4)). intros x y. unfold V1, V2.
  field. repeat split; lra.
Qed.
