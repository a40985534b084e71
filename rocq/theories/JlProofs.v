(** Proofs about spherical Bessel functions. *)
From Coq Require Import List Bool Reals ZArith Lra Lia.
From Verif Require Import PyBase SolveModel SolveProofs SphModel SphProofs JlModel JlSpec.
Import ListNotations.
Open Scope R_scope.

Lemma sbessel_0 z : sbessel 0 z = sin z / z.
Proof. reflexivity. Qed.
Lemma sbessel_1 z : sbessel 1 z = sin z / z ^ 2 - cos z / z.
Proof. reflexivity. Qed.
Lemma sbessel_rec l z : sbessel (S (S l)) z = (2 * INR l + 3) / z * sbessel (S l) z - sbessel l z.
Proof.
  unfold sbessel. cbn [sbessel2]. destruct (sbessel2 l z) as [a b]. reflexivity.
Qed.
Lemma lim_eq f z a b : derivable_pt_lim f z a -> a = b -> derivable_pt_lim f z b.
Proof. now intros H <-. Qed.
Lemma lim_ext f g z a : (forall x, f x = g x) -> derivable_pt_lim f z a -> derivable_pt_lim g z a.
Proof. intros E H eps P. destruct (H eps P) as (d & D). exists d. intros h H1 H2. rewrite <- !E. now apply D. Qed.
Lemma lim_inv z : z <> 0 -> derivable_pt_lim (fun x => / x) z (- / z ^ 2).
Proof.
  intros H. apply lim_ext with (f := div_fct (fct_cte 1) id).
  - intros x. unfold div_fct, fct_cte, id, Rdiv. apply Rmult_1_l.
  - eapply lim_eq; [apply derivable_pt_lim_div; [apply derivable_pt_lim_const|apply derivable_pt_lim_id|exact H]|]. unfold fct_cte, id, Rsqr. field. assumption.
Qed.
Lemma lim_over f z a : z <> 0 -> derivable_pt_lim f z a -> derivable_pt_lim (fun x => f x / x) z (a / z - f z / z ^ 2).
Proof.
  intros H D. eapply lim_eq; [exact (derivable_pt_lim_mult f (fun x => / x) z _ _ D (lim_inv z H))|]. cbn. field. assumption.
Qed.
Lemma lim_minus f g z a b : derivable_pt_lim f z a -> derivable_pt_lim g z b -> derivable_pt_lim (fun x => f x - g x) z (a - b).
Proof. exact (derivable_pt_lim_minus f g z a b). Qed.
Lemma lim_scal f z k a : derivable_pt_lim f z a -> derivable_pt_lim (fun x => k * f x) z (k * a).
Proof. exact (derivable_pt_lim_scal f k z a). Qed.
Lemma sbessel_two l z : z <> 0 ->
  derivable_pt_lim (sbessel l) z (- sbessel (S l) z + INR l / z * sbessel l z) /\
  derivable_pt_lim (sbessel (S l)) z (sbessel l z - (INR l + 2) / z * sbessel (S l) z).
Proof.
  intros N. induction l as [|l [P Q]].
  - split.
    + apply lim_ext with (f := fun x => sin x / x); [reflexivity|].
      eapply lim_eq; [apply lim_over; [assumption|apply derivable_pt_lim_sin]|]. rewrite sbessel_0, sbessel_1. cbn [INR]. field. assumption.
    + apply lim_ext with (f := fun x => sin x / x / x - cos x / x).
      { intros x. rewrite sbessel_1. f_equal. unfold Rdiv. rewrite Rmult_assoc. f_equal. cbn [pow]. rewrite Rmult_1_r. symmetry. apply Rinv_mult. }
      eapply lim_eq; [apply lim_minus; [apply lim_over; [assumption|]; apply lim_over; [assumption|apply derivable_pt_lim_sin]|apply lim_over; [assumption|apply derivable_pt_lim_cos]]|].
      rewrite sbessel_1. change (sbessel 0 z) with (sin z / z). cbn [INR]. field. assumption.
  - split.
    + eapply lim_eq; [exact Q|]. rewrite sbessel_rec, S_INR. field. assumption.
    + apply lim_ext with (f := fun x => (2 * INR l + 3) * (sbessel (S l) x / x) - sbessel l x).
      { intros x. rewrite sbessel_rec. unfold Rdiv. ring. }
      eapply lim_eq; [apply lim_minus; [apply lim_scal, lim_over; [assumption|exact Q]|exact P]|]. rewrite sbessel_rec, S_INR. field. assumption.
Qed.
Lemma sbessel_d l z : z <> 0 -> derivable_pt_lim (sbessel l) z (- sbessel (S l) z + INR l / z * sbessel l z).
Proof. intros N. now apply sbessel_two. Qed.
Lemma sbessel_d2 l z : z <> 0 -> derivable_pt_lim (fun z => - sbessel (S l) z + INR l / z * sbessel l z) z
  (sbessel (S (S l)) z - (2 * INR l + 1) / z * sbessel (S l) z + (INR l ^ 2 - INR l) / z ^ 2 * sbessel l z).
Proof.
  intros N. apply lim_ext with (f := fun x => INR l * (sbessel l x / x) - sbessel (S l) x); [intros x; unfold Rdiv; ring|].
  eapply lim_eq; [apply lim_minus; [apply lim_scal, lim_over; [assumption|now apply sbessel_d]|now apply sbessel_d]|]. rewrite S_INR. field. assumption.
Qed.
(** The differential equation of Bessel *)
Lemma sbessel_equation l z : z <> 0 ->
  let d := - sbessel (S l) z + INR l / z * sbessel l z in
  let dd := sbessel (S (S l)) z - (2 * INR l + 1) / z * sbessel (S l) z + (INR l ^ 2 - INR l) / z ^ 2 * sbessel l z in
  z ^ 2 * dd + 2 * z * d + (z ^ 2 - INR l * (INR l + 1)) * sbessel l z = 0.
Proof. intros N d dd. unfold d, dd. rewrite sbessel_rec. field. assumption. Qed.

(** * Regions *)
Lemma rltb_false a b : rltb a b = false <-> b <= a.
Proof. unfold rltb. destruct (Rlt_dec a b); split; intros; try discriminate; try lra; auto. Qed.
Lemma lca_true l z : lca l z = true <-> 0 < z /\ ((20 < l /\ z < l / 5) \/ z < l * / 1000000).
Proof. unfold lca. rewrite andb_true_iff, orb_true_iff, andb_true_iff, !rltb_true. tauto. Qed.
Lemma hca_true l z : hca l z = true <-> 20 < l /\ 10 * l < z.
Proof. unfold hca. now rewrite andb_true_iff, !rltb_true. Qed.
Lemma zca_true l z : zca l z = true <-> z = 0 /\ 0 < l.
Proof. unfold zca. now rewrite andb_true_iff, req_true, rltb_true. Qed.
Lemma lowz_ok l z : 0 < z -> z < l + 1 / 2 -> exists x, jl_approx_lowz l z = Some x.
Proof.
  intros P B. unfold jl_approx_lowz. set (nu := l + 1 / 2) in *. assert (S : 0 < nu * nu - z * z) by nra.
  rewrite root_ok by lra. cbn [bind]. assert (T := sqrt_lt_R0 _ S). set (t := sqrt _) in *. rewrite quot_ok by lra. cbn [bind].
  assert (Q : 1 <= nu / z). { apply Rmult_le_reg_r with z; [assumption|]. unfold Rdiv. rewrite Rmult_assoc, Rinv_l by lra. lra. }
  unfold arccosh. apply rleb_true in Q. rewrite Q. cbn [bind].
  assert (0 < t ^ 2) by (apply pow_lt; assumption). assert (0 < t ^ 3) by (apply pow_lt; assumption). assert (0 < t ^ 4) by (apply pow_lt; assumption).
  rewrite (quot_ok 1) by lra. cbn [bind]. rewrite (quot_ok (5 * nu ^ 2)) by lra. cbn [bind]. rewrite (quot_ok 9) by lra. cbn [bind]. rewrite (quot_ok (231 * nu ^ 2)) by lra. cbn [bind].
  assert (Z : 0 < z * t) by nra. rewrite root_ok by lra. cbn [bind]. assert (0 < sqrt (z * t)) by now apply sqrt_lt_R0. rewrite quot_ok by lra. eauto.
Qed.
Lemma highz_ok l z : 0 < l -> l + 1 / 2 < z -> exists x, jl_approx_highz l z = Some x.
Proof.
  intros P B. unfold jl_approx_highz. set (nu := l + 1 / 2) in *. assert (Pn : 0 < nu) by (unfold nu; lra). assert (Pz : 0 < z) by lra.
  assert (Zz : 0 < z * z) by nra. rewrite (quot_ok (nu * nu)) by lra. cbn [bind].
  assert (Q : nu * nu / (z * z) < 1). { apply Rmult_lt_reg_r with (z * z); [assumption|]. unfold Rdiv. rewrite Rmult_assoc, Rinv_l by lra. nra. }
  rewrite root_ok by lra. cbn [bind]. assert (T := sqrt_lt_R0 (1 - nu * nu / (z * z)) ltac:(lra)). set (t := sqrt _) in *.
  assert (Zt : 0 < z * t) by nra. rewrite (quot_ok nu (z * t)) by lra. cbn [bind]. rewrite (quot_ok nu z) by lra. cbn [bind].
  assert (Q1 : nu / z <= 1). { apply Rmult_le_reg_r with z; [assumption|]. unfold Rdiv. rewrite Rmult_assoc, Rinv_l by lra. lra. }
  assert (Q2 : 0 < nu / z) by (apply Rdiv_lt_0_compat; lra). rewrite arcsin_ok by lra. cbn [bind].
  assert (0 < nu ^ 2) by (apply pow_lt; assumption). rewrite (quot_ok _ (128 * nu ^ 2)) by lra. cbn [bind]. rewrite (quot_ok _ (8 * nu)) by lra. cbn [bind].
  rewrite root_ok by lra. cbn [bind]. assert (0 < sqrt t) by now apply sqrt_lt_R0. rewrite quot_ok by nra. eauto.
Qed.
