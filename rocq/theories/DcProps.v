From Coq Require Import List Bool Reals ZArith Arith Lia Lra Permutation.
From Verif Require Import PyBase FftModel FftProofs PfbModel PfbSpec PfbProofs PfbProofs2 PfbProps DcModel DcProofs.
Import ListNotations.
Open Scope R_scope.

Section Ratio.
Variables (ntap lblock os : nat) (w : nat -> R).
Notation N := (ntap * lblock)%nat.
Notation at_ := (decorrelation_at ntap lblock os w).
Hypothesis Npos : (0 < N)%nat.
Hypothesis Even : Nat.even (N * os) = true.
Lemma even_half : exists h, npad ntap lblock os = (h + h)%nat /\ npad ntap lblock os = (N * os * os)%nat.
Proof.
  apply Nat.even_spec in Even as (q & Q). exists (q * os)%nat. assert (E : npad ntap lblock os = (N * os * os)%nat) by (unfold npad; cbn; lia).
  split; [|exact E]. rewrite E, Q. lia.
Qed.
Lemma at_node h t : (0 < os)%nat -> npad ntap lblock os = (h + h)%nat -> (- Z.of_nat (lo ntap lblock os h) <= t <= Z.of_nat (hi ntap lblock os h))%Z ->
  at_ (IZR t / INR os) = Ok (at_step ntap lblock os w t).
Proof.
  intros O Nh B. pose proof (h_pos ntap lblock os Npos O h Nh) as Hp.
  assert (Lp : (0 < lo ntap lblock os h)%nat) by (unfold lo; nia).
  destruct (Z_lt_le_dec t (Z.of_nat (hi ntap lblock os h))) as [K|K].
  - replace (IZR t / INR os) with ((IZR t + 0) / INR os) by (f_equal; lra).
    rewrite (at_between ntap lblock os w Npos O h Nh t 0) by (lra || lia). f_equal. lra.
  - replace (IZR t / INR os) with ((IZR (t - 1) + 1) / INR os) by (rewrite minus_IZR; f_equal; lra).
    rewrite (at_between ntap lblock os w Npos O h Nh (t - 1) 1) by (lra || lia). f_equal. replace (t - 1 + 1)%Z with t by lia. lra.
Qed.

(** C293 *)
Theorem C293_samples d : (2 <= os)%nat -> (d < N)%nat ->
  let c := alternating N w * alternating N w / INR (N * os) in
  autocorrelation N w 0 + c <> 0 ->
  let v := (autocorrelation N w d + (if Nat.even d then c else - c)) / (autocorrelation N w 0 + c) in
  at_ (INR d) = Ok v /\ at_ (- INR d) = Ok v.
Proof.
  intros O D c Nz v. destruct even_half as (h & Nh & Ne).
  pose proof (C152_value ntap lblock os w d Npos O Even D Nz) as V. fold c in V. fold v in V.
  assert (Og : INR os <> 0) by (apply not_0_INR; lia).
  assert (B : (d * os <= lo ntap lblock os h /\ d * os <= hi ntap lblock os h)%nat).
  { unfold lo, hi. assert (d * os + 1 <= N * os)%nat by nia. assert (N * os * 2 <= h + h)%nat by nia. split; apply Nat.min_glb; nia. }
  assert (S : at_step ntap lblock os w (Z.of_nat (d * os)) = v).
  { unfold at_step. rewrite Zabs2Nat.id. unfold decorrelation in V.
    destruct (2 * (nwf ntap lblock os - 1) =? 0)%nat; [discriminate|]. destruct (negb _); [discriminate|].
    destruct (_ && _)%bool eqn:Q.
    - unfold ratio. now injection V.
    - exfalso. apply andb_false_iff in Q as [Q|Q]; [apply Nat.leb_gt in Q; nia|apply Nat.ltb_ge in Q]. rewrite Nh in Q.
      pose proof (h_pos ntap lblock os Npos ltac:(lia) h Nh). replace (h + h - 1)%nat with (1 + (h - 1) * 2)%nat in Q by lia. rewrite Nat.div_add in Q by lia. cbn in Q. unfold hi in B. lia. }
  split.
  - replace (INR d) with (IZR (Z.of_nat (d * os)) / INR os) by (rewrite <- INR_IZR_INZ, mult_INR; field; exact Og).
    rewrite (at_node h) by (lia || exact Nh). now rewrite S.
  - replace (- INR d) with (IZR (- Z.of_nat (d * os)) / INR os) by (rewrite opp_IZR, <- INR_IZR_INZ, mult_INR; field; exact Og).
    rewrite (at_node h) by (lia || exact Nh). rewrite <- S. unfold at_step. do 3 f_equal. lia.
Qed.

Lemma wide h : (3 <= os)%nat -> npad ntap lblock os = (h + h)%nat -> lo ntap lblock os h = (N * os)%nat /\ hi ntap lblock os h = (N * os)%nat.
Proof.
  intros O Nh. assert (Ne : npad ntap lblock os = (N * os * os)%nat) by (unfold npad; cbn; lia).
  assert (2 <= N * os)%nat by nia. unfold lo, hi. split; apply Nat.min_l; nia.
Qed.
(** C294 *)
Theorem C294_linear (t : Z) th : (3 <= os)%nat -> (- Z.of_nat (N * os) <= t < Z.of_nat (N * os))%Z -> 0 <= th <= 1 ->
  exists a b, at_ (IZR t / INR os) = Ok a /\ at_ (IZR (t + 1) / INR os) = Ok b /\ at_ ((IZR t + th) / INR os) = Ok ((1 - th) * a + th * b).
Proof.
  intros O B T. destruct even_half as (h & Nh & _). destruct (wide h O Nh) as [L H].
  exists (at_step ntap lblock os w t), (at_step ntap lblock os w (t + 1)).
  split; [apply (at_node h); lia|]. split; [apply (at_node h); lia|]. apply (at_between ntap lblock os w Npos ltac:(lia) h Nh); [lia|exact T].
Qed.
(** C296 *)
Theorem C296_outside x : (0 < os)%nat -> INR N < Rabs x -> at_ x = Ok 0.
Proof.
  intros O B. destruct even_half as (h & Nh & _). assert (Og : 0 < INR os) by (apply lt_0_INR; lia).
  apply (at_outside ntap lblock os w Npos O h Nh).
  assert (L : INR (lo ntap lblock os h) / INR os <= INR N).
  { apply (Rmult_le_reg_r (INR os)); [exact Og|]. unfold Rdiv. rewrite Rmult_assoc, Rinv_l, Rmult_1_r by lra. rewrite <- mult_INR. apply le_INR. unfold lo. lia. }
  assert (H : INR (hi ntap lblock os h) / INR os <= INR N).
  { apply (Rmult_le_reg_r (INR os)); [exact Og|]. unfold Rdiv. rewrite Rmult_assoc, Rinv_l, Rmult_1_r by lra. rewrite <- mult_INR. apply le_INR. unfold hi. lia. }
  replace (- INR (lo ntap lblock os h) / INR os) with (- (INR (lo ntap lblock os h) / INR os)) by (unfold Rdiv; lra).
  unfold Rabs in B. destruct (Rcase_abs x); [left|right]; lra.
Qed.
(** C295 *)
Theorem C295_even_partial x : (3 <= os)%nat -> at_ (- x) = at_ x.
Proof.
  intros O. destruct (Rlt_dec (INR N) (Rabs x)) as [K|K].
  { rewrite !C296_outside; [reflexivity|lia|exact K|lia|now rewrite Rabs_Ropp]. }
  destruct even_half as (h & Nh & _). destruct (wide h O Nh) as [L H]. assert (Og : 0 < INR os) by (apply lt_0_INR; lia).
  assert (Bx : - INR (N * os) <= x * INR os <= INR (N * os)).
  { rewrite mult_INR. unfold Rabs in K. destruct (Rcase_abs x); split; nra. }
  rewrite (INR_IZR_INZ (N * os)) in Bx.
  assert (X : exists t th, (- Z.of_nat (N * os) <= t < Z.of_nat (N * os))%Z /\ 0 <= th <= 1 /\ x = (IZR t + th) / INR os).
  { pose proof (base_Int_part (x * INR os)) as [P1 P2]. set (t := Int_part (x * INR os)) in *.
    assert (T1 : (- Z.of_nat (N * os) <= t)%Z).
    { destruct (Z_lt_le_dec t (- Z.of_nat (N * os))) as [Q|Q]; [|exact Q]. exfalso.
      assert (Q' : IZR t + 1 <= IZR (- Z.of_nat (N * os))) by (rewrite <- plus_IZR; apply IZR_le; lia). rewrite opp_IZR in Q'. lra. }
    destruct (Z_lt_le_dec t (Z.of_nat (N * os))) as [Q|Q].
    - exists t, (x * INR os - IZR t). split; [lia|]. split; [lra|]. field. lra.
    - assert (x * INR os = IZR (Z.of_nat (N * os))) by (apply IZR_le in Q; lra).
      exists (Z.of_nat (N * os) - 1)%Z, 1. split; [nia|]. split; [lra|]. rewrite minus_IZR, <- H0. field. lra. }
  destruct X as (t & th & Bt & Bth & ->).
  replace (- ((IZR t + th) / INR os)) with ((IZR (- t - 1) + (1 - th)) / INR os) by (rewrite minus_IZR, opp_IZR; field; lra).
  rewrite !(at_between ntap lblock os w Npos ltac:(lia) h Nh) by (lra || lia). f_equal.
  replace (- t - 1 + 1)%Z with (- t)%Z by lia.
  assert (E1 : at_step ntap lblock os w (- t - 1) = at_step ntap lblock os w (t + 1)) by (unfold at_step; do 2 f_equal; lia).
  assert (E2 : at_step ntap lblock os w (- t) = at_step ntap lblock os w t) by (unfold at_step; do 2 f_equal; lia).
  rewrite E1, E2. lra.
Qed.
End Ratio.
Print Assumptions C293_samples.
Print Assumptions C294_linear.
Print Assumptions C296_outside.
Print Assumptions C295_even_partial.

(** With twice as many points, the delay of a whole window is in the table with one sign only. *)
Definition first_only (t : nat) : R := match t with O => 1 | _ => 0 end.
Theorem C295_refuted : exists ntap lblock os w x, (2 <= os)%nat /\ Nat.even (ntap * lblock * os) = true /\
  decorrelation_at ntap lblock os w x = Ok 0 /\ decorrelation_at ntap lblock os w (- x) = Ok (1 / 5).
Proof.
  exists 1%nat, 2%nat, 2%nat, first_only, 2. split; [lia|]. split; [reflexivity|]. split.
  - apply (at_outside 1 2 2 first_only ltac:(lia) ltac:(lia) 4 ltac:(reflexivity)). right. cbn. lra.
  - replace (-(2)) with (IZR (-4) / INR 2) by (cbn; lra).
    rewrite (at_node 1 2 2 first_only ltac:(lia) 4) by (reflexivity || (cbn; lia)).
    unfold at_step. change (Z.abs_nat (-4)) with (2 * 2)%nat. f_equal.
    pose proof (irfft_value 1 2 2 first_only ltac:(lia) ltac:(lia) 2 ltac:(reflexivity) 2 ltac:(lia)) as A.
    pose proof (irfft_value 1 2 2 first_only ltac:(lia) ltac:(lia) 2 ltac:(reflexivity) 0 ltac:(lia)) as B.
    change (0 * 2)%nat with 0%nat in B. unfold ratio. set (a := irfft _ _ (2 * 2)) in *. set (b := irfft _ _ 0) in *. clearbody a b.
    change (2 * (1 * 2 * 2))%nat with 8%nat in A, B. change (1 * 2 * 2)%nat with 4%nat in A, B. change (1 * 2)%nat with 2%nat in A, B.
    unfold autocorrelation, alternating, rsum, first_only in A, B. change (2 - 2)%nat with 0%nat in A. cbn [Nat.even Nat.sub Nat.add] in A, B.
    change (INR 4) with (1 + 1 + 1 + 1) in A, B. change (INR 8) with (1 + 1 + 1 + 1 + 1 + 1 + 1 + 1) in A, B.
    assert (a = 1 / 8) by lra. assert (b = 5 / 8) by lra. subst. lra.
Qed.
Print Assumptions C295_refuted.
Example C293_example : decorrelation_at 1 2 2 (fun t => INR (1 + t)) 1 = Ok (1 / 3).
Proof.
  destruct (C293_samples 1 2 2 (fun t => INR (1 + t)) ltac:(lia) ltac:(reflexivity) 1 ltac:(lia) ltac:(lia)) as [E _]; [cbn; lra|].
  change (INR 1) with 1 in E. rewrite E. f_equal. cbn. field.
Qed.
Example C294_example : decorrelation_at 1 2 4 (fun _ => 1) (7 / 2) = Ok 0 /\ decorrelation_at 1 2 4 (fun _ => 1) 0 = Ok 1.
Proof.
  split; [apply C296_outside; [lia|reflexivity|lia|]; rewrite Rabs_right; cbn; lra|].
  destruct (C293_samples 1 2 4 (fun _ => 1) ltac:(lia) ltac:(reflexivity) 0 ltac:(lia) ltac:(lia)) as [E _]; [cbn; lra|].
  change (INR 0) with 0 in E. rewrite E. f_equal. cbn. field.
Qed.
