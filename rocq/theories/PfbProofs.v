(** Lemmas about the filter bank. *)
From Coq Require Import List Bool Reals ZArith Arith Lia Lra.
From Verif Require Import PyBase FftModel FftSpec FftProofs PfbModel PfbSpec.
Import ListNotations.
Open Scope R_scope.
Add Ring CRingP : C_ring.

Lemma rc_add a b : rc (a + b) = cadd (rc a) (rc b).
Proof. apply ceq; cbn; ring. Qed.
Lemma rc_rsum n f : rc (rsum n f) = csum n (fun i => rc (f i)).
Proof. induction n as [|n IH]; cbn; [reflexivity|]. now rewrite rc_add, IH. Qed.
Lemma rsum_ext n f g : (forall i, (i < n)%nat -> f i = g i) -> rsum n f = rsum n g.
Proof. induction n as [|n IH]; intros H; cbn; [reflexivity|]. rewrite IH by (intros; apply H; lia). now rewrite H by lia. Qed.
Lemma rsum_0 n f : (forall i, (i < n)%nat -> f i = 0) -> rsum n f = 0.
Proof. induction n as [|n IH]; intros H; cbn; [reflexivity|]. rewrite IH by (intros; apply H; lia). rewrite H by lia. ring. Qed.
Lemma csum_plus a b f : csum (a + b) f = cadd (csum a f) (csum b (fun i => f (a + i)%nat)).
Proof.
  induction b as [|b IH]; [rewrite Nat.add_0_r; cbn; ring|].
  rewrite Nat.add_succ_r. cbn [csum]. rewrite IH. ring.
Qed.
Lemma csum_prod a b f : csum (a * b) f = csum a (fun i => csum b (fun j => f (i * b + j)%nat)).
Proof.
  induction a as [|a IH]; [reflexivity|]. cbn [csum]. rewrite <- IH.
  replace (S a * b)%nat with (a * b + b)%nat by lia. apply csum_plus.
Qed.
Lemma root_reduce n m z : (0 < n)%nat -> (0 < m)%nat -> root (n * m) (Z.of_nat n * z) = root m z.
Proof.
  intros P M. unfold root. rewrite mult_IZR, mult_INR, <- INR_IZR_INZ.
  assert (INR n <> 0) by (apply not_0_INR; lia). assert (INR m <> 0) by (apply not_0_INR; lia).
  replace (2 * PI * (INR n * IZR z) / (INR n * INR m)) with (2 * PI * IZR z / INR m) by (field; auto). reflexivity.
Qed.
(** Every [ntap]-th number of the long transform *)
Lemma rfft_channel ntap lblock w ts b f : (0 < ntap)%nat -> (0 < lblock)%nat ->
  rfft (ntap * lblock) (section_ lblock w ts b) (f * ntap) = channel ntap lblock w ts b f.
Proof.
  intros P L. unfold rfft, channel. rewrite csum_prod. rewrite csum_swap.
  apply csum_ext. intros j J. unfold taps. rewrite rc_rsum, <- csum_scale_r. apply csum_ext. intros a A.
  unfold section_. f_equal.
  - f_equal. f_equal. f_equal. lia.
  - replace (- Z.of_nat ((a * lblock + j) * (f * ntap)))%Z
      with (Z.of_nat ntap * (- Z.of_nat (j * f) + Z.of_nat lblock * (- Z.of_nat (a * f))))%Z by lia.
    rewrite root_reduce by assumption. now apply root_period.
Qed.
(** The shift *)
Lemma shift_index n i : (i < n)%nat ->
  let k := ((i + (n - n / 2)) mod n)%nat in
  (k < n)%nat /\ (if (k <? (n - 1) / 2 + 1)%nat then Z.of_nat k else Z.of_nat k - Z.of_nat n)%Z = (Z.of_nat i - Z.of_nat (n / 2))%Z.
Proof.
  intros L k. split; [apply Nat.mod_upper_bound; lia|].
  pose proof (Nat.div_mod n 2 ltac:(lia)) as D. pose proof (Nat.mod_upper_bound n 2 ltac:(lia)) as M.
  pose proof (Nat.div_mod (n - 1) 2 ltac:(lia)) as D'. pose proof (Nat.mod_upper_bound (n - 1) 2 ltac:(lia)) as M'.
  unfold k. destruct (le_lt_dec (n / 2) i) as [G|G].
  - replace (i + (n - n / 2))%nat with ((i - n / 2) + 1 * n)%nat by lia.
    rewrite Nat.mod_add, Nat.mod_small by lia.
    destruct (Nat.ltb_spec (i - n / 2) ((n - 1) / 2 + 1)); lia.
  - rewrite Nat.mod_small by lia.
    destruct (Nat.ltb_spec (i + (n - n / 2)) ((n - 1) / 2 + 1)); lia.
Qed.
Lemma rmax_ge n f i : (i < n)%nat -> f i <= rmax n f.
Proof.
  induction n as [|n IH]; intros L; [lia|]. cbn. destruct (Nat.eq_dec i n) as [->|N]; [apply Rmax_r|].
  eapply Rle_trans; [apply IH; lia|apply Rmax_l].
Qed.
Lemma rmax_in n f : (0 < n)%nat -> exists i, (i < n)%nat /\ f i = rmax n f.
Proof.
  induction n as [|n IH]; intros L; [lia|]. cbn. destruct n as [|n].
  - exists 0%nat. split; [lia|]. cbn. now rewrite Rmax_left by apply Rle_refl.
  - destruct (IH ltac:(lia)) as (i & I & E). unfold Rmax. destruct (Rle_dec _ _).
    + exists (S n). split; [lia|reflexivity].
    + exists i. split; [lia|assumption].
Qed.

(** Correlations *)
Definition conj (z : Cx) : Cx := (fst z, - snd z).
Lemma conj_mul a b : conj (cmul a b) = cmul (conj a) (conj b).
Proof. apply ceq; cbn; ring. Qed.
Lemma conj_add a b : conj (cadd a b) = cadd (conj a) (conj b).
Proof. apply ceq; cbn; ring. Qed.
Lemma conj_sum n f : conj (csum n f) = csum n (fun i => conj (f i)).
Proof. induction n as [|n IH]; cbn; [apply ceq; cbn; ring|]. now rewrite conj_add, IH. Qed.
Lemma conj_rc r : conj (rc r) = rc r.
Proof. apply ceq; cbn; ring. Qed.
Lemma conj_root n z : conj (root n z) = root n (- z).
Proof.
  unfold root, conj; cbn. rewrite opp_IZR.
  replace (2 * PI * - IZR z / INR n) with (- (2 * PI * IZR z / INR n)) by (unfold Rdiv; ring).
  now rewrite cos_neg, sin_neg.
Qed.
Lemma cabs2_conj z : rc (cabs2 z) = cmul z (conj z).
Proof. unfold cabs2. apply ceq; cbn; ring. Qed.
(** The sum of the power times the roots is the circular correlation. *)
Lemma power_sum L x d : (d < L)%nat ->
  csum L (fun k => cmul (rc (cabs2 (rfft L x k))) (root L (Z.of_nat (k * d))))
  = cmul (rc (INR L)) (csum L (fun s => rc (x ((s + d) mod L)%nat * x s))).
Proof.
  intros P. assert (PL: (0 < L)%nat) by lia.
  transitivity (csum L (fun k => csum L (fun t => csum L (fun s =>
     cmul (rc (x t * x s)) (root L (Z.of_nat k * (Z.of_nat d + Z.of_nat s - Z.of_nat t))))))).
  { apply csum_ext. intros k _. rewrite cabs2_conj. unfold rfft. rewrite conj_sum.
    rewrite <- csum_scale_r, <- csum_scale_r. apply csum_ext. intros t _.
    rewrite <- csum_scale, <- csum_scale_r. apply csum_ext. intros s _.
    rewrite conj_mul, conj_rc, conj_root, rc_mul.
    replace (Z.of_nat k * (Z.of_nat d + Z.of_nat s - Z.of_nat t))%Z
      with (- Z.of_nat (t * k) + - - Z.of_nat (s * k) + Z.of_nat (k * d))%Z by lia.
    rewrite !root_add. ring. }
  rewrite csum_swap.
  transitivity (csum L (fun s => csum L (fun t => csum L (fun k =>
     cmul (rc (x t * x s)) (root L (Z.of_nat k * (Z.of_nat d + Z.of_nat s - Z.of_nat t))))))).
  { rewrite (csum_ext L _ (fun t => csum L (fun s => csum L (fun k =>
       cmul (rc (x t * x s)) (root L (Z.of_nat k * (Z.of_nat d + Z.of_nat s - Z.of_nat t))))))).
    - apply csum_swap.
    - intros t _. apply csum_swap. }
  rewrite <- csum_scale. apply csum_ext. intros s Ls.
  rewrite (csum_one L ((s + d) mod L)).
  - rewrite csum_scale. rewrite (csum_ext L _ (fun _ => C1)).
    + rewrite csum_const. ring.
    + intros k _. rewrite <- (root_0 L). apply root_eqm; [assumption|].
      rewrite Nat2Z.inj_mod, Nat2Z.inj_add.
      pose proof (Z.div_mod (Z.of_nat s + Z.of_nat d) (Z.of_nat L) ltac:(lia)) as D.
      set (q := ((Z.of_nat s + Z.of_nat d) / Z.of_nat L)%Z) in *.
      replace ((Z.of_nat s + Z.of_nat d) mod Z.of_nat L)%Z with (Z.of_nat s + Z.of_nat d - Z.of_nat L * q)%Z by lia.
      replace (Z.of_nat k * (Z.of_nat d + Z.of_nat s - (Z.of_nat s + Z.of_nat d - Z.of_nat L * q)) - 0)%Z
        with ((Z.of_nat k * q) * Z.of_nat L)%Z by ring.
      apply Z.mod_mul. lia.
  - apply Nat.mod_upper_bound. lia.
  - intros t Lt Ne. rewrite csum_scale.
    rewrite (csum_ext L _ (fun k => root L (Z.of_nat k * (Z.of_nat ((s + d) mod L) - Z.of_nat t)))).
    + rewrite root_sum; [ring|]. pose proof (Nat.mod_upper_bound (s + d) L ltac:(lia)). lia.
    + intros k _. apply root_eqm; [assumption|].
      rewrite Nat2Z.inj_mod, Nat2Z.inj_add.
      pose proof (Z.div_mod (Z.of_nat s + Z.of_nat d) (Z.of_nat L) ltac:(lia)) as D.
      set (q := ((Z.of_nat s + Z.of_nat d) / Z.of_nat L)%Z) in *.
      replace ((Z.of_nat s + Z.of_nat d) mod Z.of_nat L)%Z with (Z.of_nat s + Z.of_nat d - Z.of_nat L * q)%Z by lia.
      replace (Z.of_nat k * (Z.of_nat d + Z.of_nat s - Z.of_nat t) - Z.of_nat k * (Z.of_nat s + Z.of_nat d - Z.of_nat L * q - Z.of_nat t))%Z
        with ((Z.of_nat k * q) * Z.of_nat L)%Z by ring.
      apply Z.mod_mul. lia.
Qed.
