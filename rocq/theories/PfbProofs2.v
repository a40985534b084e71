(** The decorrelation ratio. *)
From Coq Require Import List Bool Reals ZArith Arith Lia Lra.
From Verif Require Import PyBase FftModel FftSpec FftProofs PfbModel PfbSpec PfbProofs.
Import ListNotations.
Open Scope R_scope.
Add Ring CRingP2 : C_ring.

Lemma fst_csum n f : fst (csum n f) = rsum n (fun i => fst (f i)).
Proof. induction n as [|n IH]; cbn; [reflexivity|]. now rewrite IH. Qed.
Lemma rsum_plus a b f : rsum (a + b) f = rsum a f + rsum b (fun i => f (a + i)%nat).
Proof. induction b as [|b IH]; [rewrite Nat.add_0_r; cbn; ring|]. rewrite Nat.add_succ_r. cbn [rsum]. rewrite IH. ring. Qed.
Lemma rsum_first n f : rsum (S n) f = f 0%nat + rsum n (fun i => f (S i)).
Proof. induction n as [|n IH]; [cbn; ring|]. change (rsum (S (S n)) f) with (rsum (S n) f + f (S n)). rewrite IH. cbn [rsum]. ring. Qed.
Lemma rsum_rev n f : rsum n (fun i => f (n - i)%nat) = rsum n (fun i => f (S i)).
Proof.
  revert f; induction n as [|n IH]; intros f; [reflexivity|].
  rewrite rsum_first. cbn [rsum]. rewrite (rsum_ext n (fun i => f (S n - S i)%nat) (fun i => f (n - i)%nat)) by (intros; f_equal; lia).
  rewrite IH, Nat.sub_0_r. ring.
Qed.
Lemma rsum_scale n c f : rsum n (fun i => c * f i) = c * rsum n f.
Proof. induction n as [|n IH]; cbn; [ring|]. rewrite IH. ring. Qed.
Lemma rsum_cut n m f : (m <= n)%nat -> (forall i, (m <= i < n)%nat -> f i = 0) -> rsum n f = rsum m f.
Proof.
  intros L H. induction n as [|n IH]; [now replace m with 0%nat by lia|].
  destruct (Nat.eq_dec m (S n)) as [->|E]; [reflexivity|].
  cbn. rewrite IH by (try lia; intros; apply H; lia). rewrite H by lia. ring.
Qed.
Lemma half_sum h G : (forall k, (1 <= k <= h)%nat -> G (h + (h - k))%nat = G k) ->
  rsum (h + h) G + G h = G 0%nat + 2 * rsum h (fun i => G (S i)).
Proof.
  intros Sy. rewrite rsum_plus.
  rewrite (rsum_ext h (fun i => G (h + i)%nat) (fun i => G (h - i)%nat)).
  - rewrite rsum_rev. pose proof (rsum_first h G) as E. cbn [rsum] in E. lra.
  - intros i I. rewrite <- (Sy (h - i)%nat) by lia. f_equal. lia.
Qed.
Lemma root_neg1 t : root 2 (- Z.of_nat t) = rc (if Nat.even t then 1 else -1).
Proof.
  destruct (Nat.Even_or_Odd t) as [[q ->]|[q ->]].
  - assert (E: Nat.even (2 * q) = true) by (apply Nat.even_spec; now exists q). rewrite E.
    replace (- Z.of_nat (2 * q))%Z with (Z.of_nat 2 * (- Z.of_nat q))%Z by lia. rewrite root_turn by lia. reflexivity.
  - assert (E: Nat.even (2 * q + 1) = false) by (rewrite <- Nat.negb_odd; apply negb_false_iff, Nat.odd_spec; now exists q).
    rewrite E. replace (- Z.of_nat (2 * q + 1))%Z with (-1 + Z.of_nat 2 * (- Z.of_nat q))%Z by lia.
    rewrite root_period by lia. unfold root, rc. replace (2 * PI * -1 / INR 2) with (- PI) by (cbn; field).
    rewrite cos_neg, sin_neg, cos_PI, sin_PI. f_equal. lra.
Qed.
Lemma root_pos1 t : root 2 (Z.of_nat t) = rc (if Nat.even t then 1 else -1).
Proof.
  rewrite <- root_neg1. apply root_eqm; [lia|].
  replace (Z.of_nat t - - Z.of_nat t)%Z with (Z.of_nat t * Z.of_nat 2)%Z by lia. apply Z.mod_mul. lia.
Qed.
Lemma cabs2_mirror L x k : (0 < L)%nat -> (k <= L)%nat -> cabs2 (rfft L x (L - k)) = cabs2 (rfft L x k).
Proof.
  intros P K. assert (E: rfft L x (L - k) = conj (rfft L x k)).
  { unfold rfft. rewrite conj_sum. apply csum_ext. intros t _. rewrite conj_mul, conj_rc, conj_root. f_equal.
    apply root_eqm; [assumption|].
    replace (- Z.of_nat (t * (L - k)) - - - Z.of_nat (t * k))%Z with ((- Z.of_nat t) * Z.of_nat L)%Z by nia.
    apply Z.mod_mul. lia. }
  rewrite E. unfold cabs2, conj; cbn. ring.
Qed.

Lemma fst_rc a z : fst (cmul (rc a) z) = a * fst z.
Proof. cbn. ring. Qed.

Section Ratio.
Variables (ntap lblock os : nat) (w : nat -> R).
Let N := (ntap * lblock)%nat.
Let L := (N * os)%nat.
Hypothesis os2 : (2 <= os)%nat.
Hypothesis Npos : (0 < N)%nat.
Variable h : nat.
Hypothesis Lh : L = (h + h)%nat.
Let p := padded ntap lblock w.
Let P k := cabs2 (rfft L p k).

Lemma L2N : (2 * N <= L)%nat.
Proof. unfold L. nia. Qed.
Lemma npadL : npad ntap lblock os = (os * L)%nat.
Proof. unfold npad, L, N. cbn. lia. Qed.
Lemma npad_half : (npad ntap lblock os / 2 = os * h)%nat.
Proof. rewrite npadL, Lh. replace (os * (h + h))%nat with ((os * h) * 2)%nat by lia. apply Nat.div_mul. lia. Qed.
Lemma nwf_eq : nwf ntap lblock os = S (os * h).
Proof. unfold nwf. rewrite npad_half. lia. Qed.
Lemma length_ok : (2 * (nwf ntap lblock os - 1) = npad ntap lblock os)%nat.
Proof. rewrite nwf_eq, npadL, Lh. lia. Qed.
Lemma circ d : (d <= N)%nat -> rsum L (fun s => p ((s + d) mod L)%nat * p s) = autocorrelation N w d.
Proof.
  intros D. pose proof L2N. unfold autocorrelation.
  rewrite (rsum_cut L (N - d)).
  - apply rsum_ext. intros s S. unfold p, padded. fold N. rewrite Nat.mod_small by lia.
    destruct (Nat.ltb_spec (s + d) N); [|lia]. destruct (Nat.ltb_spec s N); [|lia]. ring.
  - lia.
  - intros s [S1 S2]. unfold p, padded. fold N. destruct (Nat.ltb_spec s N); [|ring].
    rewrite Nat.mod_small by lia. destruct (Nat.ltb_spec (s + d) N); [lia|ring].
Qed.
Lemma nyquist : P h = alternating N w * alternating N w.
Proof.
  assert (E: rfft L p h = rc (alternating N w)).
  { unfold rfft, alternating. rewrite rc_rsum. pose proof L2N as B.
    replace L with (N + (L - N))%nat at 1 by lia. rewrite csum_plus.
    rewrite (csum_0 (L - N)).
    - match goal with |- cadd ?a C0 = _ => transitivity a; [ring|] end.
      apply csum_ext. intros t T.
      replace (root L (- Z.of_nat (t * h))) with (root 2 (- Z.of_nat t)).
      + rewrite root_neg1, <- rc_mul. f_equal. unfold p, padded. fold N. destruct (Nat.ltb_spec t N); [|lia].
        destruct (Nat.even t); ring.
      + rewrite <- (root_reduce h 2) by lia. f_equal; lia.
    - intros i I. unfold p, padded. fold N. destruct (Nat.ltb_spec (N + i) N); [lia|]. apply ceq; cbn; ring. }
  unfold P. rewrite E. unfold cabs2; cbn. ring.
Qed.
(** The numbers before the division by the first *)
Lemma irfft_value d : (d <= N)%nat ->
  irfft (nwf ntap lblock os) (wfpad ntap lblock os w) (d * os) * INR (os * L)
  = INR L * autocorrelation N w d + (if Nat.even d then 1 else -1) * (alternating N w * alternating N w).
Proof.
  intros D. pose proof L2N as B. assert (Lp: (0 < L)%nat) by lia. assert (hp: (0 < h)%nat) by lia.
  set (G := fun k => fst (cmul (rc (P k)) (root L (Z.of_nat (k * d))))).
  assert (S1: irfft (nwf ntap lblock os) (wfpad ntap lblock os w) (d * os) * INR (os * L)
              = G 0%nat + 2 * rsum h (fun i => G (S i))).
  { unfold irfft. rewrite length_ok, npadL, nwf_eq.
    assert (INR (os * L) <> 0) by (apply not_0_INR; nia).
    unfold Rdiv. rewrite Rmult_assoc, Rinv_l, Rmult_1_r by assumption. rewrite fst_csum.
    rewrite (rsum_cut _ (S h)).
    - rewrite rsum_first. f_equal.
      + cbn [Nat.eqb orb]. unfold G, wfpad. fold N. rewrite Nat.mul_0_r, Nat.mul_0_l.
        change (Z.of_nat 0) with 0%Z. rewrite !root_0, !fst_rc. unfold nfft. fold N. fold L. fold p.
        destruct (Nat.ltb_spec 0 (L / 2 + 1)); [|lia]. fold (P 0%nat). ring.
      + rewrite <- rsum_scale. apply rsum_ext. intros i I.
        replace (((S i) =? 0)%nat || ((S i) =? S (os * h) - 1)%nat) with false
          by (symmetry; apply orb_false_iff; split; [reflexivity|apply Nat.eqb_neq; nia]).
        unfold wfpad, nfft. fold N. fold L. rewrite Lh.
        replace ((h + h) / 2)%nat with h by (replace (h + h)%nat with (h * 2)%nat by lia; symmetry; apply Nat.div_mul; lia).
        destruct (Nat.ltb_spec (S i) (h + 1)); [|lia]. rewrite <- Lh. fold p. fold (P (S i)).
        replace (Z.of_nat (d * os * S i)) with (Z.of_nat os * Z.of_nat (S i * d))%Z by lia.
        rewrite root_reduce by lia. unfold G. rewrite !fst_rc. ring.
    - nia.
    - intros i [I1 I2]. unfold wfpad, nfft. fold N. fold L. rewrite Lh.
      replace ((h + h) / 2)%nat with h by (replace (h + h)%nat with (h * 2)%nat by lia; symmetry; apply Nat.div_mul; lia).
      destruct (Nat.ltb_spec i (h + 1)); [lia|]. rewrite fst_rc. ring. }
  rewrite S1, <- half_sum.
  - f_equal.
    + rewrite <- Lh. pose proof (power_sum L p d ltac:(lia)) as E. apply (f_equal fst) in E.
      rewrite fst_csum in E. change (fun i => fst (cmul (rc (cabs2 (rfft L p i))) (root L (Z.of_nat (i * d))))) with G in E.
      rewrite E, <- (circ d D), fst_rc, fst_csum. reflexivity.
    + unfold G. rewrite nyquist. replace (root L (Z.of_nat (h * d))) with (root 2 (Z.of_nat d)).
      * rewrite root_pos1, fst_rc. cbn [fst rc]. ring.
      * rewrite <- (root_reduce h 2) by lia. f_equal; lia.
  - intros k K. unfold G. rewrite !fst_rc. f_equal.
    + unfold P. replace (h + (h - k))%nat with (L - k)%nat by lia. apply cabs2_mirror; lia.
    + transitivity (fst (conj (root L (Z.of_nat (k * d))))); [|reflexivity]. rewrite conj_root. f_equal.
      apply root_eqm; [assumption|].
      replace (Z.of_nat ((h + (h - k)) * d) - - Z.of_nat (k * d))%Z with (Z.of_nat d * Z.of_nat L)%Z by nia.
      apply Z.mod_mul. lia.
Qed.
End Ratio.
