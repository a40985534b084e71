(** Lemmas about sums of complex numbers, roots of unity, and indices. *)
From Coq Require Import List Bool Reals ZArith Arith Lia Lra.
From Verif Require Import PyBase FftModel FftSpec.
Import ListNotations.
Open Scope R_scope.

Lemma ceq (a b : Cx) : fst a = fst b -> snd a = snd b -> a = b.
Proof. destruct a, b; cbn. now intros -> ->. Qed.
Lemma C_ring : ring_theory C0 C1 cadd cmul csub copp (@eq Cx).
Proof.
  constructor; intros; apply ceq; unfold cadd, cmul, csub, copp, C0, C1; cbn; try ring.
Qed.
Add Ring CRing : C_ring.

Lemma csum_ext n f g : (forall i, (i < n)%nat -> f i = g i) -> csum n f = csum n g.
Proof.
  induction n as [|n IH]; intros H; cbn; [reflexivity|]. rewrite IH by (intros; apply H; lia). now rewrite H by lia.
Qed.
Lemma csum_0 n f : (forall i, (i < n)%nat -> f i = C0) -> csum n f = C0.
Proof.
  induction n as [|n IH]; intros H; cbn; [reflexivity|]. rewrite IH by (intros; apply H; lia). rewrite H by lia. ring.
Qed.
Lemma csum_add n f g : csum n (fun i => cadd (f i) (g i)) = cadd (csum n f) (csum n g).
Proof. induction n as [|n IH]; cbn; [ring|]. rewrite IH. ring. Qed.
Lemma csum_scale n c f : csum n (fun i => cmul c (f i)) = cmul c (csum n f).
Proof. induction n as [|n IH]; cbn; [ring|]. rewrite IH. ring. Qed.
Lemma csum_scale_r n c f : csum n (fun i => cmul (f i) c) = cmul (csum n f) c.
Proof. induction n as [|n IH]; cbn; [ring|]. rewrite IH. ring. Qed.
Lemma csum_swap n m f : csum n (fun i => csum m (fun j => f i j)) = csum m (fun j => csum n (fun i => f i j)).
Proof.
  induction n as [|n IH]; cbn.
  - symmetry. apply csum_0. reflexivity.
  - rewrite IH. now rewrite csum_add.
Qed.
Lemma csum_const n c : csum n (fun _ => c) = cmul (rc (INR n)) c.
Proof.
  induction n as [|n IH]; [cbn; apply ceq; cbn; ring|].
  cbn [csum]. rewrite IH, S_INR. apply ceq; cbn; ring.
Qed.
Lemma csum_one n i f : (i < n)%nat -> (forall j, (j < n)%nat -> j <> i -> f j = C0) -> csum n f = f i.
Proof.
  induction n as [|n IH]; intros L H; [lia|]. cbn.
  destruct (Nat.eq_dec i n) as [->|N].
  - rewrite csum_0; [ring|]. intros j J. apply H; lia.
  - rewrite IH; [|lia|intros; apply H; lia]. rewrite (H n); [ring|lia|lia].
Qed.
Lemma csum_shift1 n f : csum (S n) f = cadd (f 0%nat) (csum n (fun i => f (S i))).
Proof.
  induction n as [|n IH]; [cbn; ring|].
  change (csum (S (S n)) f) with (cadd (csum (S n) f) (f (S n))). rewrite IH. cbn [csum]. ring.
Qed.
(** A cyclic shift does not change a sum. *)
Lemma csum_cyc n f m : csum n (fun i => f ((i + m) mod n)) = csum n f.
Proof.
  destruct n as [|n]; [reflexivity|].
  induction m as [|m IH].
  - apply csum_ext. intros i L. rewrite Nat.add_0_r, Nat.mod_small by lia. reflexivity.
  - rewrite <- IH. set (g := fun i => f ((i + m) mod S n)%nat).
    assert (E: csum (S n) (fun i => f ((i + S m) mod S n)%nat) = csum (S n) (fun i => g (S i))).
    { apply csum_ext. intros i _. unfold g. do 2 f_equal. lia. }
    rewrite E. fold g. rewrite (csum_shift1 n g). cbn [csum].
    assert (g (S n) = g 0%nat) as ->.
    { unfold g. f_equal. rewrite Nat.add_0_l. replace (S n + m)%nat with (m + 1 * S n)%nat by lia. apply Nat.mod_add. lia. }
    ring.
Qed.

(** Roots of unity *)
Lemma root_0 n : root n 0 = C1.
Proof.
  unfold root, C1. replace (2 * PI * 0 / INR n) with 0 by (unfold Rdiv; ring). now rewrite cos_0, sin_0.
Qed.
Lemma root_add n s t : root n (s + t) = cmul (root n s) (root n t).
Proof.
  unfold root. rewrite plus_IZR.
  replace (2 * PI * (IZR s + IZR t) / INR n) with (2 * PI * IZR s / INR n + 2 * PI * IZR t / INR n)
    by (unfold Rdiv; ring).
  rewrite cos_plus, sin_plus. apply ceq; cbn; ring.
Qed.
Lemma cos_2piZ z : cos (2 * PI * IZR z) = 1 /\ sin (2 * PI * IZR z) = 0.
Proof.
  assert (N: forall k, cos (2 * PI * INR k) = 1 /\ sin (2 * PI * INR k) = 0).
  { intros k. pose proof (cos_period 0 k) as A. pose proof (sin_period 0 k) as B.
    rewrite cos_0 in A. rewrite sin_0 in B.
    replace (2 * PI * INR k) with (0 + 2 * INR k * PI) by ring. auto. }
  destruct (Z_le_gt_dec 0 z) as [P|P].
  - rewrite <- (Z2Nat.id z) by lia. rewrite <- INR_IZR_INZ. apply N.
  - replace (IZR z) with (- INR (Z.to_nat (- z))).
    + destruct (N (Z.to_nat (- z))) as [A B].
      replace (2 * PI * - INR (Z.to_nat (- z))) with (- (2 * PI * INR (Z.to_nat (- z)))) by ring.
      rewrite cos_neg, sin_neg, A, B. split; ring.
    + rewrite INR_IZR_INZ, Z2Nat.id by lia. rewrite opp_IZR. ring.
Qed.
Lemma root_turn n q : (0 < n)%nat -> root n (Z.of_nat n * q) = C1.
Proof.
  intros P. unfold root, C1. rewrite mult_IZR, <- INR_IZR_INZ.
  assert (INR n <> 0) by (apply not_0_INR; lia).
  replace (2 * PI * (INR n * IZR q) / INR n) with (2 * PI * IZR q) by (field; auto).
  destruct (cos_2piZ q) as [-> ->]. reflexivity.
Qed.
Lemma root_period n t q : (0 < n)%nat -> root n (t + Z.of_nat n * q) = root n t.
Proof. intros P. rewrite root_add, root_turn by assumption. ring. Qed.
Lemma root_eqm n s t : (0 < n)%nat -> ((s - t) mod Z.of_nat n = 0)%Z -> root n s = root n t.
Proof.
  intros P H. pose proof (Z.div_mod (s - t) (Z.of_nat n) ltac:(lia)) as D. rewrite H in D.
  replace s with (t + Z.of_nat n * ((s - t) / Z.of_nat n))%Z by lia. now apply root_period.
Qed.
Lemma root_neq n d : (0 < d < Z.of_nat n)%Z -> root n d <> C1.
Proof.
  intros [A B] E. assert (C: cos (2 * PI * IZR d / INR n) = 1) by (apply (f_equal fst) in E; exact E).
  assert (Pn: 0 < INR n) by (apply lt_0_INR; lia).
  assert (Pd: 0 < IZR d) by (apply IZR_lt; lia).
  assert (L: IZR d < INR n) by (rewrite INR_IZR_INZ; apply IZR_lt; lia).
  set (t := PI * IZR d / INR n). replace (2 * PI * IZR d / INR n) with (2 * t) in C by (unfold t; field; lra).
  rewrite cos_2a_sin in C.
  assert (S0: 0 < sin t).
  { apply sin_gt_0; unfold t.
    - apply Rmult_lt_0_compat; [apply Rmult_lt_0_compat; [apply PI_RGT_0|assumption]|now apply Rinv_0_lt_compat].
    - apply Rmult_lt_reg_r with (INR n); [assumption|].
      unfold Rdiv. rewrite Rmult_assoc, Rinv_l, Rmult_1_r by lra.
      apply Rmult_lt_compat_l; [apply PI_RGT_0|assumption]. }
  assert (0 < sin t * sin t) by now apply Rmult_lt_0_compat. lra.
Qed.
Lemma cmul_0 a b : cmul a b = C0 -> a = C0 \/ b = C0.
Proof.
  destruct a as [a1 a2], b as [b1 b2]. unfold cmul, C0; cbn. intros E. injection E as E1 E2.
  destruct (Req_dec (a1 * a1 + a2 * a2) 0) as [Z|Z].
  - left. pose proof (Rle_0_sqr a1). pose proof (Rle_0_sqr a2). unfold Rsqr in *.
    assert (a1 * a1 = 0) by lra. assert (a2 * a2 = 0) by lra.
    f_equal; apply Rsqr_0_uniq; unfold Rsqr; assumption.
  - right. f_equal; apply (Rmult_eq_reg_l (a1 * a1 + a2 * a2)); try assumption; rewrite Rmult_0_r.
    + transitivity (a1 * (a1 * b1 - a2 * b2) + a2 * (a1 * b2 + a2 * b1)); [ring|]. rewrite E1, E2. ring.
    + transitivity (a1 * (a1 * b2 + a2 * b1) - a2 * (a1 * b1 - a2 * b2)); [ring|]. rewrite E1, E2. ring.
Qed.
(** The sum of the powers of a root other than one vanishes. *)
Lemma root_sum n d : (0 < Z.abs d < Z.of_nat n)%Z -> csum n (fun k => root n (Z.of_nat k * d)) = C0.
Proof.
  intros H. set (s := csum n (fun k => root n (Z.of_nat k * d))).
  assert (E: cmul (csub (root n d) C1) s = C0).
  { assert (T: csum n (fun k => root n (Z.of_nat (S k) * d)) = cmul (root n d) s).
    { unfold s. rewrite <- csum_scale. apply csum_ext. intros k _. rewrite <- root_add. f_equal. lia. }
    pose proof (csum_shift1 n (fun k => root n (Z.of_nat k * d))) as A. cbn [csum] in A. fold s in A.
    rewrite T in A. change (Z.of_nat 0 * d)%Z with 0%Z in A.
    rewrite root_turn, root_0 in A by lia.
    transitivity (csub (cadd C1 (cmul (root n d) s)) (cadd s C1)); [ring|]. rewrite A. ring. }
  apply cmul_0 in E. destruct E as [E|E]; [|assumption]. exfalso.
  assert (R: root n d = C1) by (transitivity (cadd (csub (root n d) C1) C1); [ring|rewrite E; ring]).
  destruct (Z_lt_le_dec 0 d) as [P|P].
  - apply (root_neq n d); [lia|assumption].
  - apply (root_neq n (- d)); [lia|].
    assert (X: cmul (root n d) (root n (- d)) = C1) by (rewrite <- root_add, Z.add_opp_diag_r; apply root_0).
    rewrite R in X. rewrite <- X. ring.
Qed.

(** Indices *)
Lemma upd_len i a v : length (upd i a v) = length i.
Proof. revert a; induction i as [|x r IH]; intros [|a]; cbn; auto. Qed.
Lemma upd_same i a v w : upd (upd i a v) a w = upd i a w.
Proof. revert a; induction i as [|x r IH]; intros [|a]; cbn; try reflexivity. now rewrite IH. Qed.
Lemma upd_swap i a b v w : a <> b -> upd (upd i a v) b w = upd (upd i b w) a v.
Proof.
  revert a b; induction i as [|x r IH]; intros [|a] [|b] N; cbn; try reflexivity; try congruence.
  rewrite IH by congruence. reflexivity.
Qed.
Lemma upd_nth i a v d : (a < length i)%nat -> nth a (upd i a v) d = v.
Proof. revert a; induction i as [|x r IH]; intros [|a] L; cbn in *; try lia; auto. apply IH; lia. Qed.
Lemma upd_other i a b v d : a <> b -> nth b (upd i a v) d = nth b i d.
Proof.
  revert a b; induction i as [|x r IH]; intros [|a] [|b] N; cbn; try reflexivity; try congruence.
  apply IH; congruence.
Qed.
Lemma upd_id i a d : upd i a (nth a i d) = i.
Proof.
  revert a; induction i as [|x r IH]; intros [|a]; cbn; try reflexivity. now rewrite IH.
Qed.
Lemma index_len sh k : index_of sh k -> length k = length sh.
Proof. induction 1; cbn; auto. Qed.
Lemma index_nth sh k a : index_of sh k -> (a < length sh)%nat -> (nth a k 0 < nth a sh 0)%nat.
Proof. intros H; revert a; induction H; intros [|a] L; cbn in *; try lia. apply IHForall2; lia. Qed.
Lemma index_upd sh k a v : index_of sh k -> (v < nth a sh 0)%nat -> index_of sh (upd k a v).
Proof.
  intros H; revert a; induction H; intros [|a] L; cbn in *; try constructor; auto; try lia; try (apply IHForall2; lia).
Qed.

(** Transforms *)
Definition feq (x y : fn) := forall k, x k = y k.
Definition eqv sh (x y : fn) := forall k, index_of sh k -> x k = y k.
Lemma dft1_feq s n a x y : feq x y -> feq (dft1 s n a x) (dft1 s n a y).
Proof. intros H k. apply csum_ext. intros j _. now rewrite H. Qed.
Lemma dft1_eqv sh s a x y : eqv sh x y -> eqv sh (dft1 s (nth a sh 0%nat) a x) (dft1 s (nth a sh 0%nat) a y).
Proof. intros H k K. apply csum_ext. intros j J. rewrite H; [reflexivity|]. now apply index_upd. Qed.
Lemma dft_eqv s sh A x y : eqv sh x y -> eqv sh (dft s sh A x) (dft s sh A y).
Proof. induction A as [|a r IH]; cbn; intros H; [assumption|]. apply dft1_eqv. auto. Qed.
Lemma dft_feq s sh A x y : feq x y -> feq (dft s sh A x) (dft s sh A y).
Proof. induction A as [|a r IH]; cbn; intros H; [assumption|]. apply dft1_feq. auto. Qed.
Lemma dft1_swap s t n m a b x : a <> b -> feq (dft1 s n a (dft1 t m b x)) (dft1 t m b (dft1 s n a x)).
Proof.
  intros N k. unfold dft1.
  transitivity (csum n (fun j => csum m (fun l =>
    cmul (cmul (x (upd (upd k a j) b l)) (root m (t * Z.of_nat l * Z.of_nat (nth b k 0%nat))))
         (root n (s * Z.of_nat j * Z.of_nat (nth a k 0%nat)))))).
  { apply csum_ext. intros j _. rewrite csum_scale_r. f_equal. apply csum_ext. intros l _. now rewrite upd_other by assumption. }
  rewrite csum_swap. apply csum_ext. intros l _. rewrite <- csum_scale_r. apply csum_ext. intros j _.
  rewrite (upd_other k b a) by congruence. rewrite (upd_swap k a b) by assumption. ring.
Qed.
Lemma dft1_dft s n a t sh A x : ~ In a A -> feq (dft1 s n a (dft t sh A x)) (dft t sh A (dft1 s n a x)).
Proof.
  induction A as [|b r IH]; intros N k; [reflexivity|]. cbn [dft].
  rewrite dft1_swap by (intros ->; apply N; now left).
  apply dft1_feq. apply IH. intros I; apply N; now right.
Qed.
Lemma dft1_inv s sh a x : (s = 1 \/ s = -1)%Z -> (a < length sh)%nat ->
  eqv sh (dft1 s (nth a sh 0%nat) a (dft1 (- s) (nth a sh 0%nat) a x))
         (fun k => cmul (rc (INR (nth a sh 0%nat))) (x k)).
Proof.
  intros Hs L k K. set (n := nth a sh 0%nat). pose proof (index_nth _ _ a K L) as Ln. fold n in Ln.
  pose proof (index_len _ _ K) as Le. unfold dft1.
  transitivity (csum n (fun j => csum n (fun l =>
    cmul (x (upd k a l)) (root n (Z.of_nat j * (s * (Z.of_nat (nth a k 0%nat) - Z.of_nat l))))))).
  { apply csum_ext. intros j J. rewrite <- csum_scale_r. apply csum_ext. intros l _.
    rewrite upd_same, upd_nth by lia.
    replace (Z.of_nat j * (s * (Z.of_nat (nth a k 0%nat) - Z.of_nat l)))%Z
      with (- s * Z.of_nat l * Z.of_nat j + s * Z.of_nat j * Z.of_nat (nth a k 0%nat))%Z by ring.
    rewrite root_add. ring. }
  rewrite csum_swap. rewrite (csum_one n (nth a k 0%nat)); [|assumption|].
  - rewrite upd_id, csum_scale. rewrite (csum_ext n _ (fun _ => C1)).
    + rewrite csum_const. apply ceq; cbn; ring.
    + intros j _. rewrite Z.sub_diag, Z.mul_0_r, Z.mul_0_r. apply root_0.
  - intros l J Ne. rewrite csum_scale, root_sum; [ring|].
    destruct Hs as [-> | ->]; lia.
Qed.
Lemma rc_mul a b : rc (a * b) = cmul (rc a) (rc b).
Proof. apply ceq; cbn; ring. Qed.
Lemma dft_inv s sh A x : (s = 1 \/ s = -1)%Z -> NoDup A -> Forall (fun a => a < length sh)%nat A ->
  eqv sh (dft s sh A (dft (- s) sh A x)) (fun k => cmul (rc (count sh A)) (x k)).
Proof.
  intros Hs N F. revert x. induction A as [|a r IH]; intros x k K; [cbn; apply ceq; cbn; ring|].
  apply NoDup_cons_iff in N as [N1 N2]. inversion_clear F as [|? ? F1 F2].
  set (n := nth a sh 0%nat).
  change (dft1 s n a (dft s sh r (dft1 (- s) n a (dft (- s) sh r x))) k = cmul (rc (count sh (a :: r))) (x k)).
  rewrite (dft1_feq s n a _ (dft1 (- s) n a (dft s sh r (dft (- s) sh r x))))
    by (intros i; symmetry; now apply dft1_dft).
  unfold n. rewrite dft1_inv by assumption.
  rewrite IH by assumption. cbn [count]. rewrite rc_mul. ring.
Qed.
Lemma dft_scale s sh A c x : feq (dft s sh A (fun k => cmul c (x k))) (fun k => cmul c (dft s sh A x k)).
Proof.
  induction A as [|a r IH]; intros k; [reflexivity|]. cbn [dft].
  rewrite (dft1_feq _ _ _ _ _ IH). unfold dft1. rewrite <- csum_scale. apply csum_ext. intros j _. ring.
Qed.
Lemma count_pos sh A k : index_of sh k -> Forall (fun a => a < length sh)%nat A -> 0 < count sh A.
Proof.
  intros K F. induction F as [|a r L F IH]; cbn; [lra|]. apply Rmult_lt_0_compat; [|assumption].
  apply lt_0_INR. pose proof (index_nth _ _ a K L). lia.
Qed.
Lemma spectrum_dft sh A x k : spectrum sh A x k = dft (-1) sh A x k.
Proof.
  revert k; induction A as [|a r IH]; intros k; [reflexivity|]. cbn [spectrum dft]. unfold dft1.
  apply csum_ext. intros j _. rewrite IH. rewrite Nat2Z.inj_mul.
  replace (- (Z.of_nat j * Z.of_nat (nth a k 0%nat)))%Z with (-1 * Z.of_nat j * Z.of_nat (nth a k 0%nat))%Z by ring.
  ring.
Qed.
Lemma back_forth sh A x : NoDup A -> Forall (fun a => a < length sh)%nat A ->
  eqv sh (backward_dft sh A (forward_dft sh A x)) x.
Proof.
  intros N F k K. unfold backward_dft, forward_dft. change (-1)%Z with (- (1))%Z.
  rewrite dft_inv by auto. pose proof (count_pos sh A k K F) as P.
  transitivity (cmul (rc (/ count sh A * count sh A)) (x k)); [rewrite rc_mul; ring|].
  rewrite Rinv_l by lra. apply ceq; cbn; ring.
Qed.
Lemma forth_back sh A x : NoDup A -> Forall (fun a => a < length sh)%nat A ->
  eqv sh (forward_dft sh A (backward_dft sh A x)) x.
Proof.
  intros N F k K. unfold backward_dft, forward_dft. rewrite dft_scale.
  pose proof (dft_inv (-1) sh A x (or_intror eq_refl) N F k K) as D. change (- (-1))%Z with 1%Z in D. rewrite D.
  pose proof (count_pos sh A k K F) as P.
  transitivity (cmul (rc (/ count sh A * count sh A)) (x k)); [rewrite rc_mul; ring|].
  rewrite Rinv_l by lra. apply ceq; cbn; ring.
Qed.
