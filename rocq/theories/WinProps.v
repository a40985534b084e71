(** Windows of the filter bank: theorems.  Model: WinModel.v; specification: WinSpec.v. *)
From Coq Require Import List Reals Lra Lia Arith ZArith.
From Verif Require Import WinModel WinSpec WinProofs.
Import ListNotations.
Open Scope R_scope.

(** C310: there are [ntap * lblock] samples, of the cardinal sine, [lblock] to the unit. *)
Theorem C310_samples : forall ntap lblock,
  length (sinc_window ntap lblock) = (ntap * lblock)%nat /\
  forall f n, is_sinc f -> (n < ntap * lblock)%nat -> at_ (sinc_window ntap lblock) n = f (place ntap lblock n).
Proof.
  intros t l. split; [apply length_sinc|]. intros f n F H. unfold at_.
  rewrite nth_sinc by exact H. symmetry. apply sinc_unique. exact F.
Qed.
Print Assumptions C310_samples.
Theorem C310_a_sinc : exists f, is_sinc f.
Proof. exists np_sinc. apply sinc_sound. Qed.
Print Assumptions C310_a_sinc.
(** The peak is 1 and stands after half of the samples, *)
Theorem C310_peak : forall ntap lblock n, (2 * n = ntap * lblock)%nat -> (0 < n)%nat ->
  at_ (sinc_window ntap lblock) n = 1.
Proof.
  intros t l n E P. unfold at_. rewrite nth_sinc by lia.
  replace (place t l n) with 0; [apply sinc_sound|]. unfold place.
  assert (L : 0 < INR l) by (change 0 with (INR 0); apply lt_INR; nia).
  apply (f_equal INR) in E. rewrite !mult_INR in E. simpl in E.
  assert (E' : INR n = INR t * INR l / 2) by lra. rewrite E'. field. lra.
Qed.
Print Assumptions C310_peak.
(** a whole number of blocks from the peak the window vanishes, *)
Theorem C310_zeros : forall ntap lblock n k, (n < ntap * lblock)%nat -> k <> 0%Z ->
  (2 * Z.of_nat n = Z.of_nat (ntap * lblock) + 2 * k * Z.of_nat lblock)%Z ->
  at_ (sinc_window ntap lblock) n = 0.
Proof.
  intros t l n k H K E. unfold at_. rewrite nth_sinc by exact H.
  replace (place t l n) with (IZR k); [apply sinc_whole; exact K|]. unfold place.
  assert (L : 0 < INR l) by (change 0 with (INR 0); apply lt_INR; nia).
  apply (f_equal IZR) in E. rewrite plus_IZR, !mult_IZR, <- !INR_IZR_INZ, mult_INR in E.
  assert (E' : INR n = INR t * INR l / 2 + IZR k * INR l) by lra. rewrite E'. field. lra.
Qed.
Print Assumptions C310_zeros.
(** it is the same on both sides of the peak, *)
Theorem C310_mirror : forall ntap lblock n, (0 < n < ntap * lblock)%nat ->
  at_ (sinc_window ntap lblock) (ntap * lblock - n) = at_ (sinc_window ntap lblock) n.
Proof.
  intros t l n H. unfold at_. rewrite !nth_sinc by lia. rewrite <- (sinc_even (place t l n)). f_equal.
  unfold place. assert (L : 0 < INR l) by (change 0 with (INR 0); apply lt_INR; nia).
  rewrite minus_INR, mult_INR by lia. field. lra.
Qed.
Print Assumptions C310_mirror.
(** and never above the peak. *)
Theorem C310_bound : forall ntap lblock x, In x (sinc_window ntap lblock) -> Rabs x <= 1.
Proof.
  intros t l x H. unfold sinc_window in H. apply in_map_iff in H. destruct H as [y [<- _]]. apply sinc_bound.
Qed.
Print Assumptions C310_bound.

(** C311: the tapered windows are the sinc window times a raised cosine over all samples. *)
Theorem C311_samples : forall ntap lblock,
  length (sinc_hann ntap lblock) = (ntap * lblock)%nat /\
  length (sinc_hamming ntap lblock) = (ntap * lblock)%nat /\
  forall n, (1 < ntap * lblock)%nat -> (n < ntap * lblock)%nat ->
    at_ (sinc_hann ntap lblock) n
      = at_ (sinc_window ntap lblock) n * raised (1 / 2) (1 / 2) (ntap * lblock) n /\
    at_ (sinc_hamming ntap lblock) n
      = at_ (sinc_window ntap lblock) n * raised (54 / 100) (46 / 100) (ntap * lblock) n.
Proof.
  intros t l. unfold sinc_hann, sinc_hamming, hanning, hamming.
  assert (E : forall a b, length (sinc_window t l) = length (cosines a b (t * l)))
    by (intros; rewrite length_sinc, length_cosines; reflexivity).
  rewrite !length_mul by apply E. rewrite length_sinc. split; [reflexivity|split; [reflexivity|]].
  intros n M1 H. unfold at_. rewrite !nth_mul by apply E. rewrite !nth_cosines by assumption. split; reflexivity.
Qed.
Print Assumptions C311_samples.
(** A window of one sample is not tapered. *)
Theorem C311_single : forall ntap lblock, (ntap * lblock = 1)%nat ->
  sinc_hann ntap lblock = sinc_window ntap lblock /\ sinc_hamming ntap lblock = sinc_window ntap lblock.
Proof.
  intros t l E. unfold sinc_hann, sinc_hamming, hanning, hamming, cosines. rewrite E. simpl.
  pose proof (length_sinc t l) as L. rewrite E in L.
  destruct (sinc_window t l) as [|x [|y w]]; try discriminate L. unfold mul; simpl. rewrite Rmult_1_r. split; reflexivity.
Qed.
Print Assumptions C311_single.
(** Hann's window begins and ends with 0; *)
Theorem C311_ends : forall ntap lblock, (1 < ntap * lblock)%nat ->
  at_ (sinc_hann ntap lblock) 0 = 0 /\ at_ (sinc_hann ntap lblock) (ntap * lblock - 1) = 0.
Proof.
  intros t l M1. destruct (C311_samples t l) as [_ [_ W]].
  assert (Z0 : raised (1 / 2) (1 / 2) (t * l) 0 = 0).
  { unfold raised. simpl (INR 0). replace (2 * PI * 0 / INR (t * l - 1)) with 0 by (unfold Rdiv; ring).
    rewrite cos_0. lra. }
  destruct (W 0%nat M1 ltac:(lia)) as [-> _]. destruct (W (t * l - 1)%nat M1 ltac:(lia)) as [-> _].
  pose proof (raised_mirror (1 / 2) (1 / 2) (t * l) 0 M1 ltac:(lia)) as R. rewrite Nat.sub_0_r in R.
  rewrite R, Z0. split; ring.
Qed.
Print Assumptions C311_ends.
(** both leave at most the sinc window, and Hamming's at least 8 percent of it. *)
Theorem C311_between : forall ntap lblock n, (n < ntap * lblock)%nat ->
  let s := Rabs (at_ (sinc_window ntap lblock) n) in
  Rabs (at_ (sinc_hann ntap lblock) n) <= s /\
  8 / 100 * s <= Rabs (at_ (sinc_hamming ntap lblock) n) <= s.
Proof.
  intros t l n H. cbv zeta. assert (S0 : 0 <= Rabs (at_ (sinc_window t l) n)) by apply Rabs_pos.
  destruct (Nat.eq_dec (t * l) 1) as [E|E].
  - destruct (C311_single t l E) as [-> ->]. lra.
  - destruct (C311_samples t l) as [_ [_ W]]. destruct (W n ltac:(lia) H) as [-> ->].
    rewrite !Rabs_mult.
    pose proof (raised_range (1 / 2) (1 / 2) (t * l) n ltac:(lra)) as A.
    pose proof (raised_range (54 / 100) (46 / 100) (t * l) n ltac:(lra)) as B.
    rewrite (Rabs_right (raised (1 / 2) (1 / 2) (t * l) n)) by lra.
    rewrite (Rabs_right (raised (54 / 100) (46 / 100) (t * l) n)) by lra. nra.
Qed.
Print Assumptions C311_between.

(** C312: the tapered windows are not symmetric, neither about their middle nor about the peak of the sinc: the sinc's
    peak is at sample [M / 2], the taper's at [(M - 1) / 2]. *)
Definition symmetric (w : list R) : Prop :=
  (forall n, (n < length w)%nat -> at_ w (length w - 1 - n) = at_ w n) \/
  (forall n, (0 < n < length w)%nat -> at_ w (length w - n) = at_ w n).

Lemma sinc22 : at_ (sinc_window 2 2) 1 = 2 / PI /\ at_ (sinc_window 2 2) 2 = 1 /\ at_ (sinc_window 2 2) 3 = 2 / PI.
Proof.
  pose proof PI_RGT_0 as P.
  assert (H3 : at_ (sinc_window 2 2) 3 = 2 / PI).
  { unfold at_. rewrite nth_sinc by (simpl; lia). unfold place. simpl INR.
    replace ((1 + 1 + 1) / (1 + 1) - (1 + 1) / 2) with (/ 2) by field. unfold np_sinc.
    destruct (Req_EM_T (/ 2) 0); [lra|]. replace (PI * / 2) with (PI / 2) by field. rewrite sin_PI2. field. lra. }
  split; [rewrite <- H3; apply (C310_mirror 2 2 3); simpl; lia|split; [apply C310_peak; simpl; lia|exact H3]].
Qed.
Lemma raised4 : forall a b, raised a b 4 1 = a + b / 2 /\ raised a b 4 2 = a + b / 2 /\ raised a b 4 3 = a - b.
Proof.
  intros a b.
  assert (R1 : raised a b 4 1 = a + b / 2).
  { unfold raised. simpl INR. replace (2 * PI * 1 / (1 + 1 + 1)) with (PI - PI / 3) by field.
    rewrite Rtrigo_facts.cos_pi_minus, cos_PI3. field. }
  assert (R0 : raised a b 4 0 = a - b).
  { unfold raised. simpl INR. replace (2 * PI * 0 / (1 + 1 + 1)) with 0 by field. rewrite cos_0. ring. }
  split; [exact R1|split].
  - rewrite <- R1. apply (raised_mirror a b 4 1); lia.
  - rewrite <- R0. apply (raised_mirror a b 4 0); lia.
Qed.
Theorem C312_symmetric_refuted : exists ntap lblock,
  ~ symmetric (sinc_hann ntap lblock) /\ ~ symmetric (sinc_hamming ntap lblock).
Proof.
  exists 2%nat, 2%nat.
  pose proof PI2_1 as P1. pose proof PI_RGT_0 as P. pose proof PI_4 as P4.
  assert (I : 2 / PI < 1).
  { apply (Rmult_lt_reg_r PI); [exact P|]. unfold Rdiv. rewrite Rmult_assoc, Rinv_l by lra. lra. }
  assert (J : 0 < 2 / PI) by (apply Rdiv_lt_0_compat; lra).
  destruct (C311_samples 2 2) as [L1 [L2 W]]. destruct sinc22 as [S1 [S2 S3]].
  destruct (W 1%nat ltac:(simpl; lia) ltac:(simpl; lia)) as [A1 B1].
  destruct (W 2%nat ltac:(simpl; lia) ltac:(simpl; lia)) as [A2 B2].
  destruct (W 3%nat ltac:(simpl; lia) ltac:(simpl; lia)) as [A3 B3].
  change (2 * 2)%nat with 4%nat in *.
  destruct (raised4 (1 / 2) (1 / 2)) as [H1 [H2 H3]]. destruct (raised4 (54 / 100) (46 / 100)) as [K1 [K2 K3]].
  rewrite S1, H1 in A1. rewrite S2, H2 in A2. rewrite S3, H3 in A3.
  rewrite S1, K1 in B1. rewrite S2, K2 in B2. rewrite S3, K3 in B3.
  unfold symmetric. rewrite L1, L2. split; intros [Y|Y].
  - specialize (Y 1%nat ltac:(lia)). change (4 - 1 - 1)%nat with 2%nat in Y. rewrite A1, A2 in Y. lra.
  - specialize (Y 1%nat ltac:(lia)). change (4 - 1)%nat with 3%nat in Y. rewrite A1, A3 in Y. lra.
  - specialize (Y 1%nat ltac:(lia)). change (4 - 1 - 1)%nat with 2%nat in Y. rewrite B1, B2 in Y. lra.
  - specialize (Y 1%nat ltac:(lia)). change (4 - 1)%nat with 3%nat in Y. rewrite B1, B3 in Y. lra.
Qed.
Print Assumptions C312_symmetric_refuted.

(** Two taps of two samples: 0, 2/pi, 1, 2/pi; with Hann's taper 0, 3/(2 pi), 3/4, 0. *)
Example C310_ex : sinc_window 2 2 = [0; 2 / PI; 1; 2 / PI].
Proof.
  pose proof (length_sinc 2 2) as L. destruct sinc22 as [S1 [S2 S3]].
  assert (S0 : at_ (sinc_window 2 2) 0 = 0) by (apply (C310_zeros 2 2 0 (-1)); simpl; lia).
  destruct (sinc_window 2 2) as [|a [|b [|c [|d [|e w]]]]]; try discriminate L.
  unfold at_ in *; simpl in *. subst. reflexivity.
Qed.
Example C311_ex : sinc_hann 2 2 = [0; 2 / PI * (3 / 4); 3 / 4; 0].
Proof.
  destruct (C311_samples 2 2) as [L [_ W]]. destruct sinc22 as [S1 [S2 _]].
  destruct (C311_ends 2 2 ltac:(simpl; lia)) as [E0 E3].
  destruct (W 1%nat ltac:(simpl; lia) ltac:(simpl; lia)) as [A1 _].
  destruct (W 2%nat ltac:(simpl; lia) ltac:(simpl; lia)) as [A2 _].
  change (2 * 2)%nat with 4%nat in *. destruct (raised4 (1 / 2) (1 / 2)) as [H1 [H2 _]].
  rewrite S1, H1 in A1. rewrite S2, H2 in A2.
  destruct (sinc_hann 2 2) as [|a [|b [|c [|d [|e w]]]]]; try discriminate L.
  unfold at_ in *; simpl in *. subst.
  f_equal. f_equal; [lra|]. f_equal. lra.
Qed.
