(** Times as doubles: the way back. *)
From Coq Require Import ZArith QArith Qreals Reals List Bool Lia Lra Psatz.
From Flocq Require Import Core IEEE754.BinarySingleNaN IEEE754.Binary IEEE754.Bits.
From Verif Require Import PyBase TimeModel TimeSpec TimeProofs TimeProofs2 TruncModel TruncSpec TruncProofs BtModel BtSpec BtProofs BtProofs2 BtProofs3 BtProofs4 BtProofs5 InvModel InvSpec InvProofs InvProps TfModel TfProofs.
Import ListNotations.
Open Scope Z_scope.

Lemma pow_nat_le : forall (x : R) k m, (k <= m)%nat -> (x < 2 ^ k)%R -> (x < 2 ^ m)%R.
Proof. intros x k m L H. eapply Rlt_le_trans; [exact H|]. apply Rle_pow; [lra|lia]. Qed.
(** Quotients that are a division of doubles *)
Lemma total_exact : forall n, Z.abs n <= 2 ^ 53 -> IsDouble (total_seconds n) (rnd64 (IZR n / 1000000)).
Proof.
  intros n L. unfold total_seconds. rewrite (proj2 (Z.leb_le _ _) L). destruct million_value as [Wm Hm].
  apply div64_quot; [apply of_int_word|exact Wm|now apply of_int_exact|exact Hm|lra|].
  apply (pow_nat_le _ 53); [lia|]. unfold Rdiv. rewrite Rabs_mult, (Rabs_pos_eq (/ 1000000)) by lra. rewrite <- abs_IZR.
  apply IZR_le in L. change (2 ^ 53) with (2 ^ Z.of_nat 53) in L. rewrite <- pow2_R in L. pose proof (pow2_R_pos 53).
  apply Rle_lt_trans with (2 ^ 53 * / 1000000)%R; [apply Rmult_le_compat_r; lra|]. lra.
Qed.
Lemma total_word : forall n, Word 64 (total_seconds n).
Proof. intros n. unfold total_seconds. destruct (_ <=? _); [apply div64_word|apply w64_f64]. Qed.
Lemma normalize_round : forall m, (Rabs (IZR m / 2 ^ 65) < 2 ^ 1023)%R ->
  IsDouble (w64 (binary_normalize 53 1024 eq_refl eq_refl mode_NE m (-65) false)) (rnd64 (IZR m / 2 ^ 65)).
Proof.
  intros m H.
  assert (P : B2R 53 1024 (binary_normalize 53 1024 eq_refl eq_refl mode_NE m (-65) false) = rnd64 (IZR m / 2 ^ 65)
              /\ is_finite 53 1024 (binary_normalize 53 1024 eq_refl eq_refl mode_NE m (-65) false) = true).
  { pose proof (binary_normalize_correct 53 1024 eq_refl eq_refl mode_NE m (-65) false) as C.
    replace (F2R (Float radix2 m (-65))) with (IZR m / 2 ^ 65)%R in C.
    - change (SpecFloat.fexp 53 1024) with (FLT_exp (-1074) 53) in C. cbn [round_mode] in C.
      rewrite Rlt_bool_true in C by now apply below64. destruct C as (C1 & C2 & _). split; [exact C1|exact C2].
    - unfold F2R. cbn [Fnum Fexp]. unfold Rdiv. f_equal. change (-65) with (- Z.of_nat 65). symmetry. apply bpow_inv. }
  rewrite <- (proj1 P). apply double_of_B2R. exact (proj2 P).
Qed.
Lemma total_close : forall n, Z.abs n < 2 ^ 60 -> exists x, (Rabs (x - IZR n / 1000000) <= / 2 ^ 65)%R /\ IsDouble (total_seconds n) (rnd64 x).
Proof.
  intros n L. destruct (Z.leb_spec (Z.abs n) (2 ^ 53)) as [K|K].
  - exists (IZR n / 1000000)%R. split; [|now apply total_exact]. rewrite Rminus_eq_0, Rabs_R0. left. apply Rinv_0_lt_compat, pow2_R_pos.
  - unfold total_seconds. rewrite (proj2 (Z.leb_gt _ _) K).
    set (a := Z.abs n * 2 ^ 64). set (q := if a mod 1000000 =? 0 then 2 * (a / 1000000) else 2 * (a / 1000000) + 1).
    assert (Q : - 1000000 <= q * 1000000 - 2 * a <= 1000000).
    { pose proof (Z.div_mod a 1000000 ltac:(lia)) as D. pose proof (Z.mod_pos_bound a 1000000 ltac:(lia)) as B. subst q.
      destruct (Z.eqb_spec (a mod 1000000) 0); lia. }
    assert (C : (Rabs (IZR (Z.sgn n * q) / 2 ^ 65 - IZR n / 1000000) <= / 2 ^ 65)%R).
    { assert (E : n = Z.sgn n * Z.abs n) by (rewrite Z.mul_comm; symmetry; apply Z.abs_sgn). rewrite E at 2. rewrite !mult_IZR.
      replace (IZR (Z.sgn n) * IZR q / 2 ^ 65 - IZR (Z.sgn n) * IZR (Z.abs n) / 1000000)%R
        with (IZR (Z.sgn n) * ((IZR q * 1000000 - 2 * (IZR (Z.abs n) * 2 ^ 64)) / 1000000 * / 2 ^ 65))%R.
      - rewrite Rabs_mult. assert (S1 : Rabs (IZR (Z.sgn n)) = 1%R) by (rewrite <- abs_IZR; f_equal; lia). rewrite S1, Rmult_1_l, Rabs_mult.
        rewrite (Rabs_pos_eq (/ 2 ^ 65)) by (left; apply Rinv_0_lt_compat, pow2_R_pos).
        rewrite <- (Rmult_1_l (/ 2 ^ 65)) at 2. apply Rmult_le_compat_r; [left; apply Rinv_0_lt_compat, pow2_R_pos|].
        destruct Q as [Q1 Q2]. apply IZR_le in Q1, Q2. rewrite minus_IZR, !mult_IZR in Q1, Q2. unfold a in Q1, Q2. rewrite mult_IZR in Q1, Q2.
        change (2 ^ 64) with (2 ^ Z.of_nat 64) in Q1, Q2. rewrite <- pow2_R in Q1, Q2.
        set (z := (IZR q * 1000000 - 2 * (IZR (Z.abs n) * 2 ^ 64))%R) in *. apply Rabs_le. lra.
      - replace (2 ^ 65)%R with (2 * 2 ^ 64)%R by (rewrite tech_pow_Rmult; reflexivity). pose proof (pow2_R_pos 64) as P64.
        set (p := (2 ^ 64)%R) in *. clearbody p. field. lra. }
    exists (IZR (Z.sgn n * q) / 2 ^ 65)%R. split; [exact C|]. apply normalize_round. apply (pow_nat_le _ 61); [lia|].
    assert (Ln : (Rabs (IZR n) < 2 ^ 60)%R) by (rewrite <- abs_IZR, pow2_R; apply IZR_lt; exact L).
    replace (IZR (Z.sgn n * q) / 2 ^ 65)%R with ((IZR (Z.sgn n * q) / 2 ^ 65 - IZR n / 1000000) + IZR n / 1000000)%R by ring.
    eapply Rle_lt_trans; [apply Rabs_triang|]. unfold Rdiv at 3. rewrite Rabs_mult, (Rabs_pos_eq (/ 1000000)) by lra.
    assert (K1 : (/ 2 ^ 65 <= 1)%R) by (rewrite <- Rinv_1; apply Rinv_le_contravar; [lra|apply pow_R1_Rle; lra]).
    assert (K2 : (2 ^ 61 = 2 * 2 ^ 60)%R) by (rewrite tech_pow_Rmult; reflexivity). assert (K3 : (1 <= 2 ^ 60)%R) by (apply pow_R1_Rle; lra).
    pose proof (Rabs_pos (IZR n)). set (b := (2 ^ 60)%R) in *. lra.
Qed.

Lemma error_us : forall n x d E, (Rabs (x - IZR n / 1000000) <= / 2 ^ 65)%R -> (Rabs (d - x) <= E)%R ->
  (Rabs (d * 1000000 - IZR n) <= E * 1000000 + / 1000000)%R.
Proof.
  intros n x d E H1 H2. replace (d * 1000000 - IZR n)%R with ((d - x) * 1000000 + (x - IZR n / 1000000) * 1000000)%R by field.
  eapply Rle_trans; [apply Rabs_triang|]. rewrite !Rabs_mult, (Rabs_pos_eq 1000000) by lra.
  assert (K : (/ 2 ^ 65 <= / 1000000000000)%R) by (apply Rinv_le_contravar; lra). lra.
Qed.
(** From [n] microseconds to a double and back *)
Lemma back_us : forall n e, (0 <= e <= 52)%Z -> Z.abs n < 2 ^ 60 -> (Rabs (IZR n / 1000000) + 1 < bpow radix2 e)%R ->
  exists r, timestamp_us (total_seconds n) = Ok r /\ (Rabs (IZR r - IZR n) <= / 2 + 2 / 1000000 + 1000000 * bpow radix2 (e - 54))%R.
Proof.
  intros n e He L B. destruct (total_close n L) as (x & Ex & Hx).
  assert (K65 : (/ 2 ^ 65 <= 1)%R) by (rewrite <- Rinv_1; apply Rinv_le_contravar; [lra|apply pow_R1_Rle; lra]).
  assert (Bx : (Rabs x < bpow radix2 e)%R).
  { replace x with ((x - IZR n / 1000000) + IZR n / 1000000)%R by ring. eapply Rle_lt_trans; [apply Rabs_triang|]. lra. }
  pose proof (rnd64_below x e ltac:(lia) Bx) as Ed. set (d := rnd64 x) in *.
  assert (D : (Rabs d <= 2 ^ 53)%R).
  { replace d with ((d - x) + x)%R by ring. eapply Rle_trans; [apply Rabs_triang|].
    assert (K1 : (bpow radix2 (e - 54) <= bpow radix2 0)%R) by (apply bpow_le; lia). change (bpow radix2 0) with 1%R in K1.
    assert (K2 : (bpow radix2 e <= bpow radix2 52)%R) by (apply bpow_le; lia).
    change 52%Z with (Z.of_nat 52) in K2. rewrite bpow_nat in K2.
    assert (K3 : (2 ^ 53 = 2 * 2 ^ 52)%R) by (rewrite tech_pow_Rmult; reflexivity). assert (K4 : (1 <= 2 ^ 52)%R) by (apply pow_R1_Rle; lra).
    set (b := (2 ^ 52)%R) in *. lra. }
  destruct (timestamp_close _ d (total_word n) Hx D) as (r & Er & Cr). exists r. split; [exact Er|].
  pose proof (error_us n x d _ Ex Ed) as F. clear - F Cr.
  replace (IZR r - IZR n)%R with ((IZR r - d * 1000000) + (d * 1000000 - IZR n))%R by ring.
  eapply Rle_trans; [apply Rabs_triang|]. lra.
Qed.
Lemma back_exact : forall n, Z.abs n <= 8589934590 * 1000000 -> timestamp_us (total_seconds n) = Ok n.
Proof.
  intros n L. destruct (back_us n 33) as (r & E & C); [lia|lia| |].
  - change (bpow radix2 33) with 8589934592%R. unfold Rdiv. rewrite Rabs_mult, (Rabs_pos_eq (/ 1000000)) by lra. rewrite <- abs_IZR.
    apply IZR_le in L. rewrite mult_IZR in L.
    lra.
  - rewrite E. f_equal. change (bpow radix2 (33 - 54)) with (/ 2097152)%R in C. 
    assert (H : (Rabs (IZR (r - n)) < 1)%R) by (rewrite minus_IZR; lra). rewrite <- abs_IZR in H. apply lt_IZR in H. lia.
Qed.

Lemma back_close : forall n, Z.abs n <= 274877906900 * 1000000 -> exists r, timestamp_us (total_seconds n) = Ok r /\ Z.abs (r - n) <= 15.
Proof.
  intros n L. destruct (back_us n 38) as (r & E & C); [lia|lia| |].
  - change (bpow radix2 38) with 274877906944%R. unfold Rdiv. rewrite Rabs_mult, (Rabs_pos_eq (/ 1000000)) by lra. rewrite <- abs_IZR.
    apply IZR_le in L. rewrite mult_IZR in L. lra.
  - exists r. split; [exact E|]. change (bpow radix2 (38 - 54)) with (/ 65536)%R in C.
    assert (H : (Rabs (IZR (r - n)) < 16)%R) by (rewrite minus_IZR; lra). rewrite <- abs_IZR in H. apply lt_IZR in H. lia.
Qed.

(** * Datetimes *)
Lemma epoch64 : fromtimestamp64 0 = Ok (Dt 1970 1 1 0 0 0 0 (Some 0)).
Proof. vm_compute. reflexivity. Qed.
Lemma to_unix64 : forall dt, datetime_to_unix64 dt = Ok (total_seconds (instant dt)).
Proof.
  intros dt. unfold datetime_to_unix64. rewrite epoch64. cbn [rbind].
  assert (E : diff_us (naive_datetime_to_utc dt) (naive_datetime_to_utc (Dt 1970 1 1 0 0 0 0 (Some 0))) = Ok (instant dt)); [|rewrite E; reflexivity].
  unfold naive_datetime_to_utc, instant, offset, diff_us. change (local_us (Dt 1970 1 1 0 0 0 0 (Some 0))) with epoch_us.
  destruct dt as [y m d h i s u [z|]]; cbn [tz]; f_equal; unfold local_us; cbn [yr mo dy hh mi ss us]; change (ymd2ord 1970 1 1) with 719163; unfold epoch_us; lia.
Qed.
Lemma from64 : forall w n dt, timestamp_us w = Ok n -> valid dt = true -> n + epoch_us = local_us dt -> fromtimestamp64 w = Ok (with_tz dt (Some 0)).
Proof.
  intros w n dt E V L. unfold fromtimestamp64. rewrite E. cbn [rbind]. apply from_us; [exact V|]. now rewrite round_us.
Qed.
Lemma from64_ok : forall w n, timestamp_us w = Ok n -> -62135596800000000 <= n <= 253402300799999999 ->
  exists dt, fromtimestamp64 w = Ok dt /\ valid dt = true /\ tz dt = Some 0 /\ instant dt = n.
Proof.
  intros w n E B. destruct (from_ok (n # 1000000)) as (dt & F & V & T & L).
  - rewrite round_us. unfold epoch_us. split; [apply Z.div_le_lower_bound; lia|]. apply Z.lt_succ_r. apply Z.div_lt_upper_bound; lia.
  - rewrite round_us in L. exists dt. unfold fromtimestamp64. rewrite E. cbn [rbind]. split; [exact F|]. split; [exact V|]. split; [exact T|].
    unfold instant, offset. rewrite T, L. lia.
Qed.
(** Bounds of years *)
Lemma dby_mono : forall a b, a <= b -> days_before_year a <= days_before_year b.
Proof. intros a b H. unfold days_before_year. Z.to_euclidean_division_equations. lia. Qed.
Lemma instant_bounds : forall dt lo hi, valid dt = true -> tz dt = None \/ tz dt = Some 0 -> lo <= yr dt <= hi ->
  (days_before_year lo + 1) * 86400000000 <= instant dt + epoch_us < (days_before_year hi + 367) * 86400000000.
Proof.
  intros dt lo hi V T Y. destruct (local_parts dt V) as (P & Q & _). apply valid_spec in V as [V _]. apply date_spec in V as (Y' & M & D).
  pose proof (md (is_leap (yr dt)) (mo dt) (dy dt) M D) as [B _].
  assert (O : days_before_year (yr dt) < ymd2ord (yr dt) (mo dt) (dy dt) <= days_before_year (yr dt) + 366) by (unfold ymd2ord; destruct (is_leap (yr dt)); lia).
  pose proof (dby_mono lo (yr dt) ltac:(lia)). pose proof (dby_mono (yr dt) hi ltac:(lia)).
  unfold instant, offset. destruct T as [-> | ->]; lia.
Qed.
Lemma recent : forall dt, valid dt = true -> tz dt = None \/ tz dt = Some 0 -> 1698 <= yr dt <= 2241 -> Z.abs (instant dt) <= 8589934590 * 1000000.
Proof.
  intros dt V T Y. pose proof (instant_bounds dt 1698 2241 V T Y) as B.
  change (days_before_year 1698) with 619817 in B. change (days_before_year 2241) with 818143 in B. unfold epoch_us in B. lia.
Qed.
Lemma possible : forall dt, valid dt = true -> tz dt = None \/ tz dt = Some 0 -> -62135596800000000 <= instant dt <= 253402300799999999.
Proof.
  intros dt V T. destruct (local_parts dt V) as (P & Q & _). apply valid_spec in V as [V _]. apply date_spec in V as (Y' & M & D).
  pose proof (ymd_range _ _ _ Y' M D). unfold instant, offset, epoch_us. destruct T as [-> | ->]; lia.
Qed.
