(** Times as doubles: errors of the conversions. *)
From Coq Require Import ZArith QArith Qreals Reals List Bool Lia Lra Psatz.
From Flocq Require Import Core IEEE754.BinarySingleNaN IEEE754.Binary IEEE754.Bits.
From Verif Require Import PyBase TimeModel TimeSpec TimeProofs TimeProofs2 TruncModel TruncSpec TruncProofs BtModel BtSpec BtProofs BtProofs2 BtProofs3 BtProofs4 BtProofs5 InvModel InvSpec InvProofs InvProps TfModel.
Import ListNotations.
Open Scope Z_scope.

Local Instance q53 : Prec_gt_0 53 := eq_refl.

(** * Operations *)
Lemma of_int_exact : forall n, Z.abs n <= 2 ^ 53 -> IsDouble (of_int n) (IZR n).
Proof.
  intros n L.
  assert (E : rnd64 (IZR n) = IZR n).
  { apply round_generic; [auto with typeclass_instances|]. apply generic_format_FLT.
    destruct (Z.eq_dec (Z.abs n) (2 ^ 53)) as [K|K].
    - apply FLT_spec with (Float radix2 (n / 2) 1).
      + unfold F2R. cbn [Fnum Fexp]. change (bpow radix2 1) with 2%R. rewrite <- mult_IZR. f_equal.
        assert (D : n = 2 ^ 53 \/ n = - 2 ^ 53) by lia. destruct D; subst n; reflexivity.
      + cbn [Fnum]. assert (D : n = 2 ^ 53 \/ n = - 2 ^ 53) by lia. destruct D; subst n; reflexivity.
      + cbn. lia.
    - apply FLT_spec with (Float radix2 n 0).
      + unfold F2R. cbn [Fnum Fexp bpow]. lra.
      + cbn [Fnum]. change (Zpower radix2 53) with (2 ^ 53). lia.
      + cbn. lia. }
  rewrite <- E. apply of_int_round. eapply Z.le_lt_trans; [exact L|reflexivity].
Qed.
Lemma million_value : Word 64 million /\ IsDouble million 1000000.
Proof. split; [apply of_int_word|]. apply of_int_exact. vm_compute. discriminate. Qed.
Lemma sub64_word : forall a b, Word 64 (sub64 a b).
Proof. intros. apply w64_f64. Qed.
Lemma sub64_round : forall a b x y, Word 64 a -> Word 64 b -> IsDouble a x -> IsDouble b y ->
  (Rabs (x - y) < 2 ^ 1023)%R -> IsDouble (sub64 a b) (rnd64 (x - y)).
Proof.
  intros a b x y Wa Wb Ha Hb L. destruct (IsDouble_B2R a x Wa Ha) as [Fa Ra]. destruct (IsDouble_B2R b y Wb Hb) as [Fb Rb].
  assert (P : B2R 53 1024 (b64_minus mode_NE (f64 a) (f64 b)) = rnd64 (x - y)
              /\ is_finite 53 1024 (b64_minus mode_NE (f64 a) (f64 b)) = true).
  { pose proof (Bminus_correct 53 1024 eq_refl eq_refl binop_nan_pl64 mode_NE (f64 a) (f64 b) Fa Fb) as C.
    rewrite Ra, Rb in C. change (SpecFloat.fexp 53 1024) with (FLT_exp (-1074) 53) in C. cbn [round_mode] in C.
    rewrite Rlt_bool_true in C by now apply below64. destruct C as (C1 & C2 & _). split; [exact C1|exact C2]. }
  rewrite <- (proj1 P). apply double_of_B2R. exact (proj2 P).
Qed.
Lemma div64_quot : forall a b x y, Word 64 a -> Word 64 b -> IsDouble a x -> IsDouble b y -> y <> 0%R ->
  (Rabs (x / y) < 2 ^ 1023)%R -> IsDouble (div64 a b) (rnd64 (x / y)).
Proof.
  intros a b x y Wa Wb Ha Hb N L. destruct (IsDouble_B2R a x Wa Ha) as [Fa Ra]. destruct (IsDouble_B2R b y Wb Hb) as [Fb Rb].
  assert (P : B2R 53 1024 (b64_div mode_NE (f64 a) (f64 b)) = rnd64 (x / y)
              /\ is_finite 53 1024 (b64_div mode_NE (f64 a) (f64 b)) = true).
  { pose proof (Bdiv_correct 53 1024 eq_refl eq_refl binop_nan_pl64 mode_NE (f64 a) (f64 b)) as C.
    rewrite Ra, Rb in C. specialize (C N).
    change (SpecFloat.fexp 53 1024) with (FLT_exp (-1074) 53) in C. cbn [round_mode] in C.
    rewrite Rlt_bool_true in C by now apply below64. destruct C as (C1 & C2 & _). split; [exact C1|]. etransitivity; [exact C2|exact Fa]. }
  rewrite <- (proj1 P). apply double_of_B2R. exact (proj2 P).
Qed.

(** Half a unit in the last place *)
Lemma rnd64_below : forall x e, -1000 <= e -> (Rabs x < bpow radix2 e)%R -> (Rabs (rnd64 x - x) <= bpow radix2 (e - 54))%R.
Proof.
  intros x e E L. destruct (Req_dec x 0) as [->|N].
  - rewrite round_0 by auto with typeclass_instances. rewrite Rminus_0_r, Rabs_R0. apply bpow_ge_0.
  - eapply Rle_trans; [apply error_le_half_ulp; auto with typeclass_instances|].
    rewrite ulp_neq_0 by exact N. unfold cexp, FLT_exp.
    assert (M : mag radix2 x <= e) by (apply mag_le_bpow; assumption).
    replace (e - 54) with (-1 + (e - 53)) by ring. rewrite bpow_plus. change (bpow radix2 (-1)) with (/ 2)%R.
    apply Rmult_le_compat_l; [lra|]. apply bpow_le. lia.
Qed.

(** * The parts of a double *)
Lemma B2R_units : forall s m e B, (e < 0)%Z -> B2R 53 1024 (B754_finite 53 1024 s m e B) = (IZR (cond_Zopp s (Zpos m)) / IZR (2 ^ (- e)))%R.
Proof.
  intros s m e B E. cbn [B2R]. unfold F2R. cbn [Fnum Fexp]. unfold Rdiv. f_equal.
  rewrite <- (Z.opp_involutive e) at 1. rewrite bpow_opp. f_equal. rewrite <- (IZR_Zpower radix2) by lia. reflexivity.
Qed.
Lemma B2R_int : forall s m e B, (0 <= e)%Z -> B2R 53 1024 (B754_finite 53 1024 s m e B) = IZR (cond_Zopp s (Zpos m * 2 ^ e)).
Proof.
  intros s m e B E. cbn [B2R]. unfold F2R. cbn [Fnum Fexp]. rewrite <- (IZR_Zpower radix2) by lia. rewrite <- mult_IZR. f_equal.
  change (Zpower radix2 e) with (2 ^ e). destruct s; cbn [cond_Zopp]; lia.
Qed.
Lemma trunc_close : forall x, is_finite 53 1024 x = true -> (Rabs (B2R 53 1024 x - IZR (trunc64 x)) < 1)%R /\ (Rabs (IZR (trunc64 x)) <= Rabs (B2R 53 1024 x))%R.
Proof.
  intros x F. destruct x as [s|s|s|s m e B]; try discriminate.
  - cbn [B2R trunc64]. rewrite Rminus_0_r, Rabs_R0. lra.
  - cbn [trunc64]. destruct (Z.leb_spec 0 e) as [E|E].
    + rewrite (B2R_int s m e B E). destruct s; cbn [cond_Zopp]; split; try lra; rewrite Rminus_eq_0, Rabs_R0; lra.
    + rewrite (B2R_units s m e B E). assert (P : (0 < 2 ^ (- e))%Z) by (apply Z.pow_pos_nonneg; lia). set (k := 2 ^ (- e)) in *.
      pose proof (Z.div_mod (Zpos m) k ltac:(lia)) as D. pose proof (Z.mod_pos_bound (Zpos m) k P) as Q. set (a := Zpos m / k) in *.
      assert (Kr : (0 < IZR k)%R) by (apply IZR_lt; exact P). assert (A0 : 0 <= a) by (apply Z.div_pos; lia).
      assert (G : (0 <= IZR (Zpos m) / IZR k - IZR a < 1)%R).
      { rewrite D at 1 2. rewrite plus_IZR, mult_IZR. replace ((IZR k * IZR a + IZR (Zpos m mod k)) / IZR k - IZR a)%R with (IZR (Zpos m mod k) / IZR k)%R by (field; lra).
        assert (0 <= IZR (Zpos m mod k) < IZR k)%R by (split; [apply IZR_le; lia|apply IZR_lt; lia]).
        split; [apply Rmult_le_pos; [lra|left; now apply Rinv_0_lt_compat]|]. apply Rmult_lt_reg_r with (IZR k); [exact Kr|].
        unfold Rdiv. rewrite Rmult_assoc, Rinv_l by lra. lra. }
      apply IZR_le in A0. destruct s; cbn [cond_Zopp].
      * rewrite !opp_IZR. replace (- IZR (Zpos m) / IZR k)%R with (- (IZR (Zpos m) / IZR k))%R by (unfold Rdiv; ring).
        set (v := (IZR (Zpos m) / IZR k)%R) in *. replace (- v - - IZR a)%R with (- (v - IZR a))%R by ring.
        rewrite !Rabs_Ropp, !Rabs_pos_eq by lra. lra.
      * set (v := (IZR (Zpos m) / IZR k)%R) in *. rewrite !Rabs_pos_eq by lra. lra.
Qed.
Lemma nearest_close : forall x, is_finite 53 1024 x = true -> (Rabs (IZR (nearest_int x) - B2R 53 1024 x) <= / 2)%R.
Proof.
  intros x F. destruct x as [s|s|s|s m e B]; try discriminate.
  - cbn [B2R nearest_int]. rewrite Rminus_0_r, Rabs_R0. lra.
  - cbn [nearest_int]. destruct (Z.leb_spec 0 e) as [E|E].
    + rewrite (B2R_int s m e B E). destruct s; cbn [cond_Zopp]; rewrite Rminus_eq_0, Rabs_R0; lra.
    + rewrite (B2R_units s m e B E). unfold half_even. assert (P : (0 < 2 ^ (- e))%Z) by (apply Z.pow_pos_nonneg; lia). set (k := 2 ^ (- e)) in *.
      pose proof (Z.div_mod (Zpos m) k ltac:(lia)) as D. pose proof (Z.mod_pos_bound (Zpos m) k P) as Q.
      set (a := Zpos m / k) in *. set (r := Zpos m mod k) in *.
      set (c := if 2 * r <? k then a else if k <? 2 * r then a + 1 else if Z.even a then a else a + 1).
      assert (G : - k <= 2 * (c * k - Zpos m) <= k).
      { subst c. rewrite D. destruct (Z.ltb_spec (2 * r) k); [lia|]. destruct (Z.ltb_spec k (2 * r)); [lia|]. destruct (Z.even a); lia. }
      clearbody c. assert (Kr : (0 < IZR k)%R) by (apply IZR_lt; exact P). destruct G as [G1 G2]. apply IZR_le in G1, G2. rewrite opp_IZR in G1.
      rewrite mult_IZR, minus_IZR, mult_IZR in G1, G2.
      assert (H : (Rabs (IZR c - IZR (Zpos m) / IZR k) <= / 2)%R).
      { replace (IZR c - IZR (Zpos m) / IZR k)%R with ((IZR c * IZR k - IZR (Zpos m)) * / IZR k)%R by (field; lra).
        rewrite Rabs_mult, (Rabs_pos_eq (/ IZR k)) by (left; now apply Rinv_0_lt_compat).
        apply Rmult_le_reg_r with (IZR k); [exact Kr|]. rewrite Rmult_assoc, Rinv_l, Rmult_1_r by lra. apply Rabs_le. lra. }
      destruct s; cbn [cond_Zopp]; [|exact H]. rewrite !opp_IZR. unfold Rdiv. rewrite <- Rabs_Ropp.
      replace (- (- IZR c - - IZR (Zpos m) * / IZR k))%R with (IZR c - IZR (Zpos m) / IZR k)%R by (unfold Rdiv; ring). exact H.
Qed.

(** * Time stamps *)
Lemma small_power : (/ 2 ^ 53 * 3000000 + / 2 ^ 1075 * 3000000 <= / 1000000)%R.
Proof.
  assert (A : (/ 2 ^ 53 <= / 8000000000000)%R) by (apply Rinv_le_contravar; [lra|]; lra).
  assert (B : (/ 2 ^ 1075 <= / 2 ^ 53)%R) by (apply Rinv_le_contravar; [apply pow2_R_pos|apply Rle_pow; [lra|lia]]). lra.
Qed.
Lemma timestamp_value : forall w, is_finite 53 1024 (f64 w) = true -> Z.abs (trunc64 (f64 w)) <= 2 ^ 53 ->
  timestamp_us w = Ok (trunc64 (f64 w) * 1000000 + nearest_int (f64 (mul64 (sub64 w (of_int (trunc64 (f64 w)))) million))).
Proof.
  intros w F L. unfold timestamp_us. destruct (f64 w) as [s|s|s|s m e B]; try discriminate; [reflexivity|].
  set (t := trunc64 _) in *.
  assert (Q : (t <? - 2 ^ 63) || (2 ^ 63 <=? t) = false).
  { apply orb_false_iff. split; [apply Z.ltb_ge|apply Z.leb_gt]; lia. }
  rewrite Q. reflexivity.
Qed.
(** The three roundings *)
Lemma three_roundings : forall d t f p r u e : R, (0 < u)%R -> (0 < e)%R -> (u * 3000000 + e * 3000000 <= / 1000000)%R ->
  (Rabs (d - t) < 1)%R -> (Rabs (f - (d - t)) <= Rabs (d - t) * u + e)%R -> (Rabs (p - f * 1000000) <= Rabs (f * 1000000) * u + e)%R ->
  (Rabs (r - p) <= / 2)%R -> (Rabs (t * 1000000 + r - d * 1000000) <= / 2 + / 1000000)%R /\ (Rabs (f * 1000000) < 1100001)%R.
Proof.
  intros d t f p r u e U0 E0 S T1 Ef Ep N.
  assert (Ef' : (Rabs (f - (d - t)) <= u + e)%R).
  { eapply Rle_trans; [exact Ef|]. apply Rplus_le_compat_r. rewrite <- (Rmult_1_l u) at 2. apply Rmult_le_compat_r; lra. }
  assert (Lf : (Rabs f <= 11 / 10)%R).
  { replace f with ((f - (d - t)) + (d - t))%R by ring. eapply Rle_trans; [apply Rabs_triang|]. lra. }
  assert (Lp : (Rabs (f * 1000000) < 1100001)%R) by (rewrite Rabs_mult, (Rabs_pos_eq 1000000) by lra; lra).
  split; [|exact Lp].
  assert (Ep' : (Rabs (p - f * 1000000) <= 1100001 * u + e)%R).
  { eapply Rle_trans; [exact Ep|]. apply Rplus_le_compat_r. apply Rmult_le_compat_r; lra. }
  replace (t * 1000000 + r - d * 1000000)%R with ((r - p) + ((p - f * 1000000) + (f - (d - t)) * 1000000))%R by ring.
  eapply Rle_trans; [apply Rabs_triang|]. apply Rplus_le_compat; [exact N|].
  eapply Rle_trans; [apply Rabs_triang|]. rewrite Rabs_mult, (Rabs_pos_eq 1000000) by lra.
  assert (Rabs (f - (d - t)) * 1000000 <= (u + e) * 1000000)%R by (apply Rmult_le_compat_r; lra).
  lra.
Qed.
Lemma first_product : forall d t f u e : R, (0 < u)%R -> (0 < e)%R -> (u * 3000000 + e * 3000000 <= / 1000000)%R ->
  (Rabs (d - t) < 1)%R -> (Rabs (f - (d - t)) <= Rabs (d - t) * u + e)%R -> (Rabs (f * 1000000) < 1100001)%R.
Proof.
  intros d t f u e U0 E0 S T1 Ef. apply (three_roundings d t f (f * 1000000) (f * 1000000) u e U0 E0 S T1 Ef).
  - rewrite Rminus_eq_0, Rabs_R0. apply Rplus_le_le_0_compat; [|lra]. apply Rmult_le_pos; [apply Rabs_pos|lra].
  - rewrite Rminus_eq_0, Rabs_R0. lra.
Qed.
Lemma large_powers : (1 < 2 ^ 1023)%R /\ (1100001 < 2 ^ 1023)%R.
Proof.
  split; [apply Rlt_pow_R1; [lra|lia]|]. eapply Rlt_le_trans; [|apply (Rle_pow 2 30 1023); [lra|lia]]. lra.
Qed.
Lemma inverse_powers : (0 < / 2 ^ 53)%R /\ (0 < / 2 ^ 1075)%R.
Proof. split; apply Rinv_0_lt_compat, pow2_R_pos. Qed.
Lemma mul64_word : forall a b, Word 64 (mul64 a b).
Proof. intros. apply w64_f64. Qed.
Lemma timestamp_close : forall w d, Word 64 w -> IsDouble w d -> (Rabs d <= 2 ^ 53)%R ->
  exists r, timestamp_us w = Ok r /\ (Rabs (IZR r - d * 1000000) <= / 2 + / 1000000)%R.
Proof.
  intros w d W H L. destruct (IsDouble_B2R w d W H) as [F R]. destruct (trunc_close (f64 w) F) as [T1 T2]. rewrite R in T1, T2.
  assert (Lt : Z.abs (trunc64 (f64 w)) <= 2 ^ 53).
  { apply le_IZR. rewrite abs_IZR. change (2 ^ 53) with (2 ^ Z.of_nat 53). rewrite <- pow2_R. eapply Rle_trans; [exact T2|exact L]. }
  exists (trunc64 (f64 w) * 1000000 + nearest_int (f64 (mul64 (sub64 w (of_int (trunc64 (f64 w)))) million))).
  split; [exact (timestamp_value w F Lt)|]. clear R T2. generalize dependent (trunc64 (f64 w)). intros t T1 Lt.
  destruct large_powers as [B1 B2]. destruct inverse_powers as [U0 E0].
  pose proof (sub64_round w (of_int t) d (IZR t) W (of_int_word t) H (of_int_exact t Lt) (Rlt_trans _ _ _ T1 B1)) as Hs.
  pose proof (rnd64_error (d - IZR t)) as Ef.
  pose proof (first_product d (IZR t) _ _ _ U0 E0 small_power T1 Ef) as Lp.
  destruct million_value as [Wm Hm].
  pose proof (mul64_round _ _ _ _ (sub64_word w (of_int t)) Wm Hs Hm (Rlt_trans _ _ _ Lp B2)) as Hp.
  destruct (IsDouble_B2R _ _ (mul64_word _ _) Hp) as [Fp Rp]. pose proof (nearest_close _ Fp) as N. rewrite Rp in N.
  rewrite plus_IZR, mult_IZR.
  exact (proj1 (three_roundings d (IZR t) _ _ _ _ _ U0 E0 small_power T1 Ef (rnd64_error _) N)).
Qed.
