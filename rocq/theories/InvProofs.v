(** Inverses: the quotient is the nearest number. *)
From Coq Require Import ZArith Reals List Bool Lia Lra Psatz.
From Flocq Require Import Core IEEE754.BinarySingleNaN IEEE754.Binary IEEE754.Bits Double_rounding.
From Verif Require Import PyBase TruncModel TruncSpec TruncProofs BtModel BtSpec BtProofs BtProofs2 BtProofs3 BtProofs4 BtProofs5 InvModel InvSpec.
Import ListNotations.
Open Scope Z_scope.

Local Instance p24 : Prec_gt_0 24 := eq_refl.
Local Instance p53 : Prec_gt_0 53 := eq_refl.

Lemma div64_word : forall a b, Word 64 (div64 a b).
Proof. intros. apply w64_f64. Qed.

Lemma one_units : forall n, 1%R = (IZR (2 ^ Z.of_nat n) / 2 ^ n)%R.
Proof. intros n. rewrite <- pow2_R. field. apply Rgt_not_eq, pow2_R_pos. Qed.
Lemma inv_units : forall a b, (/ 2 ^ b)%R = (IZR (2 ^ Z.of_nat a) / 2 ^ (a + b))%R.
Proof. intros a b. rewrite <- pow2_R, pow_add. field. split; apply Rgt_not_eq, pow2_R_pos. Qed.
Lemma scale_units : forall u a b, (IZR u / 2 ^ b)%R = (IZR (u * 2 ^ Z.of_nat a) / 2 ^ (a + b))%R.
Proof. intros u a b. rewrite mult_IZR, <- pow2_R, pow_add. field. split; apply Rgt_not_eq, pow2_R_pos. Qed.
Lemma one64_value : Word 64 one64 /\ IsDouble one64 1.
Proof.
  split; [split; vm_compute; congruence|]. exists (2 ^ 1074). split; [vm_compute; reflexivity|].
  exact (one_units 1074).
Qed.

Lemma double_format : forall w v, Word 64 w -> IsDouble w v -> generic_format radix2 (FLT_exp (-1074) 53) v.
Proof.
  intros w v W H. destruct (IsDouble_B2R w v W H) as [_ <-]. exact (generic_format_B2R 53 1024 (f64 w)).
Qed.
Lemma float_format : forall w v, Word 32 w -> IsFloat w v -> generic_format radix2 (FLT_exp (-149) 24) v.
Proof.
  intros w v W H. destruct (IsFloat_B2R w v W H) as [_ <-]. exact (generic_format_B2R 24 128 (f32 w)).
Qed.

Lemma lt64_value : forall a b x y, Word 64 a -> Word 64 b -> IsDouble a x -> IsDouble b y -> lt64 a b = Rlt_bool x y.
Proof.
  intros a b x y Wa Wb Ha Hb.
  destruct (IsDouble_B2R a x Wa Ha) as [Fa Ra]. destruct (IsDouble_B2R b y Wb Hb) as [Fb Rb].
  unfold lt64, b64_compare. rewrite Bcompare_correct by assumption. rewrite Ra, Rb.
  destruct (Rcompare_spec x y); [rewrite Rlt_bool_true by lra|rewrite Rlt_bool_false by lra|rewrite Rlt_bool_false by lra]; reflexivity.
Qed.

(** A quotient that is at most the largest double *)
Lemma div64_round : forall b y M wM, Word 64 b -> IsDouble b y -> y <> 0%R -> Word 64 wM -> IsDouble wM M ->
  (Rabs (1 / y) <= M)%R -> IsDouble (div64 one64 b) (rnd64 (1 / y)).
Proof.
  intros b y M wM Wb Hb N WM HM L. destruct one64_value as [Wo Ho].
  destruct (IsDouble_B2R one64 1 Wo Ho) as [Fo Ro]. destruct (IsDouble_B2R b y Wb Hb) as [Fb Rb].
  assert (P : B2R 53 1024 (b64_div mode_NE (f64 one64) (f64 b)) = rnd64 (1 / y)
              /\ is_finite 53 1024 (b64_div mode_NE (f64 one64) (f64 b)) = true).
  { pose proof (Bdiv_correct 53 1024 eq_refl eq_refl binop_nan_pl64 mode_NE (f64 one64) (f64 b)) as C.
    rewrite Ro, Rb in C. specialize (C N).
    change (SpecFloat.fexp 53 1024) with (FLT_exp (-1074) 53) in C. cbn [round_mode] in C.
    rewrite Rlt_bool_true in C.
    - destruct C as (C1 & C2 & _). split; [exact C1|]. etransitivity; [exact C2|exact Fo].
    - eapply Rle_lt_trans.
      + apply abs_round_le_generic; [auto with typeclass_instances|auto with typeclass_instances|exact (double_format wM M WM HM)|exact L].
      + destruct (IsDouble_B2R wM M WM HM) as [_ <-]. eapply Rle_lt_trans; [apply Rle_abs|apply abs_B2R_lt_emax]. }
  rewrite <- (proj1 P). apply double_of_B2R. exact (proj2 P).
Qed.

Lemma to32_below : forall a x M wM, Word 64 a -> IsDouble a x -> Word 32 wM -> IsFloat wM M -> (Rabs x <= M)%R ->
  IsFloat (to32 a) (rnd32 x).
Proof.
  intros a x M wM Wa Ha WM HM L. destruct (IsDouble_B2R a x Wa Ha) as [Fa Ra].
  assert (Q : (Rabs (rnd32 x) < bpow radix2 128)%R).
  { eapply Rle_lt_trans.
    - apply abs_round_le_generic; [auto with typeclass_instances|auto with typeclass_instances|exact (float_format wM M WM HM)|exact L].
    - destruct (IsFloat_B2R wM M WM HM) as [_ <-]. eapply Rle_lt_trans; [apply Rle_abs|apply abs_B2R_lt_emax]. }
  assert (P : B2R 24 128 (narrow (f64 a)) = rnd32 x /\ is_finite 24 128 (narrow (f64 a)) = true).
  { destruct (f64 a) as [s|s|s|s m e B]; try discriminate.
    - cbn [B2R] in Ra. subst x. cbn [narrow B2R is_finite]. split; [|reflexivity]. symmetry. apply round_0. auto with typeclass_instances.
    - cbn [B2R] in Ra. cbn [narrow].
      pose proof (binary_normalize_correct 24 128 eq_refl eq_refl mode_NE (cond_Zopp s (Zpos m)) e s) as C.
      rewrite Ra in C. change (SpecFloat.fexp 24 128) with (FLT_exp (-149) 24) in C. cbn [round_mode] in C.
      rewrite Rlt_bool_true in C by exact Q. destruct C as (C1 & C2 & _). split; [exact C1|exact C2]. }
  rewrite <- (proj1 P). apply float_of_B2R. exact (proj2 P).
Qed.

Lemma nearest64 : forall w v, Word 64 w -> IsDouble w (rnd64 v) -> NearestDouble v w.
Proof.
  intros w v W H. split; [exact W|]. exists (rnd64 v). split; [exact H|]. intros w' s W' H'.
  apply (round_N_pt radix2 (FLT_exp (-1074) 53) (fun x => negb (Z.even x)) v). exact (double_format w' s W' H').
Qed.
Lemma nearest32 : forall w v, Word 32 w -> IsFloat w (rnd32 v) -> NearestFloat v w.
Proof.
  intros w v W H. split; [exact W|]. exists (rnd32 v). split; [exact H|]. intros w' s W' H'.
  apply (round_N_pt radix2 (FLT_exp (-149) 24) (fun x => negb (Z.even x)) v). exact (float_format w' s W' H').
Qed.

(** The thresholds *)
Lemma thresh64_value : Word 64 thresh64 /\ IsDouble thresh64 (/ 2 ^ 1024).
Proof.
  assert (E : thresh64 = 2 ^ 50) by (vm_compute; reflexivity). rewrite E.
  split; [split; vm_compute; congruence|]. exists (2 ^ 50). split; [vm_compute; reflexivity|].
  exact (inv_units 50 1024).
Qed.
Lemma thresh32_value : Word 64 thresh32 /\ IsDouble thresh32 (IZR (2 ^ 946 + 2 ^ 922 + 2 ^ 898) / 2 ^ 1074).
Proof.
  split; [split; vm_compute; congruence|]. exists (2 ^ 946 + 2 ^ 922 + 2 ^ 898). split; [vm_compute; reflexivity|reflexivity].
Qed.
Lemma dbl_max_value : Word 64 dbl_max /\ IsDouble dbl_max (IZR ((2 ^ 53 - 1) * 2 ^ 2045) / 2 ^ 1074).
Proof.
  split; [split; vm_compute; congruence|]. exists ((2 ^ 53 - 1) * 2 ^ 2045). split; [vm_compute; reflexivity|reflexivity].
Qed.
Lemma flt_max_value : Word 32 (255 * 2 ^ 23 - 1) /\ IsFloat (255 * 2 ^ 23 - 1) (IZR ((2 ^ 24 - 1) * 2 ^ 253) / 2 ^ 149).
Proof.
  split; [split; vm_compute; congruence|]. exists ((2 ^ 24 - 1) * 2 ^ 253). split; [vm_compute; reflexivity|reflexivity].
Qed.

(** Inverses of numbers given in units *)
Lemma inverse_below : forall u n M, (0 < Z.abs u)%Z -> 2 ^ (2 * Z.of_nat n) <= M * Z.abs u ->
  (Rabs (1 / (IZR u / 2 ^ n)) <= IZR M / 2 ^ n)%R.
Proof.
  intros u n M P H. pose proof (pow2_R_pos n) as Q. assert (Pr : (0 < IZR (Z.abs u))%R) by (apply IZR_lt; exact P).
  unfold Rdiv at 1. rewrite Rmult_1_l, Rabs_inv, abs_units.
  apply Rmult_le_reg_r with (IZR (Z.abs u) / 2 ^ n)%R; [apply Rdiv_lt_0_compat; assumption|].
  rewrite Rinv_l by (apply Rgt_not_eq, Rdiv_lt_0_compat; assumption).
  apply IZR_le in H. rewrite mult_IZR in H.
  replace (2 ^ (2 * Z.of_nat n)) with (2 ^ Z.of_nat (n + n)) in H by (f_equal; lia).
  rewrite <- pow2_R, pow_add in H.
  apply Rmult_le_reg_r with (2 ^ n * 2 ^ n)%R; [now apply Rmult_lt_0_compat|].
  replace (IZR M / 2 ^ n * (IZR (Z.abs u) / 2 ^ n) * (2 ^ n * 2 ^ n))%R with (IZR M * IZR (Z.abs u))%R by (field; lra).
  lra.
Qed.
Lemma units_gt : forall u n k, (k <= n)%nat -> (/ 2 ^ k < Rabs (IZR u / 2 ^ n))%R <-> 2 ^ Z.of_nat (n - k) < Z.abs u.
Proof.
  intros u n k L. rewrite abs_units. pose proof (pow2_R_pos n) as Q. pose proof (pow2_R_pos k) as Qk.
  assert (E : (/ 2 ^ k = IZR (2 ^ Z.of_nat (n - k)) / 2 ^ n)%R).
  { rewrite <- pow2_R. replace n with ((n - k) + k)%nat at 2 by lia. rewrite pow_add. field. split; apply Rgt_not_eq; [exact Qk|apply pow2_R_pos]. }
  rewrite E. split; intros H.
  - apply lt_IZR. unfold Rdiv in H. apply Rmult_lt_reg_r in H; [exact H|]. now apply Rinv_0_lt_compat.
  - apply IZR_lt in H. unfold Rdiv. apply Rmult_lt_compat_r; [now apply Rinv_0_lt_compat|exact H].
Qed.

Lemma inv_double_small : forall x v, Word 64 x -> IsDouble x v -> (Rabs v < / 2 ^ 1024)%R -> inv_double x = 0.
Proof.
  intros x v W H L. unfold inv_double. destruct thresh64_value as [Wt Ht].
  rewrite (lt64_value _ _ (Rabs v) (/ 2 ^ 1024)); [|apply fabs64_units; exact W|exact Wt|now apply fabs64_value|exact Ht].
  now rewrite Rlt_bool_true.
Qed.
Lemma inv_double_nearest : forall x v, Word 64 x -> IsDouble x v -> (/ 2 ^ 1024 < Rabs v)%R -> NearestDouble (1 / v) (inv_double x).
Proof.
  intros x v W H L. unfold inv_double. destruct thresh64_value as [Wt Ht].
  rewrite (lt64_value _ _ (Rabs v) (/ 2 ^ 1024)); [|apply fabs64_units; exact W|exact Wt|now apply fabs64_value|exact Ht].
  rewrite Rlt_bool_false by lra. apply nearest64; [apply div64_word|].
  destruct dbl_max_value as [Wm Hm]. eapply div64_round; try eassumption.
  - intros ->. rewrite Rabs_R0 in L. pose proof (Rinv_0_lt_compat _ (pow2_R_pos 1024)). lra.
  - destruct H as (u & _ & ->). apply units_gt in L; [|lia]. apply inverse_below; [lia|].
    change (2 ^ Z.of_nat (1074 - 1024)) with (2 ^ 50) in L.
    transitivity ((2 ^ 53 - 1) * 2 ^ 2045 * (2 ^ 50 + 1)); [vm_compute; discriminate|].
    apply Z.mul_le_mono_nonneg_l; [vm_compute; discriminate|lia].
Qed.

Lemma inv_float_small : forall x v, Word 32 x -> IsFloat x v -> (Rabs v <= / 2 ^ 128)%R -> inv_float x = 0.
Proof.
  intros x v W H L. unfold inv_float. destruct thresh32_value as [Wt Ht].
  rewrite (lt64_value _ _ (Rabs v) _ (proj1 (fabs64_units _ (to64_word x))) Wt
     (fabs64_value _ _ (to64_word x) (to64_exact x v W H)) Ht).
  rewrite Rlt_bool_true; [reflexivity|]. eapply Rle_lt_trans; [exact L|].
  replace (/ 2 ^ 128)%R with (IZR (2 ^ 946) / 2 ^ 1074)%R.
  - apply Rmult_lt_compat_r; [apply Rinv_0_lt_compat, pow2_R_pos|]. apply IZR_lt. vm_compute. reflexivity.
  - symmetry. exact (inv_units 946 128).
Qed.
Lemma inv_float_nearest : forall x v, Word 32 x -> IsFloat x v -> (/ 2 ^ 128 < Rabs v)%R -> NearestFloat (1 / v) (inv_float x).
Proof.
  intros x v W H L. unfold inv_float. destruct thresh32_value as [Wt Ht].
  pose proof (to64_exact x v W H) as Hd. pose proof (to64_word x) as Wd.
  rewrite (lt64_value _ _ (Rabs v) _ (proj1 (fabs64_units _ Wd)) Wt (fabs64_value _ _ Wd Hd) Ht).
  assert (N : v <> 0%R).
  { intros ->. rewrite Rabs_R0 in L. pose proof (Rinv_0_lt_compat _ (pow2_R_pos 128)). lra. }
  assert (B : (Rabs (1 / v) <= IZR ((2 ^ 24 - 1) * 2 ^ 253) / 2 ^ 149)%R /\
              (IZR (2 ^ 946 + 2 ^ 922 + 2 ^ 898) / 2 ^ 1074 <= Rabs v)%R).
  { destruct H as (u & _ & ->). apply units_gt in L; [|lia]. change (2 ^ Z.of_nat (149 - 128)) with (2 ^ 21) in L. split.
    - apply inverse_below; [lia|].
      transitivity ((2 ^ 24 - 1) * 2 ^ 253 * (2 ^ 21 + 1)); [vm_compute; discriminate|].
      apply Z.mul_le_mono_nonneg_l; [vm_compute; discriminate|lia].
    - rewrite abs_units. replace (IZR (Z.abs u) / 2 ^ 149)%R with (IZR (Z.abs u * 2 ^ 925) / 2 ^ 1074)%R.
      + apply units_le. transitivity ((2 ^ 21 + 1) * 2 ^ 925); [vm_compute; discriminate|].
        apply Z.mul_le_mono_nonneg_r; [vm_compute; discriminate|lia].
      + symmetry. exact (scale_units (Z.abs u) 925 149). }
  destruct B as [B1 B2]. rewrite Rlt_bool_false by exact B2.
  destruct flt_max_value as [Wm Hm]. pose proof (to64_exact _ _ Wm Hm) as Hm'.
  assert (D : IsDouble (div64 one64 (to64 x)) (rnd64 (1 / v))) by (eapply div64_round; [exact Wd|exact Hd|exact N|apply (to64_word (255 * 2 ^ 23 - 1))|exact Hm'|exact B1]).
  apply nearest32; [apply to32_word|].
  assert (E : rnd32 (rnd64 (1 / v)) = rnd32 (1 / v)).
  { apply (round_round_div_FLT radix2 (-149) 24 (-1074) 53 (fun x => negb (Z.even x)) (fun x => negb (Z.even x))).
    - exists 1. reflexivity.
    - lia.
    - lia.
    - exact N.
    - apply FLT_format_generic; [exact p24|]. apply (float_format (127 * 2 ^ 23) 1).
      + split; vm_compute; congruence.
      + exists (2 ^ 149). split; [vm_compute; reflexivity|]. exact (one_units 149).
    - apply FLT_format_generic; [exact p24|]. exact (float_format x v W H). }
  rewrite <- E. eapply to32_below; [apply div64_word|exact D|exact Wm|exact Hm|].
  apply abs_round_le_generic; [auto with typeclass_instances|auto with typeclass_instances| |exact B1].
  apply (double_format _ _ (to64_word _) Hm').
Qed.

(** Floats against their threshold *)
Lemma lt32_small : forall w v, Word 32 w -> IsFloat w v -> (Rabs v <= / 2 ^ 128)%R -> lt64 (fabs64 (to64 w)) thresh32 = true.
Proof.
  intros w v W H L. destruct thresh32_value as [Wt Ht].
  rewrite (lt64_value _ _ (Rabs v) _ (proj1 (fabs64_units _ (to64_word w))) Wt
     (fabs64_value _ _ (to64_word w) (to64_exact w v W H)) Ht).
  rewrite Rlt_bool_true; [reflexivity|]. eapply Rle_lt_trans; [exact L|].
  replace (/ 2 ^ 128)%R with (IZR (2 ^ 946) / 2 ^ 1074)%R.
  - apply Rmult_lt_compat_r; [apply Rinv_0_lt_compat, pow2_R_pos|]. apply IZR_lt. vm_compute. reflexivity.
  - symmetry. exact (inv_units 946 128).
Qed.
Lemma lt32_large : forall w v, Word 32 w -> IsFloat w v -> (/ 2 ^ 128 < Rabs v)%R -> lt64 (fabs64 (to64 w)) thresh32 = false.
Proof.
  intros w v W H L. destruct thresh32_value as [Wt Ht].
  rewrite (lt64_value _ _ (Rabs v) _ (proj1 (fabs64_units _ (to64_word w))) Wt
     (fabs64_value _ _ (to64_word w) (to64_exact w v W H)) Ht).
  apply Rlt_bool_false. destruct H as (u & _ & ->). apply units_gt in L; [|lia]. change (2 ^ Z.of_nat (149 - 128)) with (2 ^ 21) in L.
  rewrite abs_units. replace (IZR (Z.abs u) / 2 ^ 149)%R with (IZR (Z.abs u * 2 ^ 925) / 2 ^ 1074)%R.
  - apply units_le. transitivity ((2 ^ 21 + 1) * 2 ^ 925); [vm_compute; discriminate|].
    apply Z.mul_le_mono_nonneg_r; [vm_compute; discriminate|lia].
  - symmetry. exact (scale_units (Z.abs u) 925 149).
Qed.
Lemma to32_nearest : forall a x, Word 64 a -> IsDouble a x -> (Rabs x < 2 ^ 127)%R -> NearestFloat x (to32 a).
Proof.
  intros a x W H L. apply nearest32; [apply to32_word|]. destruct flt_max_value as [Wm Hm].
  eapply to32_below; [exact W|exact H|exact Wm|exact Hm|]. left. eapply Rlt_le_trans; [exact L|].
  replace (2 ^ 127)%R with (IZR (2 ^ 276) / 2 ^ 149)%R.
  - apply units_le. vm_compute. discriminate.
  - change (2 ^ 276) with (2 ^ Z.of_nat (149 + 127)). rewrite <- pow2_R, pow_add. unfold Rdiv. rewrite (Rmult_comm (2 ^ 149)), Rmult_assoc, Rinv_r; [ring|].
    apply Rgt_not_eq, pow2_R_pos.
Qed.
