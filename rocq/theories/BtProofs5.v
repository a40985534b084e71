(** Lemmas for the truncation of complex rows: conversions and roundings. *)
From Coq Require Import ZArith Reals List Bool Lia Lra Psatz.
From Flocq Require Import Core IEEE754.BinarySingleNaN IEEE754.Binary IEEE754.Bits Relative.
From Verif Require Import PyBase TruncModel TruncSpec TruncProofs TruncFloat TruncProps0 BtModel BtSpec BtProofs BtProofs2 BtProofs3 BtProofs4.
Import ListNotations.
Open Scope Z_scope.

Local Instance p24 : Prec_gt_0 24 := eq_refl.
Local Instance p53 : Prec_gt_0 53 := eq_refl.
Notation rnd32 := (round radix2 (FLT_exp (-149) 24) ZnearestE).
Notation rnd64 := (round radix2 (FLT_exp (-1074) 53) ZnearestE).

Lemma rnd_error : forall emin prec x, Prec_gt_0 prec ->
  (Rabs (round radix2 (FLT_exp emin prec) ZnearestE x - x) <= Rabs x * (/2 * bpow radix2 (- prec + 1)) + /2 * bpow radix2 emin)%R.
Proof.
  intros emin prec x Hp.
  destruct (relative_error_N_FLT'_ex radix2 emin prec Hp (fun x => negb (Z.even x)) x) as (d & e & Hd & He & _ & E).
  rewrite E. set (u := u_ro radix2 prec) in *. change (/2 * bpow radix2 (- prec + 1))%R with u.
  assert (0 < u)%R by (unfold u, u_ro; pose proof (bpow_gt_0 radix2 (- prec + 1)); lra).
  assert (D : (Rabs d <= u)%R).
  { eapply Rle_trans; [exact Hd|]. apply Rmult_le_reg_r with (1 + u)%R; [lra|].
    unfold Rdiv. rewrite Rmult_assoc, Rinv_l by lra. nra. }
  replace (x * (1 + d) + e - x)%R with (x * d + e)%R by ring.
  eapply Rle_trans; [apply Rabs_triang|]. apply Rplus_le_compat; [|exact He].
  rewrite Rabs_mult. apply Rmult_le_compat_l; [apply Rabs_pos|exact D].
Qed.
Lemma rnd32_error : forall x, (Rabs (rnd32 x - x) <= Rabs x * / 2 ^ 24 + / 2 ^ 150)%R.
Proof.
  intros x. pose proof (rnd_error (-149) 24 x _) as H.
  change (- (24) + 1) with (- Z.of_nat 23) in H. change (-149) with (- Z.of_nat 149) in H at 2.
  rewrite !bpow_inv, !half_inv in H. exact H.
Qed.
Lemma rnd64_error : forall x, (Rabs (rnd64 x - x) <= Rabs x * / 2 ^ 53 + / 2 ^ 1075)%R.
Proof.
  intros x. pose proof (rnd_error (-1074) 53 x _) as H.
  change (- (53) + 1) with (- Z.of_nat 52) in H. change (-1074) with (- Z.of_nat 1074) in H at 2.
  rewrite !bpow_inv, !half_inv in H. exact H.
Qed.
Lemma rnd32_nonneg : forall x, (0 <= x)%R -> (0 <= rnd32 x)%R.
Proof. intros x H. rewrite <- (round_0 radix2 (FLT_exp (-149) 24) ZnearestE). apply round_le; auto with typeclass_instances. Qed.
Lemma rnd64_nonneg : forall x, (0 <= x)%R -> (0 <= rnd64 x)%R.
Proof. intros x H. rewrite <- (round_0 radix2 (FLT_exp (-1074) 53) ZnearestE). apply round_le; auto with typeclass_instances. Qed.

(** From a number of Flocq to the word *)
Lemma float_of_B2R : forall g, is_finite 24 128 g = true -> IsFloat (w32 g) (B2R 24 128 g).
Proof.
  intros g Fg. destruct (w32_f32 g) as [W E]. pose proof (units32 (w32 g) W) as U. rewrite E in U.
  destruct (ieee_units 23 8 (w32 g)) as [u|] eqn:Eu; [|congruence]. exists u. split; [exact Eu|].
  rewrite (proj2 U). change (-149) with (- Z.of_nat 149). rewrite bpow_inv. reflexivity.
Qed.
Lemma double_of_B2R : forall g, is_finite 53 1024 g = true -> IsDouble (w64 g) (B2R 53 1024 g).
Proof.
  intros g Fg. destruct (w64_f64 g) as [W E]. pose proof (units64 (w64 g) W) as U. rewrite E in U.
  destruct (ieee_units 52 11 (w64 g)) as [u|] eqn:Eu; [|congruence]. exists u. split; [exact Eu|].
  rewrite (proj2 U). change (-1074) with (- Z.of_nat 1074). rewrite bpow_inv. reflexivity.
Qed.

Lemma below32 : forall x, (Rabs x < 2 ^ 127)%R -> (Rabs (rnd32 x) < bpow radix2 128)%R.
Proof.
  intros x H. pose proof (rnd32_error x) as E. change 128 with (Z.of_nat 128). rewrite bpow_nat.
  assert (K : (2 ^ 128 = 2 * 2 ^ 127)%R) by reflexivity.
  assert (K1 : (/ 2 ^ 24 <= / 4)%R) by (cbn; lra). assert (K2 : (/ 2 ^ 150 <= / 4)%R).
  { apply Rinv_le_contravar; [lra|]. replace 4%R with (2 ^ 2)%R by lra. apply Rle_pow; [lra|lia]. }
  assert (K3 : (1 <= 2 ^ 127)%R) by (apply pow_R1_Rle; lra).
  pose proof (Rabs_pos x). pose proof (Rabs_triang_inv (rnd32 x) x). nra.
Qed.
Lemma below64 : forall x, (Rabs x < 2 ^ 1023)%R -> (Rabs (rnd64 x) < bpow radix2 1024)%R.
Proof.
  intros x H. pose proof (rnd64_error x) as E. change 1024 with (Z.of_nat 1024). rewrite bpow_nat.
  assert (K : (2 ^ 1024 = 2 * 2 ^ 1023)%R) by (rewrite tech_pow_Rmult; reflexivity).
  assert (K1 : (/ 2 ^ 53 <= / 4)%R).
  { apply Rinv_le_contravar; [lra|]. replace 4%R with (2 ^ 2)%R by lra. apply Rle_pow; [lra|lia]. }
  assert (K2 : (/ 2 ^ 1075 <= / 4)%R).
  { apply Rinv_le_contravar; [lra|]. replace 4%R with (2 ^ 2)%R by lra. apply Rle_pow; [lra|lia]. }
  assert (K3 : (1 <= 2 ^ 1023)%R) by (apply pow_R1_Rle; lra).
  pose proof (Rabs_pos x). pose proof (Rabs_triang_inv (rnd64 x) x). nra.
Qed.

Lemma mul32_round : forall a b x y, Word 32 a -> Word 32 b -> IsFloat a x -> IsFloat b y ->
  (Rabs (x * y) < 2 ^ 127)%R -> IsFloat (mul32 a b) (rnd32 (x * y)).
Proof.
  intros a b x y Wa Wb Ha Hb L.
  destruct (IsFloat_B2R a x Wa Ha) as [Fa Ra]. destruct (IsFloat_B2R b y Wb Hb) as [Fb Rb].
  assert (P : B2R 24 128 (b32_mult mode_NE (f32 a) (f32 b)) = rnd32 (x * y)
              /\ is_finite 24 128 (b32_mult mode_NE (f32 a) (f32 b)) = true).
  { pose proof (Bmult_correct 24 128 eq_refl eq_refl binop_nan_pl32 mode_NE (f32 a) (f32 b)) as C.
    rewrite Ra, Rb in C. change (SpecFloat.fexp 24 128) with (FLT_exp (-149) 24) in C. cbn [round_mode] in C.
    rewrite Rlt_bool_true in C by (apply below32; exact L). rewrite Fa, Fb in C. destruct C as (C1 & C2 & _).
    split; [exact C1|exact C2]. }
  rewrite <- (proj1 P). apply float_of_B2R. exact (proj2 P).
Qed.
Lemma mul64_round : forall a b x y, Word 64 a -> Word 64 b -> IsDouble a x -> IsDouble b y ->
  (Rabs (x * y) < 2 ^ 1023)%R -> IsDouble (mul64 a b) (rnd64 (x * y)).
Proof.
  intros a b x y Wa Wb Ha Hb L.
  destruct (IsDouble_B2R a x Wa Ha) as [Fa Ra]. destruct (IsDouble_B2R b y Wb Hb) as [Fb Rb].
  assert (P : B2R 53 1024 (b64_mult mode_NE (f64 a) (f64 b)) = rnd64 (x * y)
              /\ is_finite 53 1024 (b64_mult mode_NE (f64 a) (f64 b)) = true).
  { pose proof (Bmult_correct 53 1024 eq_refl eq_refl binop_nan_pl64 mode_NE (f64 a) (f64 b)) as C.
    rewrite Ra, Rb in C. change (SpecFloat.fexp 53 1024) with (FLT_exp (-1074) 53) in C. cbn [round_mode] in C.
    rewrite Rlt_bool_true in C by (apply below64; exact L). rewrite Fa, Fb in C. destruct C as (C1 & C2 & _).
    split; [exact C1|exact C2]. }
  rewrite <- (proj1 P). apply double_of_B2R. exact (proj2 P).
Qed.
Lemma add64_round : forall a b x y, Word 64 a -> Word 64 b -> IsDouble a x -> IsDouble b y ->
  (Rabs (x + y) < 2 ^ 1023)%R -> IsDouble (add64 a b) (rnd64 (x + y)).
Proof.
  intros a b x y Wa Wb Ha Hb L.
  destruct (IsDouble_B2R a x Wa Ha) as [Fa Ra]. destruct (IsDouble_B2R b y Wb Hb) as [Fb Rb].
  assert (P : B2R 53 1024 (b64_plus mode_NE (f64 a) (f64 b)) = rnd64 (x + y)
              /\ is_finite 53 1024 (b64_plus mode_NE (f64 a) (f64 b)) = true).
  { pose proof (Bplus_correct 53 1024 eq_refl eq_refl binop_nan_pl64 mode_NE (f64 a) (f64 b) Fa Fb) as C.
    rewrite Ra, Rb in C. change (SpecFloat.fexp 53 1024) with (FLT_exp (-1074) 53) in C. cbn [round_mode] in C.
    rewrite Rlt_bool_true in C by (apply below64; exact L). destruct C as (C1 & C2 & _).
    split; [exact C1|exact C2]. }
  rewrite <- (proj1 P). apply double_of_B2R. exact (proj2 P).
Qed.
Lemma sqrt64_round : forall a x, Word 64 a -> IsDouble a x -> (0 <= x)%R ->
  IsDouble (sqrt64 a) (rnd64 (sqrt x)).
Proof.
  intros a x Wa Ha L.
  destruct (IsDouble_B2R a x Wa Ha) as [Fa Ra].
  assert (P : B2R 53 1024 (b64_sqrt mode_NE (f64 a)) = rnd64 (sqrt x)
              /\ is_finite 53 1024 (b64_sqrt mode_NE (f64 a)) = true).
  { pose proof (Bsqrt_correct 53 1024 eq_refl eq_refl unop_nan_pl64 mode_NE (f64 a)) as C.
    rewrite Ra in C. change (SpecFloat.fexp 53 1024) with (FLT_exp (-1074) 53) in C. cbn [round_mode] in C.
    destruct C as (C1 & C2 & _). split; [exact C1|]. etransitivity; [exact C2|].
    destruct (f64 a) as [s|s|s|s m e B]; try reflexivity; try discriminate.
    destruct s; [|reflexivity]. exfalso. cbn [B2R] in Ra. unfold F2R in Ra. cbn [cond_Zopp Fnum Fexp] in Ra.
    pose proof (bpow_gt_0 radix2 e). assert (IZR (Z.opp (Zpos m)) <= -1)%R by (apply IZR_le; lia).
    change (Z.neg m) with (Z.opp (Zpos m)) in Ra. nra. }
  rewrite <- (proj1 P). apply double_of_B2R. exact (proj2 P).
Qed.

Lemma to32_round : forall a x, Word 64 a -> IsDouble a x -> (Rabs x < 2 ^ 127)%R -> IsFloat (to32 a) (rnd32 x).
Proof.
  intros a x Wa Ha L. destruct (IsDouble_B2R a x Wa Ha) as [Fa Ra].
  assert (P : B2R 24 128 (narrow (f64 a)) = rnd32 x /\ is_finite 24 128 (narrow (f64 a)) = true).
  { destruct (f64 a) as [s|s|s|s m e B]; try discriminate.
    - cbn [B2R] in Ra. subst x. cbn [narrow B2R is_finite]. split; [|reflexivity]. symmetry. apply round_0. auto with typeclass_instances.
    - cbn [B2R] in Ra. cbn [narrow].
      pose proof (binary_normalize_correct 24 128 eq_refl eq_refl mode_NE (cond_Zopp s (Zpos m)) e s) as C.
      rewrite Ra in C. change (SpecFloat.fexp 24 128) with (FLT_exp (-149) 24) in C. cbn [round_mode] in C.
      rewrite Rlt_bool_true in C by (apply below32; exact L). destruct C as (C1 & C2 & _). split; [exact C1|exact C2]. }
  rewrite <- (proj1 P). apply float_of_B2R. exact (proj2 P).
Qed.
Lemma to64_exact : forall a x, Word 32 a -> IsFloat a x -> IsDouble (to64 a) x.
Proof.
  intros a x Wa Ha. destruct (IsFloat_B2R a x Wa Ha) as [Fa Ra].
  assert (G : generic_format radix2 (FLT_exp (-1074) 53) x).
  { rewrite <- Ra. pose proof (generic_format_B2R 24 128 (f32 a)) as G.
    change (SpecFloat.fexp 24 128) with (FLT_exp (-149) 24) in G. apply FLT_format_generic in G; [|exact p24].
    destruct G as [f F1 F2 F3]. apply generic_format_FLT. apply FLT_spec with f; [exact F1| |lia].
    eapply Z.lt_trans; [exact F2|]. reflexivity. }
  assert (L : (Rabs x < bpow radix2 1024)%R).
  { rewrite <- Ra. eapply Rlt_trans; [apply abs_B2R_lt_emax|]. apply bpow_lt. lia. }
  assert (P : B2R 53 1024 (widen (f32 a)) = x /\ is_finite 53 1024 (widen (f32 a)) = true).
  { destruct (f32 a) as [s|s|s|s m e B]; try discriminate.
    - cbn [B2R] in Ra. subst x. split; reflexivity.
    - cbn [B2R] in Ra. cbn [widen].
      pose proof (binary_normalize_correct 53 1024 eq_refl eq_refl mode_NE (cond_Zopp s (Zpos m)) e s) as C.
      rewrite Ra in C. change (SpecFloat.fexp 53 1024) with (FLT_exp (-1074) 53) in C. cbn [round_mode] in C.
      rewrite round_generic in C by (auto with typeclass_instances).
      rewrite Rlt_bool_true in C by exact L. destruct C as (C1 & C2 & _). split; [exact C1|exact C2]. }
  rewrite <- (proj1 P). apply double_of_B2R. exact (proj2 P).
Qed.
Lemma to32_word : forall a, Word 32 (to32 a).
Proof. intros. apply w32_f32. Qed.
Lemma to64_word : forall a, Word 64 (to64 a).
Proof. intros. apply w64_f64. Qed.
Lemma add64_word : forall a b, Word 64 (add64 a b).
Proof. intros. apply w64_f64. Qed.
Lemma sqrt64_word : forall a, Word 64 (sqrt64 a).
Proof. intros. apply w64_f64. Qed.

Lemma gt64_value : forall a b x y, Word 64 a -> Word 64 b -> IsDouble a x -> IsDouble b y ->
  gt64 a b = Rlt_bool y x.
Proof.
  intros a b x y Wa Wb Ha Hb.
  destruct (IsDouble_B2R a x Wa Ha) as [Fa Ra]. destruct (IsDouble_B2R b y Wb Hb) as [Fb Rb].
  unfold gt64, b64_compare. rewrite Bcompare_correct by assumption. rewrite Ra, Rb.
  destruct (Rcompare_spec x y); [rewrite Rlt_bool_false by lra|rewrite Rlt_bool_false by lra|rewrite Rlt_bool_true by lra]; reflexivity.
Qed.
