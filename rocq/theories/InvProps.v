(** C353-C358: inverses in floating point. *)
From Coq Require Import ZArith Reals List Bool Permutation Lia Lra Psatz.
From Flocq Require Import Core IEEE754.BinarySingleNaN IEEE754.Binary IEEE754.Bits.
From Verif Require Import PyBase RedSpec TruncModel TruncSpec ArrSpec ArrProps BtModel BtSpec BtProofs BtProofs2 BtProofs3 BtProofs4 BtProofs5 BtProps InvModel InvSpec InvProofs.
From Verif Require ArrModel.
Import ListNotations.
Open Scope Z_scope.

Local Instance p53' : Prec_gt_0 53 := eq_refl.
Lemma f32_eq : forall w, b32_of_bits (w mod 2 ^ 32) = f32 w. Proof. reflexivity. Qed.
Lemma f64_eq : forall w, b64_of_bits (w mod 2 ^ 64) = f64 w. Proof. reflexivity. Qed.
(** C353: floats. *)
Theorem C353_float : forall x v, Word 32 x -> IsFloat x v ->
  ((Rabs v <= / 2 ^ 128)%R -> inv_float x = 0) /\ ((/ 2 ^ 128 < Rabs v)%R -> NearestFloat (1 / v) (inv_float x)).
Proof. intros x v W H. split; [now apply inv_float_small|now apply inv_float_nearest]. Qed.
Print Assumptions C353_float.
(** Infinities become zeros of their sign; what is not a number stays so. *)
Theorem C353_special : inv_float (255 * 2 ^ 23) = 0 /\ inv_float (255 * 2 ^ 23 - 2 ^ 31) = - 2 ^ 31 /\
  forall x, is_nan 24 128 (b32_of_bits (x mod 2 ^ 32)) = true -> is_nan 24 128 (b32_of_bits (inv_float x mod 2 ^ 32)) = true.
Proof.
  split; [vm_compute; reflexivity|]. split; [vm_compute; reflexivity|].
  intros x N. rewrite f32_eq in N |- *.
  assert (E : to64 x = to64 (255 * 2 ^ 23 + 2 ^ 22)).
  { unfold to64. destruct (f32 x); try discriminate. reflexivity. }
  unfold inv_float. rewrite E. vm_compute. reflexivity.
Qed.
Print Assumptions C353_special.
(** The inverse of 3 is 11184811 / 2^25. *)
Example C353_example : inv_float 1077936128 = 1051372203 /\ ieee_units 23 8 1077936128 = Some (3 * 2 ^ 149)
  /\ ieee_units 23 8 1051372203 = Some (11184811 * 2 ^ 124).
Proof. repeat split; vm_compute; reflexivity. Qed.
(** The smallest number that is inverted, and the largest that is not *)
Example C353_example_small : inv_float (2 ^ 21 + 1) = 2139095032 /\ inv_float (2 ^ 21) = 0.
Proof. split; vm_compute; reflexivity. Qed.

(** C354: doubles, but for two of them. *)
Theorem C354_double : forall x v, Word 64 x -> IsDouble x v ->
  ((Rabs v < / 2 ^ 1024)%R -> inv_double x = 0) /\ ((/ 2 ^ 1024 < Rabs v)%R -> NearestDouble (1 / v) (inv_double x)).
Proof. intros x v W H. split; [now apply inv_double_small|now apply inv_double_nearest]. Qed.
Print Assumptions C354_double.
Lemma sign_nonneg : forall y, 0 <= y < 2 ^ 63 -> Bsign 53 1024 (f64 y) = false.
Proof.
  intros y H. unfold f64. rewrite Z.mod_small by lia. unfold b64_of_bits, binary_float_of_bits. rewrite Bsign_FF2B.
  unfold binary_float_of_bits_aux, split_bits.
  assert (S : (2 ^ 52 * 2 ^ 11 <=? y) = false) by (apply Z.leb_gt; change (2 ^ 52 * 2 ^ 11) with (2 ^ 63); lia).
  rewrite S. destruct (Zeq_bool _ 0); [destruct (y mod 2 ^ 52); reflexivity|].
  destruct (Zeq_bool _ _); [destruct (y mod 2 ^ 52); reflexivity|]. destruct (_ + _); reflexivity.
Qed.
Lemma fabs64_range : forall x, 0 <= fabs64 x < 2 ^ 63.
Proof. intros x. unfold fabs64. change (2 ^ 63 - 1) with (Z.ones 63). rewrite Z.land_ones by lia. apply Z.mod_pos_bound. lia. Qed.
(** What is not finite is not below the thresholds. *)
Lemma not_below : forall x t, Word 64 x -> ieee_units 52 11 x = None -> is_finite 53 1024 (f64 t) = true -> lt64 (fabs64 x) t = false.
Proof.
  intros x t W N F. destruct (fabs64_units x W) as [W' U]. rewrite N in U. cbn [option_map] in U.
  pose proof (units64 _ W') as H. rewrite U in H. pose proof (sign_nonneg _ (fabs64_range x)) as Q.
  unfold lt64. destruct (f64 (fabs64 x)) as [s|s|s|s m e B]; try discriminate.
  - cbn in Q. subst s. destruct (f64 t) as [s|s|s|s m e B]; try discriminate; try reflexivity; destruct s; reflexivity.
  - reflexivity.
Qed.
Lemma div_nan64 : forall x, is_nan 53 1024 (f64 x) = true -> is_nan 53 1024 (f64 (div64 one64 x)) = true.
Proof.
  intros x N. unfold div64. rewrite (proj2 (w64_f64 _)). unfold b64_div, Bdiv.
  destruct (f64 x) as [s|s|s pl B|s m e B]; try discriminate.
  match goal with |- is_nan _ _ (BSN2B _ _ _ ?y) = true => replace y with (@BinarySingleNaN.B754_nan 53 1024) end; [reflexivity|].
  destruct (f64 one64); reflexivity.
Qed.
Theorem C354_special : inv_double (2047 * 2 ^ 52) = 0 /\ inv_double (2047 * 2 ^ 52 - 2 ^ 63) = - 2 ^ 63 /\
  forall x, Word 64 x -> is_nan 53 1024 (b64_of_bits (x mod 2 ^ 64)) = true -> is_nan 53 1024 (b64_of_bits (inv_double x mod 2 ^ 64)) = true.
Proof.
  split; [vm_compute; reflexivity|]. split; [vm_compute; reflexivity|].
  intros x W N. rewrite f64_eq in N |- *.
  unfold inv_double. rewrite not_below; [now apply div_nan64|exact W| |vm_compute; reflexivity].
  pose proof (units64 x W) as U. destruct (ieee_units 52 11 x) as [u|]; [|reflexivity].
  destruct U as [U _]. destruct (f64 x); discriminate.
Qed.
Print Assumptions C354_special.
Example C354_example : inv_double 4613937818241073152 = 4599676419421066581 /\ ieee_units 52 11 4613937818241073152 = Some (3 * 2 ^ 1074)
  /\ ieee_units 52 11 4599676419421066581 = Some (6004799503160661 * 2 ^ 1020).
Proof. repeat split; vm_compute; reflexivity. Qed.
Example C354_example_small : inv_double (2 ^ 50 + 1) = 2047 * 2 ^ 52 - 8 /\ inv_double (2 ^ 50 - 1) = 0.
Proof. split; vm_compute; reflexivity. Qed.

(** C355: finite numbers have finite inverses: refuted by [2^-1024]. *)
Theorem C355_refuted : exists x, Word 64 x /\ IsDouble x (/ 2 ^ 1024) /\ ieee_units 52 11 (inv_double x) = None
  /\ is_nan 53 1024 (b64_of_bits (inv_double x mod 2 ^ 64)) = false.
Proof.
  exists (2 ^ 50). split; [split; vm_compute; congruence|]. split; [|split; vm_compute; reflexivity].
  exists (2 ^ 50). split; [vm_compute; reflexivity|]. exact (inv_units 50 1024).
Qed.
Print Assumptions C355_refuted.
(** The only ones are this number and its negative. *)
Theorem C355_finite_partial : forall x v, Word 64 x -> IsDouble x v -> Rabs v <> (/ 2 ^ 1024)%R -> exists r, IsDouble (inv_double x) r.
Proof.
  intros x v W H N. destruct (Rtotal_order (Rabs v) (/ 2 ^ 1024)) as [L|[L|L]]; [|contradiction|].
  - rewrite (inv_double_small x v W H L). exists 0%R. exists 0. split; [reflexivity|lra].
  - destruct (inv_double_nearest x v W H L) as [_ (r & R & _)]. now exists r.
Qed.
Print Assumptions C355_finite_partial.

(** C356: arrays of floats, of any layout. *)
Theorem C356_new_array : forall m x base order, WellFormed x -> Fresh x base -> Permutation order (seq 0 (ArrModel.count (ArrModel.v_shape x))) ->
  exists r m', ArrModel.invert_no_zero inv_float m (ArrModel.FloatArray x) None base order = Ok (r, m') /\ ArrModel.v_shape r = ArrModel.v_shape x /\
    Untouched m m' r /\
    forall i v, InShape i (ArrModel.v_shape x) -> Word 32 (m (ArrModel.addr x i)) -> IsFloat (m (ArrModel.addr x i)) v ->
      ((Rabs v <= / 2 ^ 128)%R -> m' (ArrModel.addr r i) = 0) /\ ((/ 2 ^ 128 < Rabs v)%R -> NearestFloat (1 / v) (m' (ArrModel.addr r i))).
Proof.
  intros m x base order W Fr P. destruct (C72_new_array Z inv_float m x base order W Fr P) as (r & m' & E & _ & S & _ & _ & El & U & _).
  exists r, m'. split; [exact E|]. split; [exact S|]. split; [exact U|].
  intros i v I Wi Hi. rewrite (El i I). exact (C353_float _ v Wi Hi).
Qed.
Print Assumptions C356_new_array.
Theorem C356_new_array_double : forall m x base order, WellFormed x -> Fresh x base -> Permutation order (seq 0 (ArrModel.count (ArrModel.v_shape x))) ->
  exists r m', ArrModel.invert_no_zero inv_double m (ArrModel.FloatArray x) None base order = Ok (r, m') /\ ArrModel.v_shape r = ArrModel.v_shape x /\
    Untouched m m' r /\
    forall i v, InShape i (ArrModel.v_shape x) -> Word 64 (m (ArrModel.addr x i)) -> IsDouble (m (ArrModel.addr x i)) v ->
      ((Rabs v < / 2 ^ 1024)%R -> m' (ArrModel.addr r i) = 0) /\ ((/ 2 ^ 1024 < Rabs v)%R -> NearestDouble (1 / v) (m' (ArrModel.addr r i))).
Proof.
  intros m x base order W Fr P. destruct (C72_new_array Z inv_double m x base order W Fr P) as (r & m' & E & _ & S & _ & _ & El & U & _).
  exists r, m'. split; [exact E|]. split; [exact S|]. split; [exact U|].
  intros i v I Wi Hi. rewrite (El i I). exact (C354_double _ v Wi Hi).
Qed.
Print Assumptions C356_new_array_double.
(** Two floats, 3 and 0, read backwards *)
Example C356_example : let m := fun a => if a =? 0 then 0 else 1077936128 in
  exists m', ArrModel.invert_no_zero inv_float m (ArrModel.FloatArray (ArrModel.mkview [2%nat] [-1] 1)) None 10 [1%nat; 0%nat]
    = Ok (ArrModel.mkview [2%nat] [1] 10, m') /\ m' 10 = 1051372203 /\ m' 11 = 0.
Proof. cbv zeta. eexists. split; [reflexivity|]. split; vm_compute; reflexivity. Qed.

(** C357: integers. *)
Lemma of_int_word : forall n, Word 64 (of_int n).
Proof. intros. apply w64_f64. Qed.
Lemma of_int_round : forall n, Z.abs n < 2 ^ 64 -> IsDouble (of_int n) (rnd64 (IZR n)).
Proof.
  intros n H.
  assert (P : B2R 53 1024 (binary_normalize 53 1024 eq_refl eq_refl mode_NE n 0 false) = rnd64 (IZR n)
              /\ is_finite 53 1024 (binary_normalize 53 1024 eq_refl eq_refl mode_NE n 0 false) = true).
  { pose proof (binary_normalize_correct 53 1024 eq_refl eq_refl mode_NE n 0 false) as C.
    replace (F2R (Float radix2 n 0)) with (IZR n) in C by (unfold F2R; cbn [Fnum Fexp bpow]; lra).
    change (SpecFloat.fexp 53 1024) with (FLT_exp (-1074) 53) in C. cbn [round_mode] in C.
    rewrite Rlt_bool_true in C; [destruct C as (C1 & C2 & _); split; [exact C1|exact C2]|].
    apply below64. rewrite <- abs_IZR. apply Rlt_le_trans with (IZR (2 ^ 64)); [now apply IZR_lt|].
    change (2 ^ 64) with (2 ^ Z.of_nat 64). rewrite <- pow2_R. apply Rle_pow; [lra|lia]. }
  rewrite <- (proj1 P). unfold of_int. apply double_of_B2R. exact (proj2 P).
Qed.
Lemma int_at_least_one : forall n, n <> 0 -> (1 <= Rabs (rnd64 (IZR n)))%R.
Proof.
  intros n N. apply abs_round_ge_generic; [auto with typeclass_instances|auto with typeclass_instances| |].
  - destruct one64_value as [W H]. exact (double_format _ _ W H).
  - rewrite <- abs_IZR. apply IZR_le. lia.
Qed.
Lemma inverse_rounds : forall b y, Word 64 b -> IsDouble b y -> (1 <= Rabs y)%R -> IsDouble (div64 one64 b) (rnd64 (1 / y)).
Proof.
  intros b y W H L. destruct one64_value as [Wo Ho]. eapply (div64_round b y 1 one64); try assumption.
  - intros ->. rewrite Rabs_R0 in L. lra.
  - unfold Rdiv. rewrite Rmult_1_l, Rabs_inv. rewrite <- Rinv_1. apply Rinv_le_contravar; lra.
Qed.
(** Integers that are doubles: the nearest double. *)
Theorem C357_exact : forall n, n <> 0 -> Z.abs n <= 2 ^ 53 -> NearestDouble (1 / IZR n) (inv_int n).
Proof.
  intros n N L. unfold inv_int. destruct (Z.eqb_spec n 0); [contradiction|].
  apply nearest64; [apply div64_word|].
  assert (E : rnd64 (IZR n) = IZR n).
  { apply round_generic; [auto with typeclass_instances|]. apply generic_format_FLT.
    destruct (Z.eq_dec (Z.abs n) (2 ^ 53)) as [K|K].
    - apply FLT_spec with (Float radix2 (n / 2) 1).
      + unfold F2R. cbn [Fnum Fexp]. change (bpow radix2 1) with 2%R. rewrite <- mult_IZR. f_equal.
        assert (D : n = 2 ^ 53 \/ n = - 2 ^ 53) by lia. destruct D; subst n; reflexivity.
      + cbn [Fnum]. assert (D : n = 2 ^ 53 \/ n = - 2 ^ 53) by lia. destruct D; subst n; reflexivity.
      + cbn. lia.
    - apply FLT_spec with (Float radix2 n 0).
      + unfold F2R. cbn [Fnum Fexp bpow]. lra.
      + cbn [Fnum]. change (Zpower radix2 53) with (2 ^ 53). lia.
      + cbn. lia. }
  assert (L' : Z.abs n < 2 ^ 64) by (eapply Z.le_lt_trans; [exact L|reflexivity]).
  rewrite <- E at 1. apply inverse_rounds; [apply of_int_word|now apply of_int_round|now apply int_at_least_one].
Qed.
Print Assumptions C357_exact.
(** Others of 64 bits: two roundings. *)
Theorem C357_close : forall n, n <> 0 -> Z.abs n < 2 ^ 64 ->
  exists r, IsDouble (inv_int n) r /\ (Rabs (r - 1 / IZR n) <= Rabs (1 / IZR n) * / 2 ^ 51)%R.
Proof.
  intros n N L. unfold inv_int. destruct (Z.eqb_spec n 0); [contradiction|].
  pose proof (of_int_round n L) as Hy. pose proof (int_at_least_one n N) as Ly. pose proof (rnd64_error (IZR n)) as Ey.
  set (y := rnd64 (IZR n)) in *. exists (rnd64 (1 / y)). split; [apply inverse_rounds; [apply of_int_word|assumption|assumption]|].
  pose proof (rnd64_error (1 / y)) as Er. set (r := rnd64 (1 / y)) in *.
  assert (Nn : (IZR n <> 0)%R) by (now apply not_0_IZR). assert (Ny : (y <> 0)%R) by (intros ->; rewrite Rabs_R0 in Ly; lra).
  assert (P1 : (1 <= Rabs (IZR n))%R) by (rewrite <- abs_IZR; apply IZR_le; lia).
  assert (P2 : (Rabs (IZR n) <= 2 ^ 64)%R).
  { rewrite <- abs_IZR. change 64%nat with (Z.to_nat 64). rewrite pow2_R. apply IZR_le. change (Z.of_nat (Z.to_nat 64)) with 64. lia. }
  pose proof (Rinv_0_lt_compat _ (pow2_R_pos 53)) as U0. pose proof (Rinv_0_lt_compat _ (pow2_R_pos 1075)) as E0.
  assert (U1 : (/ 2 ^ 53 <= / 16)%R) by (replace 16%R with (2 ^ 4)%R by lra; apply Rinv_le_contravar; [apply pow2_R_pos|apply Rle_pow; [lra|lia]]).
  assert (E1 : (/ 2 ^ 1075 * 2 ^ 64 <= / 2 ^ 53 * / 16)%R).
  { replace 1075%nat with (64 + (53 + (4 + 954)))%nat by reflexivity. rewrite !pow_add, !Rinv_mult.
    replace (/ 2 ^ 64 * (/ 2 ^ 53 * (/ 2 ^ 4 * / 2 ^ 954)) * 2 ^ 64)%R with (/ 2 ^ 53 * / 2 ^ 4 * / 2 ^ 954)%R by (field; repeat split; apply Rgt_not_eq, pow2_R_pos).
    replace (2 ^ 4)%R with 16%R by lra. rewrite <- (Rmult_1_r (/ 2 ^ 53 * / 16)) at 2. apply Rmult_le_compat_l; [nra|].
    rewrite <- Rinv_1. apply Rinv_le_contravar; [lra|]. apply pow_R1_Rle. lra. }
  replace (/ 2 ^ 51)%R with (4 * / 2 ^ 53)%R by (replace 53%nat with (2 + 51)%nat by reflexivity; rewrite pow_add, Rinv_mult; lra).
  set (u := (/ 2 ^ 53)%R) in *. set (e := (/ 2 ^ 1075)%R) in *. set (K := (2 ^ 64)%R) in *.
  assert (Ee : (e * Rabs (IZR n) <= u * / 16)%R) by (eapply Rle_trans; [apply Rmult_le_compat_l; [lra|exact P2]|exact E1]).
  assert (E2 : (e <= e * Rabs (IZR n))%R) by (rewrite <- (Rmult_1_r e) at 1; apply Rmult_le_compat_l; lra).
  assert (Y : (3 / 4 * Rabs (IZR n) <= Rabs y)%R).
  { pose proof (Rabs_triang_inv (IZR n) (IZR n - y)) as T. replace (IZR n - (IZR n - y))%R with y in T by ring.
    rewrite Rabs_minus_sym in Ey. assert (Rabs (IZR n) * u <= Rabs (IZR n) * / 16)%R by (apply Rmult_le_compat_l; lra). lra. }
  set (A := Rabs (IZR n)) in *. set (Y0 := Rabs y) in *.
  assert (Iy : (/ Y0 <= 4 / 3 * / A)%R).
  { replace (4 / 3 * / A)%R with (/ (3 / 4 * A))%R by (field; lra). apply Rinv_le_contravar; lra. }
  assert (IA : (0 < / A)%R) by (apply Rinv_0_lt_compat; lra). assert (IY : (0 < / Y0)%R) by (apply Rinv_0_lt_compat; lra).
  assert (R1 : Rabs (1 / y) = (/ Y0)%R) by (unfold Rdiv; rewrite Rmult_1_l; apply Rabs_inv).
  assert (R2 : Rabs (1 / IZR n) = (/ A)%R) by (unfold Rdiv; rewrite Rmult_1_l; apply Rabs_inv).
  assert (D : Rabs (1 / y - 1 / IZR n) = (Rabs (y - IZR n) * / A * / Y0)%R).
  { replace (1 / y - 1 / IZR n)%R with ((IZR n - y) * / IZR n * / y)%R by (field; auto).
    rewrite !Rabs_mult, !Rabs_inv, Rabs_minus_sym. reflexivity. }
  rewrite R1 in Er. rewrite R2.
  replace (r - 1 / IZR n)%R with ((r - 1 / y) + (1 / y - 1 / IZR n))%R by ring.
  eapply Rle_trans; [apply Rabs_triang|]. rewrite D.
  assert (D1 : (Rabs (y - IZR n) * / A * / Y0 <= (A * u + e) * / A * / Y0)%R).
  { apply Rmult_le_compat_r; [lra|]. apply Rmult_le_compat_r; lra. }
  assert (D2 : ((A * u + e) * / A * / Y0 = (u + e * / A) * / Y0)%R) by (field; split; lra).
  assert (D3 : (e * / A <= e)%R).
  { rewrite <- (Rmult_1_r e) at 2. apply Rmult_le_compat_l; [lra|]. rewrite <- Rinv_1. apply Rinv_le_contravar; lra. }
  assert (D4 : ((u + e * / A) * / Y0 <= (u + u * / 16) * / Y0)%R) by (apply Rmult_le_compat_r; lra).
  assert (D5 : (e <= u * / 16 * / A)%R).
  { replace e with (e * A * / A)%R by (field; lra). apply Rmult_le_compat_r; lra. }
  assert (D6 : ((2 * u + u * / 16) * / Y0 <= (2 * u + u * / 16) * (4 / 3 * / A))%R) by (apply Rmult_le_compat_l; lra).
  assert (D7 : (0 <= u * / A)%R) by (apply Rmult_le_pos; lra).
  lra.
Qed.
Print Assumptions C357_close.
Theorem C357_zero : inv_int 0 = 0.
Proof. reflexivity. Qed.
Print Assumptions C357_zero.
Example C357_example : inv_int 3 = 4599676419421066581 /\ inv_int (-3) = 4599676419421066581 - 2 ^ 63 /\ inv_int (2 ^ 63 - 1) = 960 * 2 ^ 52.
Proof. repeat split; vm_compute; reflexivity. Qed.

(** C358: complex numbers: 0 exactly if both parts are small. *)
Theorem C358_double : forall reciprocal a b x y, Word 64 a -> Word 64 b -> IsDouble a x -> IsDouble b y ->
  ((Rabs x < / 2 ^ 1024 /\ Rabs y < / 2 ^ 1024)%R -> inv_complex_double reciprocal (a, b) = (0, 0)) /\
  ((/ 2 ^ 1024 <= Rabs x \/ / 2 ^ 1024 <= Rabs y)%R -> inv_complex_double reciprocal (a, b) = reciprocal (a, b)).
Proof.
  intros reciprocal a b x y Wa Wb Ha Hb. unfold inv_complex_double. cbn [fst snd]. destruct thresh64_value as [Wt Ht].
  rewrite (lt64_value _ _ (Rabs x) _ (proj1 (fabs64_units a Wa)) Wt (fabs64_value a x Wa Ha) Ht).
  rewrite (lt64_value _ _ (Rabs y) _ (proj1 (fabs64_units b Wb)) Wt (fabs64_value b y Wb Hb) Ht). split.
  - intros [Lx Ly]. now rewrite !Rlt_bool_true.
  - intros [L|L]; rewrite (Rlt_bool_false _ _ L); [reflexivity|]. now rewrite andb_false_r.
Qed.
Print Assumptions C358_double.
Theorem C358_special : forall reciprocal a b, Word 64 a -> Word 64 b -> ieee_units 52 11 a = None \/ ieee_units 52 11 b = None ->
  inv_complex_double reciprocal (a, b) = reciprocal (a, b).
Proof.
  intros reciprocal a b Wa Wb [N|N]; unfold inv_complex_double; cbn [fst snd].
  - now rewrite (not_below a thresh64 Wa N) by (vm_compute; reflexivity).
  - rewrite (not_below b thresh64 Wb N) by (vm_compute; reflexivity). now rewrite andb_false_r.
Qed.
Print Assumptions C358_special.
(** Floats: the quotient of the same numbers as doubles, rounded. *)
Theorem C358_float : forall reciprocal a b x y, Word 32 a -> Word 32 b -> IsFloat a x -> IsFloat b y ->
  ((Rabs x <= / 2 ^ 128 /\ Rabs y <= / 2 ^ 128)%R -> inv_complex_float reciprocal (a, b) = (0, 0)) /\
  ((/ 2 ^ 128 < Rabs x \/ / 2 ^ 128 < Rabs y)%R -> exists a' b', Word 64 a' /\ Word 64 b' /\ IsDouble a' x /\ IsDouble b' y /\
     (forall c, Word 64 (fst (reciprocal (a', b'))) -> IsDouble (fst (reciprocal (a', b'))) c -> (Rabs c < 2 ^ 127)%R ->
        NearestFloat c (fst (inv_complex_float reciprocal (a, b)))) /\
     (forall d, Word 64 (snd (reciprocal (a', b'))) -> IsDouble (snd (reciprocal (a', b'))) d -> (Rabs d < 2 ^ 127)%R ->
        NearestFloat d (snd (inv_complex_float reciprocal (a, b))))).
Proof.
  intros reciprocal a b x y Wa Wb Ha Hb. split.
  - intros [Lx Ly]. unfold inv_complex_float. cbn [fst snd]. now rewrite (lt32_small a x Wa Ha Lx), (lt32_small b y Wb Hb Ly).
  - intros L. exists (to64 a), (to64 b). split; [apply to64_word|]. split; [apply to64_word|].
    split; [now apply to64_exact|]. split; [now apply to64_exact|].
    assert (E : inv_complex_float reciprocal (a, b) = (to32 (fst (reciprocal (to64 a, to64 b))), to32 (snd (reciprocal (to64 a, to64 b))))).
    { unfold inv_complex_float. cbn [fst snd]. destruct L as [L|L].
      - now rewrite (lt32_large a x Wa Ha L).
      - rewrite (lt32_large b y Wb Hb L). now rewrite andb_false_r. }
    rewrite E. cbn [fst snd]. split; intros; now apply to32_nearest.
Qed.
Print Assumptions C358_float.
(** A large and a small part, and two small ones *)
Example C358_example : forall reciprocal, inv_complex_double reciprocal (one64, 0) = reciprocal (one64, 0)
  /\ inv_complex_double reciprocal (1, 2 ^ 50 - 1) = (0, 0)
  /\ inv_complex_float reciprocal (2 ^ 21, 2 ^ 21 - 2 ^ 31) = (0, 0).
Proof. intros. repeat split; vm_compute; reflexivity. Qed.

(** C359: numbers of Python.  Zero should give zero: refuted, the quotient is computed first. *)
Theorem C359_refuted : exists x y z, inv_number (PyInt x) = Err ZeroDivisionError /\ inv_number (PyFloat y) = Err ZeroDivisionError
  /\ inv_number (PyBool z) = Err ZeroDivisionError /\ x = 0 /\ IsDouble y 0 /\ z = false /\ inv_int x = 0 /\ inv_double y = 0.
Proof.
  exists 0, 0, false. repeat split; try (vm_compute; reflexivity). exists 0. split; [reflexivity|lra].
Qed.
Print Assumptions C359_refuted.
(** Others are inverted. *)
Theorem C359_nonzero_partial :
  (forall n, n <> 0 -> Z.abs n <= 2 ^ 53 -> exists w, inv_number (PyInt n) = Ok w /\ NearestDouble (1 / IZR n) w) /\
  (forall x v, Word 64 x -> IsDouble x v -> (/ 2 ^ 1024 < Rabs v)%R -> exists w, inv_number (PyFloat x) = Ok w /\ NearestDouble (1 / v) w) /\
  inv_number (PyBool true) = Ok one64 /\ IsDouble one64 1.
Proof.
  split; [|split; [|split; [reflexivity|apply one64_value]]].
  - intros n N L. exists (inv_int n). split; [|now apply C357_exact]. unfold inv_number. destruct (Z.eqb_spec n 0); [contradiction|reflexivity].
  - intros x v W H L. exists (div64 one64 x). split.
    + unfold inv_number. destruct (is_zero64 x) eqn:E; [|reflexivity]. exfalso.
      rewrite (proj1 (zero64 x v W H) E), Rabs_R0 in L. pose proof (Rinv_0_lt_compat _ (pow2_R_pos 1024)). lra.
    + pose proof (inv_double_nearest x v W H L) as N. unfold inv_double in N. destruct thresh64_value as [Wt Ht].
      rewrite (lt64_value _ _ (Rabs v) (/ 2 ^ 1024) (proj1 (fabs64_units x W)) Wt (fabs64_value x v W H) Ht) in N.
      rewrite Rlt_bool_false in N by lra. exact N.
Qed.
Print Assumptions C359_nonzero_partial.
Example C359_example : inv_number (PyInt 3) = Ok 4599676419421066581 /\ inv_number (PyFloat one64) = Ok one64.
Proof. split; vm_compute; reflexivity. Qed.
