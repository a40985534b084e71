(** Lemmas for the truncation of arrays: tolerances that are not finite, absolute values, products of words. *)
From Coq Require Import ZArith Reals List Bool Lia Lra Psatz.
From Flocq Require Import Core IEEE754.BinarySingleNaN IEEE754.Binary IEEE754.Bits.
From Verif Require Import PyBase TruncModel TruncSpec TruncProofs TruncFloat TruncProps0 BtModel BtSpec BtProofs.
Import ListNotations.
Open Scope Z_scope.

Section Zeroed.
  Variables (w mw ew unit : Z) (shifts : list Z) (scale : Z -> fval).
  Hypothesis w_eq : w = mw + ew + 1.
  Hypothesis mw_ge : 1 <= mw.
  Hypothesis ew_ge : 3 <= ew.
  Hypothesis unit_ge : 0 <= unit.
  Hypothesis smear_ok : forall e, 0 < e < 2 ^ (w - 1) -> smear w shifts e = 2 ^ (Z.log2 e + 1) - 1.
  Hypothesis smear_0 : smear w shifts 0 = 0.

  Lemma decode_none : forall x, Word w x -> ieee_units mw ew x = None -> forall u, decode mw ew x <> Fin u.
  Proof.
    intros x W N u D. rewrite w_eq in W. apply decode_units in D; [congruence|lia|lia|exact W].
  Qed.

  Lemma fp_zeroed : forall val err, Word w val -> Word w err -> ieee_units mw ew err = None ->
    bit_truncate_fp w mw ew unit shifts scale val err = if val <? 0 then - 2 ^ (w - 1) else 0.
  Proof.
    intros val err Hv We Ne. unfold bit_truncate_fp. cbv zeta.
    unfold shr. rewrite !(Z.mod_small mw w), !(Z.mod_small ew w) by lia.
    rewrite Z.shiftr_shiftr, !Z.shiftr_div_pow2 by lia.
    rewrite !land_mask by lia.
    pose proof (pow2_pos mw ltac:(lia)) as Pm. pose proof (pow2_pos ew ltac:(lia)) as Pe.
    assert (P1 : 2 ^ (mw + 1) = 2 * 2 ^ mw) by (apply pow2_S; lia).
    set (f := val mod 2 ^ mw).
    assert (Hf : 0 <= f < 2 ^ mw) by (apply Z.mod_pos_bound; lia).
    assert (Hs : val / 2 ^ (mw + ew) = if val <? 0 then -1 else 0).
    { unfold Word in Hv. replace (w - 1) with (mw + ew) in Hv by lia.
      destruct (Z.ltb_spec val 0).
      - symmetry. apply Z.div_unique with (r := val + 2 ^ (mw + ew)); lia.
      - apply Z.div_small. lia. }
    rewrite Hs.
    assert (M : forall s, mul_to_int w unit (decode mw ew err) s = - 2 ^ (w - 1)).
    { intros s. pose proof (decode_none err We Ne) as D. destruct (decode mw ew err) as [u| |]; [|reflexivity..].
      now elim (D u). }
    rewrite M.
    pose proof (pow2_pos (w - 1) ltac:(lia)).
    rewrite (clamp_range w mw ew w_eq mw_ge ltac:(lia)) by lia.
    replace ((0 <=? - 2 ^ (w - 1)) && (- 2 ^ (w - 1) <? 2 ^ (w - 2))) with false
      by (symmetry; apply andb_false_iff; left; apply Z.leb_gt; lia).
    assert (P2 : 2 ^ (mw + 1) < 2 ^ (w - 2)) by (apply Z.pow_lt_mono_r; lia).
    assert (P3 : 2 ^ (w - 2) = 2 * 2 ^ (w - 3)).
    { rewrite (pow2_pred (w - 2)) by lia. do 2 f_equal. lia. }
    assert (P3' : 2 ^ (w - 1) = 2 * 2 ^ (w - 2)).
    { rewrite (pow2_pred (w - 1)) by lia. do 2 f_equal. lia. }
    pose proof (pow2_pos (w - 3) ltac:(lia)).
    set (e := 2 ^ (w - 2) - 1).
    destruct (trunc_man w mw ew shifts w_eq mw_ge ltac:(lia) smear_ok smear_0 (f + 2 ^ mw) e ltac:(lia) ltac:(unfold e; lia))
      as [_ Hr].
    assert (R0 : bit_truncate_w w shifts (f + 2 ^ mw) e = 0).
    { destruct (btw_nearest w shifts ltac:(lia) smear_ok (f + 2 ^ mw) e (2 ^ (w - 2))) as (k & Ek & _).
      - unfold InRange, e. lia.
      - unfold e. lia.
      - split; [exists (w - 2); lia|]. unfold e. lia.
      - destruct Hr as [Hr|Hr]; [exact Hr|]. rewrite Ek in Hr. assert (k = 0 \/ k < 0 \/ 0 < k) as [->|[K|K]] by lia; nia. }
    rewrite R0.
    rewrite (count_zeros_0 w mw ew shifts w_eq mw_ge ltac:(lia) smear_0), Z.eqb_refl.
    assert (Sh : forall s, shl w 0 s = 0).
    { intros s. unfold shl. rewrite Z.shiftl_0_l. apply wrap_id; lia. }
    rewrite Sh. rewrite Z.mod_0_l by lia.
    rewrite (assemble w mw ew w_eq mw_ge ltac:(lia)) by lia.
    unfold word. destruct (val <? 0); lia.
  Qed.

  Lemma fabs_generic : forall x, Word w x ->
    Word w (Z.land x (2 ^ (w - 1) - 1))
    /\ ieee_units mw ew (Z.land x (2 ^ (w - 1) - 1)) = option_map Z.abs (ieee_units mw ew x).
  Proof.
    intros x W.
    pose proof (word_decompose w mw ew shifts w_eq mw_ge ltac:(lia) smear_ok x W) as D.
    pose proof (pow2_pos mw ltac:(lia)) as Pm. pose proof (pow2_pos ew ltac:(lia)) as Pe.
    assert (Hf : 0 <= x mod 2 ^ mw < 2 ^ mw) by (apply Z.mod_pos_bound; lia).
    assert (Hp : 0 <= (x / 2 ^ mw) mod 2 ^ ew < 2 ^ ew) by (apply Z.mod_pos_bound; lia).
    set (p := (x / 2 ^ mw) mod 2 ^ ew) in *. set (f := x mod 2 ^ mw) in *.
    assert (PW : 2 ^ (w - 1) = 2 ^ ew * 2 ^ mw) by (rewrite <- Z.pow_add_r by lia; f_equal; lia).
    assert (Ft : Z.land x (2 ^ (w - 1) - 1) = word w mw false p f).
    { rewrite land_mask by lia. rewrite D. unfold word. rewrite PW.
      rewrite Z.sub_0_r.
      assert (0 <= f + p * 2 ^ mw < 2 ^ ew * 2 ^ mw) by nia.
      destruct (x <? 0).
      - symmetry. apply Z.mod_unique with (q := -1); lia.
      - rewrite Z.sub_0_r. apply Z.mod_small. lia. }
    destruct (word_fields w mw ew w_eq mw_ge ltac:(lia) false p f Hf Hp) as [F1 [F2 [F3 F4]]].
    rewrite Ft. split; [exact F4|].
    unfold ieee_units. rewrite F1, F2, F3. fold p f.
    destruct (p =? 2 ^ ew - 1); [reflexivity|].
    pose proof (Z.pow_nonneg 2 (p - 1) ltac:(lia)).
    destruct (p =? 0); cbn [option_map]; f_equal; destruct (x <? 0); nia.
  Qed.
End Zeroed.

Lemma float_zeroed : forall val err, Word 32 val -> Word 32 err -> ieee_units 23 8 err = None ->
  bit_truncate_float val err = if val <? 0 then - 2 ^ 31 else 0.
Proof.
  intros. unfold bit_truncate_float.
  apply (fp_zeroed 32 23 8 149 shifts32); try assumption; try lia; try exact smear32_half; reflexivity.
Qed.
Lemma double_zeroed : forall val err, Word 64 val -> Word 64 err -> ieee_units 52 11 err = None ->
  bit_truncate_double val err = if val <? 0 then - 2 ^ 63 else 0.
Proof.
  intros. unfold bit_truncate_double.
  apply (fp_zeroed 64 52 11 1074 shifts64); try assumption; try lia; try exact smear64_half; reflexivity.
Qed.
Lemma fabs32_units : forall x, Word 32 x ->
  Word 32 (fabs32 x) /\ ieee_units 23 8 (fabs32 x) = option_map Z.abs (ieee_units 23 8 x).
Proof.
  intros x W. unfold fabs32. apply (fabs_generic 32 23 8 shifts32); try assumption; try lia; exact smear32_half.
Qed.
Lemma fabs64_units : forall x, Word 64 x ->
  Word 64 (fabs64 x) /\ ieee_units 52 11 (fabs64 x) = option_map Z.abs (ieee_units 52 11 x).
Proof.
  intros x W. unfold fabs64. apply (fabs_generic 64 52 11 shifts64); try assumption; try lia; exact smear64_half.
Qed.

(** Words as numbers of Flocq *)
Lemma units32 : forall x, Word 32 x ->
  match ieee_units 23 8 x with
  | Some u => is_finite _ _ (f32 x) = true /\ B2R _ _ (f32 x) = (IZR u * bpow radix2 (-149))%R
  | None => is_finite _ _ (f32 x) = false
  end.
Proof. intros x W. exact (units_B2R 23 8 eq_refl eq_refl eq_refl x W). Qed.
Lemma units64 : forall x, Word 64 x ->
  match ieee_units 52 11 x with
  | Some u => is_finite _ _ (f64 x) = true /\ B2R _ _ (f64 x) = (IZR u * bpow radix2 (-1074))%R
  | None => is_finite _ _ (f64 x) = false
  end.
Proof. intros x W. exact (units_B2R 52 11 eq_refl eq_refl eq_refl x W). Qed.
Lemma w32_f32 : forall g, Word 32 (w32 g) /\ f32 (w32 g) = g.
Proof. intros g. exact (word_of_word 23 8 eq_refl eq_refl eq_refl g). Qed.
Lemma w64_f64 : forall g, Word 64 (w64 g) /\ f64 (w64 g) = g.
Proof. intros g. exact (word_of_word 52 11 eq_refl eq_refl eq_refl g). Qed.

Lemma mul32_word : forall a b, Word 32 (mul32 a b).
Proof. intros. apply w32_f32. Qed.
Lemma mul64_word : forall a b, Word 64 (mul64 a b).
Proof. intros. apply w64_f64. Qed.

Lemma mul32_special : forall a b, Word 32 b -> ieee_units 23 8 b = None -> ieee_units 23 8 (mul32 a b) = None.
Proof.
  intros a b Wb N. pose proof (units32 b Wb) as U. rewrite N in U.
  pose proof (units32 (mul32 a b) (mul32_word a b)) as M.
  destruct (ieee_units 23 8 (mul32 a b)); [|reflexivity]. destruct M as [M _].
  unfold mul32 in M. rewrite (proj2 (w32_f32 _)) in M.
  exact (False_ind _ (eq_true_false_abs _ M (product_special 23 8 _ _ _ (f32 a) (f32 b) U))).
Qed.
Lemma mul64_special : forall a b, Word 64 b -> ieee_units 52 11 b = None -> ieee_units 52 11 (mul64 a b) = None.
Proof.
  intros a b Wb N. pose proof (units64 b Wb) as U. rewrite N in U.
  pose proof (units64 (mul64 a b) (mul64_word a b)) as M.
  destruct (ieee_units 52 11 (mul64 a b)); [|reflexivity]. destruct M as [M _].
  unfold mul64 in M. rewrite (proj2 (w64_f64 _)) in M.
  exact (False_ind _ (eq_true_false_abs _ M (product_special 52 11 _ _ _ (f64 a) (f64 b) U))).
Qed.

Lemma IsFloat_B2R : forall x v, Word 32 x -> IsFloat x v -> is_finite _ _ (f32 x) = true /\ B2R _ _ (f32 x) = v.
Proof.
  intros x v W (u & U & ->). pose proof (units32 x W) as H. rewrite U in H. destruct H as [H1 H2]. split; [exact H1|].
  rewrite H2. unfold Rdiv. f_equal. change (-149) with (- (149)). rewrite bpow_opp. f_equal.
  rewrite <- (IZR_Zpower radix2) by lia. rewrite pow_IZR. f_equal.
Qed.
Lemma IsDouble_B2R : forall x v, Word 64 x -> IsDouble x v -> is_finite _ _ (f64 x) = true /\ B2R _ _ (f64 x) = v.
Proof.
  intros x v W (u & U & ->). pose proof (units64 x W) as H. rewrite U in H. destruct H as [H1 H2]. split; [exact H1|].
  rewrite H2. unfold Rdiv. f_equal. change (-1074) with (- (1074)). rewrite bpow_opp. f_equal.
  rewrite <- (IZR_Zpower radix2) by lia. rewrite pow_IZR. f_equal.
Qed.
