(** Lemmas about the bit truncation model. *)
From Coq Require Import ZArith List Bool Lia.
From Verif Require Import TruncModel TruncSpec.
Import ListNotations.
Open Scope Z_scope.

Lemma pow2_pos : forall p, 0 <= p -> 0 < 2 ^ p.
Proof. intros. apply Z.pow_pos_nonneg; lia. Qed.

Lemma pow2_S : forall p, 0 <= p -> 2 ^ (p + 1) = 2 * 2 ^ p.
Proof. intros. rewrite Z.pow_add_r by lia. lia. Qed.

Lemma pow2_pred : forall p, 0 < p -> 2 ^ p = 2 * 2 ^ (p - 1).
Proof. intros. rewrite <- pow2_S by lia. f_equal. lia. Qed.

Lemma wrap_id : forall w x, 0 < w -> - 2 ^ (w - 1) <= x < 2 ^ (w - 1) -> wrap w x = x.
Proof.
  intros w x Hw H. unfold wrap. rewrite Z.mod_small; [lia|].
  rewrite (pow2_pred w) by lia. lia.
Qed.

(** *** Bit smearing *)

Definition TopOnes (x k c : Z) : Prop :=
  (forall i, k < i -> Z.testbit x i = false)
  /\ (forall i, 0 <= i -> k - c < i <= k -> Z.testbit x i = true).

Lemma top_ones_start : forall x, 0 < x -> TopOnes x (Z.log2 x) 1.
Proof.
  intros x H. split.
  - intros i Hi. apply Z.bits_above_log2; lia.
  - intros i H0 Hi. replace i with (Z.log2 x) by lia. now apply Z.bit_log2.
Qed.

Lemma top_ones_step : forall x k c s, 0 <= s <= c -> TopOnes x k c ->
  TopOnes (Z.lor x (Z.shiftr x s)) k (c + s).
Proof.
  intros x k c s Hs [H1 H2]. split.
  - intros i Hi. rewrite Z.lor_spec.
    destruct (Z.lt_ge_cases i 0).
    + rewrite !Z.testbit_neg_r by lia. reflexivity.
    + rewrite Z.shiftr_spec by lia. rewrite !H1 by lia. reflexivity.
  - intros i H0 Hi. rewrite Z.lor_spec, Z.shiftr_spec by lia.
    destruct (Z.lt_ge_cases (k - c) i).
    + rewrite H2 by lia. reflexivity.
    + rewrite (H2 (i + s)) by lia. apply orb_true_r.
Qed.

Lemma top_ones_full : forall x k c, 0 <= k < c -> TopOnes x k c -> x = 2 ^ (k + 1) - 1.
Proof.
  intros x k c Hk [H1 H2].
  replace (2 ^ (k + 1) - 1) with (Z.ones (k + 1)) by (rewrite Z.ones_equiv; lia).
  apply Z.bits_inj'. intros i Hi.
  destruct (Z.lt_ge_cases i (k + 1)).
  - rewrite H2, Z.ones_spec_low by lia. reflexivity.
  - rewrite H1, Z.ones_spec_high by lia. reflexivity.
Qed.

Lemma smear32 : forall e, 0 < e < 2 ^ 32 ->
  smear 32 shifts32 e = 2 ^ (Z.log2 e + 1) - 1.
Proof.
  intros e He. unfold smear, shifts32, fold_left, shr.
  repeat match goal with |- context [?a mod 32] =>
    let b := eval compute in (a mod 32) in change (a mod 32) with b end.
  apply (top_ones_full _ _ 32).
  - pose proof (Z.log2_nonneg e). assert (Z.log2 e < 32); [|lia].
    apply Z.log2_lt_pow2; lia.
  - change 32 with (1 + 1 + 2 + 4 + 8 + 16).
    do 5 (apply top_ones_step; [lia|]). apply top_ones_start. lia.
Qed.

Lemma smear64 : forall e, 0 < e < 2 ^ 64 ->
  smear 64 shifts64 e = 2 ^ (Z.log2 e + 1) - 1.
Proof.
  intros e He. unfold smear, shifts64, fold_left, shr.
  repeat match goal with |- context [?a mod 64] =>
    let b := eval compute in (a mod 64) in change (a mod 64) with b end.
  apply (top_ones_full _ _ 64).
  - pose proof (Z.log2_nonneg e). assert (Z.log2 e < 64); [|lia].
    apply Z.log2_lt_pow2; lia.
  - change 64 with (1 + 1 + 2 + 4 + 8 + 16 + 32).
    do 6 (apply top_ones_step; [lia|]). apply top_ones_start. lia.
Qed.

(** *** Bit operations as arithmetic *)

Lemma lor_ones : forall x p, 0 <= p ->
  Z.lor x (2 ^ p - 1) = x / 2 ^ p * 2 ^ p + 2 ^ p - 1.
Proof.
  intros x p Hp.
  replace (2 ^ p - 1) with (Z.ones p) by (rewrite Z.ones_equiv; lia).
  assert (E : Z.lor x (Z.ones p) = Z.lor (Z.shiftl (Z.shiftr x p) p) (Z.ones p)).
  { apply Z.bits_inj'. intros i Hi. rewrite !Z.lor_spec.
    destruct (Z.lt_ge_cases i p).
    - rewrite Z.ones_spec_low by lia. now rewrite !orb_true_r.
    - rewrite Z.shiftl_spec by lia. rewrite Z.shiftr_spec by lia.
      now replace (i - p + p) with i by lia. }
  assert (L : Z.land (Z.shiftl (Z.shiftr x p) p) (Z.ones p) = 0).
  { apply Z.bits_inj'. intros i Hi. rewrite Z.land_spec, Z.bits_0.
    destruct (Z.lt_ge_cases i p).
    - rewrite Z.shiftl_spec_low by lia. reflexivity.
    - rewrite Z.ones_spec_high by lia. apply andb_false_r. }
  rewrite E, <- Z.lxor_lor, <- Z.add_nocarry_lxor by exact L.
  rewrite Z.shiftl_mul_pow2, Z.shiftr_div_pow2 by lia. rewrite Z.ones_equiv. lia.
Qed.

Lemma land_mask : forall x p, 0 <= p -> Z.land x (2 ^ p - 1) = x mod 2 ^ p.
Proof.
  intros. replace (2 ^ p - 1) with (Z.ones p) by (rewrite Z.ones_equiv; lia).
  now apply Z.land_ones.
Qed.

Lemma land_pow2 : forall q p, 0 <= p ->
  Z.land (q * 2 ^ p) (2 ^ p) = if Z.odd q then 2 ^ p else 0.
Proof.
  intros q p Hp. apply Z.bits_inj'. intros i Hi. rewrite Z.land_spec.
  rewrite <- Z.shiftl_mul_pow2 by lia.
  destruct (Z.eq_dec i p) as [->|Hn].
  - rewrite Z.pow2_bits_true by lia. rewrite Z.shiftl_spec by lia.
    rewrite Z.sub_diag, <- Z.bit0_odd, andb_true_r.
    destruct (Z.testbit q 0); [now rewrite Z.pow2_bits_true by lia|now rewrite Z.bits_0].
  - rewrite Z.pow2_bits_false by lia. rewrite andb_false_r.
    destruct (Z.odd q); [now rewrite Z.pow2_bits_false by lia|now rewrite Z.bits_0].
Qed.

(** *** Closed form of [bit_truncate_w] *)

(** Rounding to a multiple of [g = 2^p]. *)
Definition round_even (g v : Z) : Z :=
  let q := (v - g / 2) / g + 1 in
  if (2 * (v mod g) =? g) && Z.odd q then (q - 1) * g else q * g.

Section Width.
  Variables (w : Z) (shifts : list Z).
  Hypothesis w_ge : 3 <= w.
  Hypothesis smear_ok : forall e, 0 < e < 2 ^ (w - 1) ->
    smear w shifts e = 2 ^ (Z.log2 e + 1) - 1.
  Hypothesis smear_0 : smear w shifts 0 = 0.

  Lemma bit_truncate_zero : forall v, - 2 ^ (w - 1) <= v < 2 ^ (w - 1) - 1 ->
    bit_truncate_w w shifts v 0 = v.
  Proof.
    intros v Hv. unfold bit_truncate_w. rewrite smear_0.
    pose proof (pow2_pos (w - 2) ltac:(lia)).
    assert (E : 2 ^ (w - 1) = 2 * 2 ^ (w - 2)).
    { rewrite (pow2_pred (w - 1)) by lia. do 2 f_equal. lia. }
    assert (H4 : 2 <= 2 ^ (w - 2)).
    { change 2 with (2 ^ 1) at 1. apply Z.pow_le_mono_r; lia. }
    cbv zeta.
    replace (wrap w (0 + 1)) with 1 by (symmetry; apply wrap_id; lia).
    replace (wrap w (1 - 1)) with 0 by (symmetry; apply wrap_id; lia).
    unfold shr, shl. rewrite !(Z.mod_small 1 w) by lia.
    change (Z.shiftr 1 1) with 0. rewrite Z.land_0_r.
    change (Z.shiftl 0 1) with 0.
    replace (wrap w 0) with 0 by (symmetry; apply wrap_id; lia).
    change (0 =? 1) with false. change (0 =? 0) with true. cbv iota.
    replace (wrap w (0 * 1)) with 0 by (symmetry; apply wrap_id; lia).
    rewrite Z.land_0_r, Z.lor_0_r, !Z.sub_0_r.
    rewrite (wrap_id w v) by lia.
    rewrite (wrap_id w (v + 1)) by lia.
    replace (v + 1 - 1) with v by lia.
    rewrite !(wrap_id w v) by lia. reflexivity.
  Qed.

  Lemma bit_truncate_closed : forall v e,
    0 < e < 2 ^ (w - 2) ->
    - 2 ^ (w - 1) + e <= v -> v + e < 2 ^ (w - 1) ->
    bit_truncate_w w shifts v e = round_even (2 ^ (Z.log2 e + 1)) v.
  Proof.
    intros v e He Hv1 Hv2.
    assert (E : 2 ^ (w - 1) = 2 * 2 ^ (w - 2)).
    { rewrite (pow2_pred (w - 1)) by lia. do 2 f_equal. lia. }
    unfold bit_truncate_w. rewrite smear_ok by lia.
    set (p := Z.log2 e + 1). set (g := 2 ^ p).
    pose proof (Z.log2_nonneg e) as Hl0.
    pose proof (Z.log2_spec e ltac:(lia)) as Hl.
    assert (Hg2 : g = 2 * 2 ^ Z.log2 e) by (unfold g, p; now rewrite pow2_S).
    assert (Hge : e < g <= 2 * e).
    { unfold g, p. replace (Z.log2 e + 1) with (Z.succ (Z.log2 e)) by lia.
      split; [lia|]. rewrite Z.pow_succ_r by lia. lia. }
    assert (Hpw : p <= w - 2).
    { unfold p. assert (Z.log2 e < w - 2); [|lia]. apply Z.log2_lt_pow2; lia. }
    assert (Hgw : g <= 2 ^ (w - 2)) by (apply Z.pow_le_mono_r; lia).
    assert (Hgp : 0 < g) by lia.
    cbv zeta.
    replace (wrap w (g - 1 + 1)) with g by (rewrite wrap_id; lia).
    replace (wrap w (g - 1)) with (g - 1) by (rewrite wrap_id; lia).
    unfold shr. rewrite (Z.mod_small 1 w) by lia. rewrite Z.shiftr_div_pow2 by lia.
    change (2 ^ 1) with 2.
    assert (Hhalf : 2 * (g / 2) = g).
    { pose proof (Z.div_mod g 2 ltac:(lia)). pose proof (Z.mod_pos_bound g 2 ltac:(lia)). lia. }
    rewrite (wrap_id w (v - g / 2)) by lia.
    change (Z.lor (v - g / 2) (g - 1)) with (Z.lor (v - g / 2) (2 ^ p - 1)).
    rewrite lor_ones by (unfold p; lia). fold g.
    set (q0 := (v - g / 2) / g).
    pose proof (Z.div_mod (v - g / 2) g ltac:(lia)) as Hdm. fold q0 in Hdm.
    pose proof (Z.mod_pos_bound (v - g / 2) g Hgp) as Hmb.
    assert (Hq : - 2 ^ (w - 1) <= q0 * g + g - 1 /\ q0 * g + g < 2 ^ (w - 1)).
    { lia. }
    rewrite (wrap_id w (q0 * g + g - 1 + 1)) by lia.
    replace (e =? 0) with false by (symmetry; apply Z.eqb_neq; lia).
    rewrite Z.sub_0_r.
    replace (q0 * g + g - 1 + 1) with ((q0 + 1) * g) by lia.
    rewrite (wrap_id w ((q0 + 1) * g)) by lia.
    change (Z.land v (g - 1)) with (Z.land v (2 ^ p - 1)).
    rewrite land_mask by (unfold p; lia). fold g.
    unfold shl. rewrite (Z.mod_small 1 w) by lia. rewrite Z.shiftl_mul_pow2 by lia.
    change (2 ^ 1) with 2.
    pose proof (Z.mod_pos_bound v g Hgp) as Hvb.
    rewrite (wrap_id w (v mod g * 2)) by lia.
    unfold round_even. fold q0.
    rewrite (Z.mul_comm 2 (v mod g)).
    destruct (v mod g * 2 =? g) eqn:T; cbn [andb].
    - rewrite Z.mul_1_l. rewrite (wrap_id w g) by lia.
      assert (L : Z.land ((q0 + 1) * g) g = if Z.odd (q0 + 1) then g else 0).
      { unfold g. apply land_pow2. unfold p; lia. }
      rewrite L. destruct (Z.odd (q0 + 1)).
      + apply Z.eqb_eq in T. pose proof (Z.div_mod v g ltac:(lia)) as Hdv.
        assert (Hv : v - g / 2 = v / g * g) by lia.
        assert (Hq0 : q0 = v / g) by (unfold q0; rewrite Hv; apply Z.div_mul; lia).
        replace ((q0 + 1) * g - g) with ((q0 + 1 - 1) * g) by lia.
        apply wrap_id; [lia|]. replace (q0 + 1 - 1) with q0 by lia.
        rewrite Hq0, <- Hv. lia.
      + rewrite Z.sub_0_r. apply wrap_id; lia.
    - rewrite Z.mul_0_l. rewrite (wrap_id w 0) by lia. rewrite Z.land_0_r, Z.sub_0_r.
      apply wrap_id; lia.
  Qed.
End Width.

(** *** Properties of [round_even] *)

Lemma round_even_spec : forall p v, 1 <= p ->
  let g := 2 ^ p in
  NearestTieEven g v (round_even g v) /\ 2 * Z.abs (round_even g v - v) <= g.
Proof.
  intros p v Hp g.
  assert (Hg2 : g = 2 * 2 ^ (p - 1)) by (apply pow2_pred; lia).
  pose proof (pow2_pos (p - 1) ltac:(lia)) as Hpp.
  assert (Hg : 0 < g) by lia.
  assert (Hhalf : 2 * (g / 2) = g).
  { pose proof (Z.div_mod g 2 ltac:(lia)). pose proof (Z.mod_pos_bound g 2 ltac:(lia)). lia. }
  unfold round_even.
  set (h := g / 2) in *. set (q0 := (v - h) / g).
  pose proof (Z.div_mod (v - h) g ltac:(lia)) as Hdm. fold q0 in Hdm.
  pose proof (Z.mod_pos_bound (v - h) g Hg) as Hmb.
  set (m := (v - h) mod g) in *.
  pose proof (Z.div_mod v g ltac:(lia)) as Hdv.
  pose proof (Z.mod_pos_bound v g Hg) as Hvb.
  set (k := v / g) in *. set (r := v mod g) in *.
  assert (Hnear : forall a x, x = a * g -> 2 * Z.abs (v - x) <= g ->
     forall j, Z.abs (v - x) <= Z.abs (v - j * g)).
  { intros a x -> Ha j. destruct (Z.eq_dec a j) as [->|Hne]; [lia|].
    assert (g <= Z.abs (a * g - j * g)).
    { replace (a * g - j * g) with ((a - j) * g) by lia. rewrite Z.abs_mul.
      rewrite (Z.abs_eq g) by lia. assert (1 <= Z.abs (a - j)) by lia. nia. }
    lia. }
  destruct (2 * r =? g) eqn:T; cbn [andb].
  - apply Z.eqb_eq in T.
    assert (q0 = k). { assert (q0 * g + m = k * g) by lia. nia. }
    assert (m = 0) by nia.
    destruct (Z.odd (q0 + 1)) eqn:O.
    + replace (q0 + 1 - 1) with q0 by lia. split; [|lia].
      exists q0. split; [reflexivity|split].
      * apply (Hnear q0); auto. lia.
      * intros _. rewrite <- Z.negb_odd. rewrite Z.odd_add in O.
        destruct (Z.odd q0); auto.
    + split; [|lia]. exists (q0 + 1). split; [reflexivity|split].
      * apply (Hnear (q0 + 1)); auto. lia.
      * intros _. rewrite <- Z.negb_odd. now rewrite O.
  - apply Z.eqb_neq in T. split; [|lia].
    exists (q0 + 1). split; [reflexivity|split].
    + apply (Hnear (q0 + 1)); auto. lia.
    + intros Hb. exfalso. apply T.
      assert (Hc : v - (q0 + 1) * g = h \/ v - (q0 + 1) * g = - h) by lia.
      destruct Hc as [Hc|Hc].
      * assert (m = g) by lia. lia.
      * assert (Hv : v = q0 * g + h) by lia.
        assert (k = q0) by nia. nia.
Qed.

Lemma round_even_multiple : forall p v, 1 <= p -> exists k, round_even (2 ^ p) v = k * 2 ^ p.
Proof.
  intros p v Hp. destruct (round_even_spec p v Hp) as [[k [E _]] _]. eauto.
Qed.

Lemma round_even_fix : forall p k, 1 <= p -> round_even (2 ^ p) (k * 2 ^ p) = k * 2 ^ p.
Proof.
  intros p k Hp. destruct (round_even_spec p (k * 2 ^ p) Hp) as [[j [E [H _]]] _].
  specialize (H k). lia.
Qed.

Lemma granularity : forall e, 0 < e -> IsGranularity e (2 ^ (Z.log2 e + 1)).
Proof.
  intros e He. pose proof (Z.log2_spec e He). pose proof (Z.log2_nonneg e).
  rewrite <- Z.add_1_r in H. split; [|split].
  - exists (Z.log2 e + 1). lia.
  - lia.
  - rewrite pow2_S by lia. lia.
Qed.

Lemma granularity_unique : forall e g g', 0 < e ->
  IsGranularity e g -> IsGranularity e g' -> g = g'.
Proof.
  intros e g g' He [[p [Hp ->]] [H1 H2]] [[p' [Hp' ->]] [H1' H2']].
  f_equal. destruct (Z.lt_trichotomy p p') as [L|[L|L]]; auto.
  - assert (2 ^ (p + 1) <= 2 ^ p') by (apply Z.pow_le_mono_r; lia).
    rewrite pow2_S in H by lia. lia.
  - assert (2 ^ (p' + 1) <= 2 ^ p) by (apply Z.pow_le_mono_r; lia).
    rewrite pow2_S in H by lia. lia.
Qed.

Lemma smear32_half : forall e, 0 < e < 2 ^ (32 - 1) ->
  smear 32 shifts32 e = 2 ^ (Z.log2 e + 1) - 1.
Proof. intros. apply smear32. change (32 - 1) with 31 in H. lia. Qed.
Lemma smear64_half : forall e, 0 < e < 2 ^ (64 - 1) ->
  smear 64 shifts64 e = 2 ^ (Z.log2 e + 1) - 1.
Proof. intros. apply smear64. change (64 - 1) with 63 in H. lia. Qed.

(** Properties for either width. *)
Section WidthProps.
  Variables (w : Z) (shifts : list Z).
  Hypothesis w_ge : 3 <= w.
  Hypothesis smear_ok : forall e, 0 < e < 2 ^ (w - 1) ->
    smear w shifts e = 2 ^ (Z.log2 e + 1) - 1.
  Hypothesis smear_0 : smear w shifts 0 = 0.

  Definition InRange (v e : Z) : Prop :=
    0 <= e < 2 ^ (w - 2) /\ - 2 ^ (w - 1) + e <= v /\ v + e < 2 ^ (w - 1)
    /\ (e = 0 -> v < 2 ^ (w - 1) - 1).

  Lemma btw_bound : forall v e, InRange v e -> Z.abs (bit_truncate_w w shifts v e - v) <= e.
  Proof.
    intros v e [He [H1 [H2 H3]]]. destruct (Z.eq_dec e 0) as [->|Hn].
    - rewrite bit_truncate_zero by (auto; lia). lia.
    - rewrite bit_truncate_closed by (auto; lia).
      pose proof (Z.log2_nonneg e).
      destruct (round_even_spec (Z.log2 e + 1) v ltac:(lia)) as [_ B].
      destruct (granularity e ltac:(lia)) as [_ [G1 G2]]. lia.
  Qed.

  Lemma btw_nearest : forall v e g, InRange v e -> 0 < e -> IsGranularity e g ->
    NearestTieEven g v (bit_truncate_w w shifts v e).
  Proof.
    intros v e g [He [H1 [H2 H3]]] Hp G.
    rewrite (granularity_unique e g _ Hp G (granularity e Hp)).
    rewrite bit_truncate_closed by (auto; lia).
    pose proof (Z.log2_nonneg e). apply round_even_spec. lia.
  Qed.

  Lemma btw_idem : forall v e, InRange v e -> InRange (bit_truncate_w w shifts v e) e ->
    bit_truncate_w w shifts (bit_truncate_w w shifts v e) e = bit_truncate_w w shifts v e.
  Proof.
    intros v e R R'. destruct (Z.eq_dec e 0) as [->|Hn].
    - destruct R as [He [H1 [H2 H3]]].
      rewrite (bit_truncate_zero w shifts w_ge smear_0 v) by lia.
      apply bit_truncate_zero; auto; lia.
    - destruct R as [He [H1 [H2 H3]]], R' as [_ [H1' [H2' _]]].
      rewrite (bit_truncate_closed w shifts w_ge smear_ok
                 (bit_truncate_w w shifts v e)) by (auto; lia).
      rewrite bit_truncate_closed by (auto; lia).
      pose proof (Z.log2_nonneg e).
      destruct (round_even_multiple (Z.log2 e + 1) v ltac:(lia)) as [k ->].
      apply round_even_fix. lia.
  Qed.
End WidthProps.
