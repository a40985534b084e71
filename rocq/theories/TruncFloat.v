(** Lemmas about truncation of floating point words. *)
From Coq Require Import ZArith List Bool Lia.
From Verif Require Import TruncModel TruncSpec TruncProofs.
Import ListNotations.
Open Scope Z_scope.

Lemma testbit_sign : forall n x, 0 <= n -> - 2 ^ n <= x < 2 ^ n ->
  Z.testbit x n = (x <? 0).
Proof.
  intros n x Hn Hx. pose proof (pow2_pos n Hn).
  destruct (Z.ltb_spec x 0).
  - apply Z.testbit_true; auto. replace (x / 2 ^ n) with (-1); [reflexivity|].
    apply Z.div_unique with (r := x + 2 ^ n); lia.
  - apply Z.testbit_false; auto. now rewrite Z.div_small by lia.
Qed.

Lemma decode_units : forall mw ew x, 0 <= mw -> 0 <= ew ->
  Word (mw + ew + 1) x ->
  forall u, decode mw ew x = Fin u <-> ieee_units mw ew x = Some u.
Proof.
  intros mw ew x Hm He Hx u. unfold Word in Hx.
  replace (mw + ew + 1 - 1) with (mw + ew) in Hx by lia.
  unfold decode, ieee_units, exp_field, man_field, neg_bit.
  rewrite !land_mask, Z.shiftr_div_pow2, testbit_sign by lia.
  destruct (_ =? 2 ^ ew - 1).
  - destruct (_ =? 0); split; discriminate.
  - destruct (_ =? 0); split; intros H; inversion H; reflexivity.
Qed.

(** *** Counting leading zeros *)

Lemma popcount_high : forall (w n : nat), (n <= w)%nat ->
  popcount w (Z.lnot (2 ^ Z.of_nat n - 1)) = Z.of_nat w - Z.of_nat n.
Proof.
  intros w n H. unfold popcount.
  assert (Es : seq 0 w = (seq 0 n ++ seq n (w - n))%list).
  { change n with (0 + n)%nat at 2. rewrite <- seq_app. f_equal. lia. }
  rewrite Es, filter_app, app_length.
  replace (2 ^ Z.of_nat n - 1) with (Z.ones (Z.of_nat n)) by (rewrite Z.ones_equiv; lia).
  assert (F1 : forall l, (forall i, In i l -> (i < n)%nat) ->
    filter (fun i => Z.testbit (Z.lnot (Z.ones (Z.of_nat n))) (Z.of_nat i)) l = []).
  { induction l as [|i l IH]; intros Hl; simpl; auto.
    assert (i < n)%nat by (apply Hl; now left).
    rewrite Z.lnot_spec, Z.ones_spec_low by lia. simpl.
    apply IH. intros; apply Hl; now right. }
  assert (F2 : forall l, (forall i, In i l -> (n <= i)%nat) ->
    filter (fun i => Z.testbit (Z.lnot (Z.ones (Z.of_nat n))) (Z.of_nat i)) l = l).
  { induction l as [|i l IH]; intros Hl; simpl; auto.
    assert (n <= i)%nat by (apply Hl; now left).
    rewrite Z.lnot_spec, Z.ones_spec_high by lia. simpl.
    f_equal. apply IH. intros; apply Hl; now right. }
  rewrite F1, F2.
  - simpl. rewrite seq_length. lia.
  - intros i Hi. apply in_seq in Hi. lia.
  - intros i Hi. apply in_seq in Hi. lia.
Qed.

Section Fp.
  Variables (w mw ew unit : Z) (shifts : list Z) (scale : Z -> fval).
  Hypothesis w_eq : w = mw + ew + 1.
  Hypothesis mw_ge : 1 <= mw.
  Hypothesis ew_ge : 2 <= ew.
  Hypothesis unit_ge : 0 <= unit.
  Hypothesis smear_ok : forall e, 0 < e < 2 ^ (w - 1) ->
    smear w shifts e = 2 ^ (Z.log2 e + 1) - 1.
  Hypothesis smear_0 : smear w shifts 0 = 0.

  Lemma count_zeros_pos : forall x, 0 < x < 2 ^ (w - 1) ->
    count_zeros_w (Z.to_nat w) shifts x = w - (Z.log2 x + 1).
  Proof.
    intros x Hx. unfold count_zeros_w. rewrite Z2Nat.id by lia.
    rewrite smear_ok by lia. pose proof (Z.log2_nonneg x).
    assert (Z.log2 x < w - 1) by (apply Z.log2_lt_pow2; lia).
    rewrite <- (Z2Nat.id (Z.log2 x + 1)) by lia.
    rewrite popcount_high by lia. lia.
  Qed.

  Lemma count_zeros_0 : count_zeros_w (Z.to_nat w) shifts 0 = w.
  Proof.
    unfold count_zeros_w. rewrite Z2Nat.id by lia. rewrite smear_0.
    change 0 with (2 ^ Z.of_nat 0 - 1) at 1. rewrite popcount_high by lia. lia.
  Qed.

  (** The truncated mantissa is 0 or keeps its leading bit, possibly rounding
      up to the next power of two. *)
  Lemma trunc_man : forall m ie, 2 ^ mw <= m < 2 ^ (mw + 1) -> 0 <= ie < 2 ^ (w - 2) ->
    let r := bit_truncate_w w shifts m ie in
    Z.abs (r - m) <= ie /\ (r = 0 \/ 2 ^ mw <= r <= 2 ^ (mw + 1)).
  Proof.
    intros m ie Hm Hie r.
    assert (P1 : 2 ^ (w - 1) = 2 * 2 ^ (w - 2)).
    { rewrite (pow2_pred (w - 1)) by lia. do 2 f_equal. lia. }
    assert (P2 : 2 ^ (mw + 1) <= 2 ^ (w - 2)) by (apply Z.pow_le_mono_r; lia).
    pose proof (pow2_pos mw ltac:(lia)) as Pm.
    assert (R : InRange w m ie) by (unfold InRange; lia).
    split.
    - apply btw_bound; auto; lia.
    - destruct (Z.eq_dec ie 0) as [->|Hn].
      + unfold r. rewrite bit_truncate_zero by (auto; lia). lia.
      + pose proof (granularity ie ltac:(lia)) as G.
        destruct (btw_nearest w shifts ltac:(lia) smear_ok m ie _ R ltac:(lia) G)
          as [k [Ek [Nr _]]].
        fold r in Ek, Nr.
        pose proof (Z.log2_nonneg ie). set (p := Z.log2 ie + 1) in *.
        set (g := 2 ^ p) in *. assert (0 < g) by (apply pow2_pos; lia).
        destruct (Z.le_gt_cases p mw) as [Hp|Hp].
        * right. assert (Ed : 2 ^ mw = 2 ^ (mw - p) * g).
          { unfold g. rewrite <- Z.pow_add_r by lia. f_equal. lia. }
          assert (Eu : 2 ^ (mw + 1) = 2 ^ (mw + 1 - p) * g).
          { unfold g. rewrite <- Z.pow_add_r by lia. f_equal. lia. }
          pose proof (Nr (2 ^ (mw - p))). pose proof (Nr (2 ^ (mw + 1 - p))). lia.
        * destruct (Z.eq_dec p (mw + 1)) as [Hp1|Hp1].
          -- assert (g = 2 ^ (mw + 1)) by (unfold g; now rewrite Hp1).
             pose proof (Nr 0). pose proof (Nr 1).
             rewrite pow2_S in * by lia.
             assert (k = 0 \/ k = 1) by nia.
             destruct H4 as [-> | ->]; [left|right]; lia.
          -- assert (2 * 2 ^ (mw + 1) <= g).
             { unfold g. rewrite <- pow2_S by lia. apply Z.pow_le_mono_r; lia. }
             left. pose proof (Nr 0). rewrite Ek in *. assert (k = 0) by nia. subst k. lia.
  Qed.

  Lemma clamp_range : forall x, - 2 ^ (w - 1) <= x < 2 ^ (w - 1) ->
    (Z.land (x mod 2 ^ w) (2 ^ (w - 1) + 2 ^ (w - 2)) =? 0) = ((0 <=? x) && (x <? 2 ^ (w - 2))).
  Proof.
    intros x Hx.
    assert (P1 : 2 ^ (w - 1) = 2 * 2 ^ (w - 2)).
    { rewrite (pow2_pred (w - 1)) by lia. do 2 f_equal. lia. }
    assert (P0 : 2 ^ w = 4 * 2 ^ (w - 2)).
    { rewrite (pow2_pred w) by lia. lia. }
    pose proof (pow2_pos (w - 2) ltac:(lia)) as Pp.
    set (n := w - 2) in *. assert (Hn : 0 <= n) by (unfold n; lia).
    set (y := x mod 2 ^ w).
    assert (Hy : 0 <= y < 2 ^ w) by (apply Z.mod_pos_bound; lia).
    assert (E : Z.land y (2 ^ (w - 1) + 2 ^ n) = Z.shiftl (y / 2 ^ n) n).
    { replace (2 ^ (w - 1) + 2 ^ n) with (Z.shiftl 3 n)
        by (rewrite Z.shiftl_mul_pow2 by lia; lia).
      apply Z.bits_inj'. intros i Hi. rewrite Z.land_spec.
      destruct (Z.lt_ge_cases i n).
      - rewrite !Z.shiftl_spec_low by lia. apply andb_false_r.
      - rewrite !Z.shiftl_spec by lia.
        rewrite <- Z.shiftr_div_pow2, Z.shiftr_spec by lia.
        replace (i - n + n) with i by lia.
        destruct (Z.lt_ge_cases i (n + 2)).
        + assert (C : i - n = 0 \/ i - n = 1) by lia.
          destruct C as [-> | ->]; apply andb_true_r.
        + assert (Hz : Z.testbit y i = false).
          { destruct (Z.eq_dec y 0) as [->|]; [apply Z.bits_0|].
            apply Z.bits_above_log2; [lia|].
            assert (Z.log2 y < n + 2); [|lia]. apply Z.log2_lt_pow2; [lia|].
            rewrite Z.pow_add_r by lia. lia. }
          now rewrite Hz. }
    rewrite E, Z.shiftl_mul_pow2 by lia.
    assert (Q : 0 <= y / 2 ^ n) by (apply Z.div_pos; lia).
    destruct (Z.leb_spec 0 x); cbn [andb].
    - assert (y = x) by (apply Z.mod_small; lia).
      rewrite H0 in *. destruct (Z.ltb_spec x (2 ^ n)).
      + rewrite Z.div_small by lia. reflexivity.
      + apply Z.eqb_neq. assert (1 <= x / 2 ^ n).
        { apply Z.div_le_lower_bound; lia. } nia.
    - assert (Hyx : y = x + 2 ^ w).
      { unfold y. symmetry. apply Z.mod_unique with (q := -1); lia. }
      apply Z.eqb_neq. assert (1 <= y / 2 ^ n); [|nia].
      apply Z.div_le_lower_bound; lia.
  Qed.

  (** Word with given fields. *)
  Definition word (neg : bool) (p f : Z) : Z :=
    f + p * 2 ^ mw - (if neg then 2 ^ (w - 1) else 0).

  Lemma pow_w1 : 2 ^ (w - 1) = 2 ^ ew * 2 ^ mw.
  Proof. rewrite <- Z.pow_add_r by lia. f_equal. lia. Qed.

  Lemma word_fields : forall neg p f, 0 <= f < 2 ^ mw -> 0 <= p < 2 ^ ew ->
    (word neg p f / 2 ^ mw) mod 2 ^ ew = p
    /\ word neg p f mod 2 ^ mw = f
    /\ (word neg p f <? 0) = neg
    /\ Word w (word neg p f).
  Proof.
    intros neg p f Hf Hp. unfold word, Word. rewrite pow_w1.
    pose proof (pow2_pos mw ltac:(lia)). pose proof (pow2_pos ew ltac:(lia)).
    set (M := 2 ^ mw) in *. set (E := 2 ^ ew) in *.
    assert (B : p * M + f < E * M) by nia.
    destruct neg.
    - assert (D : (f + p * M - E * M) / M = p - E).
      { symmetry. apply Z.div_unique with (r := f); lia. }
      rewrite D. repeat split.
      + symmetry. apply Z.mod_unique with (q := -1); lia.
      + symmetry. apply Z.mod_unique with (q := p - E); lia.
      + apply Z.ltb_lt. lia.
      + nia.
      + nia.
    - rewrite Z.sub_0_r.
      assert (D : (f + p * M) / M = p).
      { symmetry. apply Z.div_unique with (r := f); lia. }
      rewrite D. repeat split.
      + apply Z.mod_small. lia.
      + symmetry. apply Z.mod_unique with (q := p); lia.
      + apply Z.ltb_ge. nia.
      + nia.
      + nia.
  Qed.

  Lemma word_decompose : forall x, Word w x ->
    x = word (x <? 0) ((x / 2 ^ mw) mod 2 ^ ew) (x mod 2 ^ mw).
  Proof.
    intros x Hx. unfold Word in Hx. unfold word.
    pose proof (pow2_pos mw ltac:(lia)). pose proof (pow2_pos ew ltac:(lia)).
    rewrite pow_w1 in *.
    pose proof (Z.div_mod x (2 ^ mw) ltac:(lia)) as D.
    pose proof (Z.mod_pos_bound x (2 ^ mw) ltac:(lia)) as B.
    set (M := 2 ^ mw) in *. set (E := 2 ^ ew) in *.
    set (q := x / M) in *. set (f := x mod M) in *.
    assert (Hq : - E <= q < E) by nia.
    destruct (Z.ltb_spec x 0).
    - assert (q < 0) by nia.
      assert (Hm : q mod E = q + E).
      { symmetry. apply Z.mod_unique with (q := -1); lia. }
      rewrite Hm. lia.
    - assert (0 <= q) by nia. rewrite Z.mod_small by lia. lia.
  Qed.

  Lemma lor_low : forall f k n, 0 <= n -> 0 <= f < 2 ^ n ->
    Z.lor f (k * 2 ^ n) = f + k * 2 ^ n.
  Proof.
    intros f k n Hn Hf.
    assert (L : Z.land f (k * 2 ^ n) = 0).
    { apply Z.bits_inj'. intros i Hi. rewrite Z.land_spec, Z.bits_0.
      rewrite <- Z.shiftl_mul_pow2 by lia.
      destruct (Z.lt_ge_cases i n).
      - rewrite Z.shiftl_spec_low by lia. apply andb_false_r.
      - assert (Hz : Z.testbit f i = false).
        { destruct (Z.eq_dec f 0) as [->|]; [apply Z.bits_0|].
          apply Z.bits_above_log2; [lia|].
          assert (Z.log2 f < n); [|lia]. apply Z.log2_lt_pow2; lia. }
        now rewrite Hz. }
    rewrite <- Z.lxor_lor, <- Z.add_nocarry_lxor by exact L. reflexivity.
  Qed.

  (** Reassembly on the last statement of the function. *)
  Lemma assemble : forall (neg : bool) p f, 0 <= f < 2 ^ mw -> 0 <= p < 2 ^ ew ->
    Z.lor f (shl w (Z.lor p (shl w (if neg then -1 else 0) ew)) mw) = word neg p f.
  Proof.
    intros neg p f Hf Hp. unfold shl. rewrite !Z.mod_small by lia.
    rewrite !Z.shiftl_mul_pow2 by lia.
    pose proof (pow2_pos mw ltac:(lia)). pose proof (pow2_pos ew ltac:(lia)).
    pose proof pow_w1 as PW.
    assert (1 < 2 ^ mw) by (change 1 with (2 ^ 0); apply Z.pow_lt_mono_r; lia).
    unfold word. destruct neg.
    - rewrite (wrap_id w (-1 * 2 ^ ew)) by (try lia; nia).
      rewrite lor_low by lia.
      rewrite wrap_id by (try lia; nia).
      rewrite lor_low by lia. nia.
    - rewrite (wrap_id w (0 * 2 ^ ew)) by (try lia; nia).
      rewrite Z.mul_0_l, Z.lor_0_r.
      rewrite wrap_id by (try lia; nia).
      rewrite lor_low by lia. nia.
  Qed.

  (** The clamped integer tolerance used for exponent field [p]. *)
  Definition int_tolerance (err p : Z) : Z :=
    let ie := mul_to_int w unit (decode mw ew err) (scale p) in
    if Z.land (ie mod 2 ^ w) (2 ^ (w - 1) + 2 ^ (w - 2)) =? 0 then ie
    else 2 ^ (w - 2) - 1.

  Lemma mul_to_int_range : forall a b,
    - 2 ^ (w - 1) <= mul_to_int w unit a b < 2 ^ (w - 1).
  Proof.
    intros a b. pose proof (pow2_pos (w - 1) ltac:(lia)). unfold mul_to_int.
    destruct a, b; try lia.
    destruct ((_ <=? _) && _) eqn:E; [|lia].
    apply andb_true_iff in E as [E1 E2]. apply Z.leb_le in E1. apply Z.ltb_lt in E2. lia.
  Qed.

  Lemma int_tolerance_range : forall err p, 0 <= int_tolerance err p < 2 ^ (w - 2).
  Proof.
    intros. unfold int_tolerance. cbv zeta.
    rewrite clamp_range by apply mul_to_int_range.
    pose proof (pow2_pos (w - 2) ltac:(lia)).
    destruct ((0 <=? _) && _) eqn:E; [|lia].
    apply andb_true_iff in E as [E1 E2]. apply Z.leb_le in E1. apply Z.ltb_lt in E2. lia.
  Qed.

  (** Result of the function in terms of the truncated mantissa. *)
  Lemma fp_closed : forall val err, Word w val ->
    let p := (val / 2 ^ mw) mod 2 ^ ew in
    let f := val mod 2 ^ mw in
    let r := bit_truncate_w w shifts (f + 2 ^ mw) (int_tolerance err p) in
    p + 1 < 2 ^ ew ->
    bit_truncate_fp w mw ew unit shifts scale val err =
    word (val <? 0)
      (if r =? 0 then 0 else if r =? 2 ^ (mw + 1) then p + 1 else p)
      (if r =? 0 then 0 else if r =? 2 ^ (mw + 1) then 0 else r - 2 ^ mw).
  Proof.
    intros val err Hv p f r Hp. unfold bit_truncate_fp. cbv zeta.
    unfold shr. rewrite !(Z.mod_small mw w), !(Z.mod_small ew w) by lia.
    rewrite Z.shiftr_shiftr, !Z.shiftr_div_pow2 by lia.
    rewrite !land_mask by lia.
    fold p. fold f. fold (int_tolerance err p). fold r.
    pose proof (pow2_pos mw ltac:(lia)) as Pm. pose proof (pow2_pos ew ltac:(lia)) as Pe.
    assert (P1 : 2 ^ (mw + 1) = 2 * 2 ^ mw) by (apply pow2_S; lia).
    assert (Hf : 0 <= f < 2 ^ mw) by (apply Z.mod_pos_bound; lia).
    assert (Hp0 : 0 <= p < 2 ^ ew) by (apply Z.mod_pos_bound; lia).
    destruct (trunc_man (f + 2 ^ mw) (int_tolerance err p) ltac:(lia)
                (int_tolerance_range err p)) as [_ Hr]. fold r in Hr.
    assert (Hs : val / 2 ^ (mw + ew) = if val <? 0 then -1 else 0).
    { unfold Word in Hv. replace (w - 1) with (mw + ew) in Hv by lia.
      destruct (Z.ltb_spec val 0).
      - symmetry. apply Z.div_unique with (r := val + 2 ^ (mw + ew)); lia.
      - apply Z.div_small. lia. }
    rewrite Hs.
    assert (P4 : 2 ^ (mw + 1) < 2 ^ (w - 1)) by (apply Z.pow_lt_mono_r; lia).
    destruct (Z.eqb_spec r 0) as [R0|R0].
    - rewrite R0, count_zeros_0, Z.eqb_refl.
      assert (Sh : forall s, shl w 0 s = 0).
      { intros s. unfold shl. rewrite Z.shiftl_0_l. apply wrap_id; lia. }
      rewrite Sh. rewrite Z.mod_0_l by lia.
      apply assemble; lia.
    - assert (Hr' : 2 ^ mw <= r <= 2 ^ (mw + 1)) by lia.
      rewrite count_zeros_pos by lia.
      replace (w - (Z.log2 r + 1) =? w) with false.
      2:{ symmetry. apply Z.eqb_neq. pose proof (Z.log2_nonneg r). lia. }
      destruct (Z.eqb_spec r (2 ^ (mw + 1))) as [Rt|Rt].
      + rewrite Rt. rewrite Z.log2_pow2 by lia.
        replace (w - (mw + 1 + 1) - ew) with (-1) by lia.
        assert (Sh : shl w (2 ^ (mw + 1)) (-1) = 0).
        { unfold shl. replace (-1 mod w) with (w - 1).
          2:{ apply Z.mod_unique with (q := -1); lia. }
          rewrite Z.shiftl_mul_pow2 by lia. unfold wrap.
          replace (2 ^ (mw + 1) * 2 ^ (w - 1) + 2 ^ (w - 1))
            with (2 ^ (w - 1) + 2 ^ mw * 2 ^ w).
          2:{ rewrite (pow2_pred w) by lia. lia. }
          rewrite Z.mod_add by (pose proof (pow2_pos w ltac:(lia)); lia).
          rewrite Z.mod_small; [lia|]. rewrite (pow2_pred w) by lia. lia. }
        rewrite Sh, Z.mod_0_l by lia.
        replace (p - -1) with (p + 1) by lia.
        apply assemble; lia.
      + assert (Hl : Z.log2 r = mw).
        { apply Z.log2_unique; [lia|]. rewrite <- Z.add_1_r. lia. }
        rewrite Hl. replace (w - (mw + 1) - ew) with 0 by lia.
        rewrite Z.sub_0_r.
        assert (Sh : shl w r 0 = r).
        { unfold shl. rewrite Z.mod_0_l by lia. rewrite Z.shiftl_0_r.
          apply wrap_id; lia. }
        rewrite Sh.
        assert (Hm : r mod 2 ^ mw = r - 2 ^ mw).
        { symmetry. apply Z.mod_unique with (q := 1); lia. }
        rewrite Hm. apply assemble; lia.
  Qed.

  Definition expo_units (p : Z) : Z := 2 ^ Z.max 0 (p - 1).

  Theorem fp_error_bound : forall val err V E,
    Word w val ->
    ieee_units mw ew val = Some V ->
    let p := (val / 2 ^ mw) mod 2 ^ ew in
    p + 2 < 2 ^ ew ->
    int_tolerance err p * expo_units p <= E ->
    exists R, ieee_units mw ew (bit_truncate_fp w mw ew unit shifts scale val err) = Some R
      /\ Z.abs (R - V) <= E
      /\ (bit_truncate_fp w mw ew unit shifts scale val err <? 0) = (val <? 0).
  Proof.
    intros val err V E Hv HV p Hp HE.
    pose proof (fp_closed val err Hv) as HC. cbv zeta in HC. fold p in HC.
    rewrite HC by lia. clear HC.
    unfold ieee_units in HV. fold p in HV.
    set (f := val mod 2 ^ mw) in *.
    set (r := bit_truncate_w w shifts (f + 2 ^ mw) (int_tolerance err p)).
    pose proof (pow2_pos mw ltac:(lia)) as Pm. pose proof (pow2_pos ew ltac:(lia)) as Pe.
    assert (P1 : 2 ^ (mw + 1) = 2 * 2 ^ mw) by (apply pow2_S; lia).
    assert (Hf : 0 <= f < 2 ^ mw) by (apply Z.mod_pos_bound; lia).
    assert (Hp0 : 0 <= p < 2 ^ ew) by (apply Z.mod_pos_bound; lia).
    destruct (trunc_man (f + 2 ^ mw) (int_tolerance err p) ltac:(lia)
                (int_tolerance_range err p)) as [Hb Hr]. fold r in Hb, Hr.
    replace (p =? 2 ^ ew - 1) with false in HV by (symmetry; apply Z.eqb_neq; lia).
    set (s := if val <? 0 then -1 else 1) in *.
    assert (Habs : forall x, Z.abs (s * x) = Z.abs x).
    { intros x. unfold s. destruct (val <? 0); lia. }
    set (ie := int_tolerance err p) in *.
    assert (Hie : 0 <= ie) by apply int_tolerance_range.
    set (p' := if r =? 0 then 0 else if r =? 2 ^ (mw + 1) then p + 1 else p).
    set (f' := if r =? 0 then 0 else if r =? 2 ^ (mw + 1) then 0 else r - 2 ^ mw).
    assert (Hf' : 0 <= f' < 2 ^ mw).
    { unfold f'. destruct (Z.eqb_spec r 0), (Z.eqb_spec r (2 ^ (mw + 1))); lia. }
    assert (Hp' : 0 <= p' < 2 ^ ew /\ p' <> 2 ^ ew - 1).
    { unfold p'. destruct (Z.eqb_spec r 0), (Z.eqb_spec r (2 ^ (mw + 1))); lia. }
    destruct (word_fields (val <? 0) p' f' Hf' (proj1 Hp')) as [F1 [F2 [F3 F4]]].
    unfold ieee_units. rewrite F1, F2, F3. fold s.
    replace (p' =? 2 ^ ew - 1) with false by (symmetry; apply Z.eqb_neq; lia).
    (* the value of the result, in units *)
    set (U := if p' =? 0 then f' else (f' + 2 ^ mw) * 2 ^ (p' - 1)).
    exists (s * U). split.
    { unfold U. destruct (p' =? 0); reflexivity. }
    split; [|reflexivity].
    set (V0 := if p =? 0 then f else (f + 2 ^ mw) * 2 ^ (p - 1)).
    assert (EV : V = s * V0).
    { unfold V0. destruct (p =? 0); now inversion HV. }
    subst V. rewrite <- Z.mul_sub_distr_l, Habs.
    unfold expo_units in HE.
    destruct (Z.eqb_spec p 0) as [Zp|Zp].
    - (* denormal *)
      rewrite Zp in HE. change (Z.max 0 (0 - 1)) with 0 in HE.
      change (2 ^ 0) with 1 in HE.
      assert (EU : U = if r =? 0 then 0 else r - 2 ^ mw).
      { unfold U, p', f'. rewrite Zp. destruct (Z.eqb_spec r 0); [reflexivity|].
        destruct (Z.eqb_spec r (2 ^ (mw + 1))).
        - change (0 + 1 =? 0) with false. cbv iota.
          change (0 + 1 - 1) with 0. change (2 ^ 0) with 1. lia.
        - reflexivity. }
      rewrite EU. unfold V0. destruct (Z.eqb_spec r 0); lia.
    - rewrite Z.max_r in HE by lia.
      pose proof (pow2_pos (p - 1) ltac:(lia)) as Pp.
      assert (EU : U = r * 2 ^ (p - 1)).
      { unfold U, p', f'. destruct (Z.eqb_spec r 0) as [R0|R0].
        - rewrite R0. reflexivity.
        - destruct (Z.eqb_spec r (2 ^ (mw + 1))) as [R1|R1].
          + replace (p + 1 =? 0) with false by (symmetry; apply Z.eqb_neq; lia).
            rewrite R1, P1. replace (p + 1 - 1) with (p - 1 + 1) by lia.
            rewrite pow2_S by lia. lia.
          + replace (p =? 0) with false by (symmetry; apply Z.eqb_neq; lia). lia. }
      rewrite EU. unfold V0. 
      replace (r * 2 ^ (p - 1) - (f + 2 ^ mw) * 2 ^ (p - 1))
        with ((r - (f + 2 ^ mw)) * 2 ^ (p - 1)) by lia.
      rewrite Z.abs_mul, (Z.abs_eq (2 ^ (p - 1))) by lia. nia.
  Qed.

  Theorem fp_zero_tolerance : forall val err,
    Word w val ->
    let p := (val / 2 ^ mw) mod 2 ^ ew in
    p + 1 < 2 ^ ew ->
    int_tolerance err p = 0 ->
    bit_truncate_fp w mw ew unit shifts scale val err = val.
  Proof.
    intros val err Hv p Hp H0.
    pose proof (fp_closed val err Hv) as HC. cbv zeta in HC. fold p in HC.
    rewrite HC by lia. clear HC. rewrite H0.
    pose proof (pow2_pos mw ltac:(lia)) as Pm.
    assert (P1 : 2 ^ (mw + 1) = 2 * 2 ^ mw) by (apply pow2_S; lia).
    assert (Hf : 0 <= val mod 2 ^ mw < 2 ^ mw) by (apply Z.mod_pos_bound; lia).
    assert (P4 : 2 ^ (mw + 1) < 2 ^ (w - 1)) by (apply Z.pow_lt_mono_r; lia).
    rewrite bit_truncate_zero by (auto; lia).
    destruct (Z.eqb_spec (val mod 2 ^ mw + 2 ^ mw) 0); [lia|].
    destruct (Z.eqb_spec (val mod 2 ^ mw + 2 ^ mw) (2 ^ (mw + 1))); [lia|].
    replace (val mod 2 ^ mw + 2 ^ mw - 2 ^ mw) with (val mod 2 ^ mw) by lia.
    symmetry. now apply word_decompose.
  Qed.

  (** A checkable condition on the scale factor that makes the clamped
      tolerance sound. *)
  Definition scale_ok (p : Z) : bool :=
    match scale p with
    | Fin y =>
        if 0 <=? y then y * expo_units p <=? 2 ^ (2 * unit)
        else 2 ^ (w - 2 + p) * Z.abs y <=? 2 ^ (2 * unit)
    | _ => false
    end.

  Lemma scale_ok_sound : forall err E p, 0 <= p ->
    decode mw ew err = Fin E -> 0 <= E -> scale_ok p = true ->
    int_tolerance err p * expo_units p <= E.
  Proof.
    intros err E p Hp HD HE Hok. unfold int_tolerance. cbv zeta.
    rewrite clamp_range by apply mul_to_int_range.
    unfold scale_ok in Hok. destruct (scale p) as [y| |]; try discriminate.
    rewrite HD. unfold mul_to_int.
    pose proof (pow2_pos (w - 1) ltac:(lia)) as P1.
    pose proof (pow2_pos (w - 2) ltac:(lia)) as P2.
    pose proof (pow2_pos (2 * unit) ltac:(lia)) as PU.
    assert (PX : 0 < expo_units p) by (apply pow2_pos; lia).
    set (D := 2 ^ (2 * unit)) in *. set (q := Z.quot (E * y) D).
    destruct (Z.leb_spec 0 y).
    - apply Z.leb_le in Hok.
      assert (Hq : 0 <= q /\ q * D <= E * y).
      { unfold q. rewrite Z.quot_div_nonneg by nia.
        split; [apply Z.div_pos; nia|].
        pose proof (Z.mul_div_le (E * y) D PU). lia. }
      (* whatever branch, the tolerance is at most q *)
      assert (Hle : forall t, 0 <= t <= q -> t * expo_units p <= E).
      { intros t Ht. assert (t * expo_units p * D <= E * D); [|nia].
        assert (t * D <= E * y) by nia. nia. }
      destruct ((- 2 ^ (w - 1) <=? q) && (q <? 2 ^ (w - 1))) eqn:C.
      + destruct ((0 <=? q) && (q <? 2 ^ (w - 2))) eqn:C2.
        * apply Hle. lia.
        * apply Hle. apply andb_false_iff in C2 as [C2|C2];
            [apply Z.leb_gt in C2|apply Z.ltb_ge in C2]; lia.
      + replace (0 <=? - 2 ^ (w - 1)) with false by (symmetry; apply Z.leb_gt; lia).
        cbn [andb]. apply Hle.
        assert (P3 : 2 ^ (w - 1) = 2 * 2 ^ (w - 2)).
        { rewrite (pow2_pred (w - 1)) by lia. do 2 f_equal. lia. }
        apply andb_false_iff in C as [C|C];
          [apply Z.leb_gt in C|apply Z.ltb_ge in C]; lia.
    - apply Z.leb_le in Hok.
      assert (Hq : q = - (E * (- y) / D)).
      { unfold q. replace (E * y) with (- (E * - y)) by lia.
        rewrite Z.quot_opp_l by lia. rewrite Z.quot_div_nonneg by nia. reflexivity. }
      assert (Hd : 0 <= E * - y / D) by (apply Z.div_pos; nia).
      destruct (Z.eq_dec (E * - y / D) 0) as [Z0|Z0].
      + assert (q = 0) by lia. rewrite H0.
        replace (- 2 ^ (w - 1) <=? 0) with true by (symmetry; apply Z.leb_le; lia).
        replace (0 <? 2 ^ (w - 1)) with true by (symmetry; apply Z.ltb_lt; lia).
        cbn [andb]. replace (0 <? 2 ^ (w - 2)) with true by (symmetry; apply Z.ltb_lt; lia).
        simpl. lia.
      + assert (HED : D <= E * - y).
        { pose proof (Z.mul_div_le (E * - y) D PU). nia. }
        assert (Hneg : (if (- 2 ^ (w - 1) <=? q) && (q <? 2 ^ (w - 1)) then q
                        else - 2 ^ (w - 1)) < 0).
        { destruct ((_ <=? _) && _); lia. }
        replace (0 <=? (if (- 2 ^ (w - 1) <=? q) && (q <? 2 ^ (w - 1)) then q
                        else - 2 ^ (w - 1))) with false by (symmetry; apply Z.leb_gt; lia).
        cbn [andb].
        rewrite Z.pow_add_r in Hok by lia.
        assert (Hx : expo_units p <= 2 ^ p).
        { unfold expo_units. apply Z.pow_le_mono_r; lia. }
        rewrite Z.abs_neq in Hok by lia.
        assert (2 ^ (w - 2) * 2 ^ p * - y <= E * - y) by lia.
        assert (2 ^ (w - 2) * 2 ^ p <= E) by nia. nia.
  Qed.

  Lemma scale_ok_zero : forall err p,
    decode mw ew err = Fin 0 -> (exists y, scale p = Fin y) -> int_tolerance err p = 0.
  Proof.
    intros err p HD [y Hy]. unfold int_tolerance, mul_to_int. rewrite HD, Hy.
    rewrite Z.mul_0_l, Z.quot_0_l by (pose proof (pow2_pos (2 * unit) ltac:(lia)); lia).
    pose proof (pow2_pos (w - 1) ltac:(lia)).
    replace (- 2 ^ (w - 1) <=? 0) with true by (symmetry; apply Z.leb_le; lia).
    replace (0 <? 2 ^ (w - 1)) with true by (symmetry; apply Z.ltb_lt; lia).
    cbn [andb]. cbv zeta. rewrite Z.mod_0_l by (pose proof (pow2_pos w ltac:(lia)); lia).
    reflexivity.
  Qed.
End Fp.
