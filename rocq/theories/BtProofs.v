(** Lemmas for the truncation of arrays: words and the numbers of Flocq. *)
From Coq Require Import ZArith Reals List Bool Lia Lra Psatz.
From Flocq Require Import Core IEEE754.BinarySingleNaN IEEE754.Binary IEEE754.Bits Relative.
From Verif Require Import PyBase TruncModel TruncSpec TruncProofs TruncFloat TruncProps0 BtModel BtSpec.
Import ListNotations.
Open Scope Z_scope.

Section Words.
  Variables mw ew : Z.
  Hypothesis Hmw : 0 < mw.
  Hypothesis Hew : 0 < ew.
  Hypothesis Hmax : mw + 1 < 2 ^ (ew - 1).
  Let emin := 3 - 2 ^ (ew - 1) - (mw + 1).
  Let F := binary_float_of_bits mw ew Hmw Hew Hmax.

  Lemma word_mod : forall x, Word (mw + ew + 1) x ->
    x mod 2 ^ (mw + ew + 1) = if x <? 0 then x + 2 ^ (mw + ew + 1) else x.
  Proof.
    intros x W. unfold Word in W. replace (mw + ew + 1 - 1) with (mw + ew) in W by lia.
    assert (P : 2 ^ (mw + ew + 1) = 2 * 2 ^ (mw + ew)) by (apply pow2_S; lia).
    destruct (Z.ltb_spec x 0).
    - symmetry. apply Z.mod_unique with (q := -1); lia.
    - apply Z.mod_small. lia.
  Qed.

  Lemma split_word : forall x, Word (mw + ew + 1) x ->
    split_bits mw ew (x mod 2 ^ (mw + ew + 1)) = (x <? 0, x mod 2 ^ mw, (x / 2 ^ mw) mod 2 ^ ew).
  Proof.
    intros x W. unfold split_bits.
    assert (E : x mod 2 ^ (mw + ew + 1) = x - 2 ^ mw * (2 * 2 ^ ew * (x / 2 ^ (mw + ew + 1)))).
    { rewrite Z.mod_eq by (pose proof (pow2_pos (mw + ew + 1)); lia).
      replace (2 ^ (mw + ew + 1)) with (2 ^ mw * (2 * 2 ^ ew)) at 1; [lia|].
      rewrite pow2_S by lia. rewrite Z.pow_add_r by lia. lia. }
    pose proof (pow2_pos mw ltac:(lia)). pose proof (pow2_pos ew ltac:(lia)).
    f_equal; [f_equal|].
    - rewrite word_mod by exact W. unfold Word in W. replace (mw + ew + 1 - 1) with (mw + ew) in W by lia.
      assert (P : 2 ^ (mw + ew + 1) = 2 * 2 ^ (mw + ew)) by (apply pow2_S; lia).
      assert (P2 : 2 ^ (mw + ew) = 2 ^ mw * 2 ^ ew) by (apply Z.pow_add_r; lia).
      rewrite P2 in W, P.
      destruct (Z.ltb_spec x 0).
      + apply Zle_bool_true. rewrite P. lia.
      + apply Zle_bool_false. lia.
    - rewrite E. set (k := x / 2 ^ (mw + ew + 1)).
      replace (x - 2 ^ mw * (2 * 2 ^ ew * k)) with (x + (- (2 * 2 ^ ew * k)) * 2 ^ mw) by lia. apply Z.mod_add. lia.
    - rewrite E. set (k := x / 2 ^ (mw + ew + 1)).
      replace (x - 2 ^ mw * (2 * 2 ^ ew * k)) with (x + (- (2 * 2 ^ ew * k)) * 2 ^ mw) by lia.
      rewrite Z.div_add by lia.
      replace (x / 2 ^ mw + - (2 * 2 ^ ew * k)) with (x / 2 ^ mw + (- (2 * k)) * 2 ^ ew) by lia. apply Z.mod_add. lia.
  Qed.

  Lemma units_B2R : forall x, Word (mw + ew + 1) x ->
    match ieee_units mw ew x with
    | Some u => is_finite _ _ (F (x mod 2 ^ (mw + ew + 1))) = true
                /\ B2R _ _ (F (x mod 2 ^ (mw + ew + 1))) = (IZR u * bpow radix2 emin)%R
    | None => is_finite _ _ (F (x mod 2 ^ (mw + ew + 1))) = false
    end.
  Proof.
    intros x W. unfold F, binary_float_of_bits. rewrite is_finite_FF2B, B2R_FF2B.
    unfold binary_float_of_bits_aux. rewrite split_word by exact W. unfold ieee_units.
    set (p := (x / 2 ^ mw) mod 2 ^ ew). set (f := x mod 2 ^ mw).
    pose proof (pow2_pos mw ltac:(lia)). pose proof (pow2_pos ew ltac:(lia)).
    assert (0 <= f < 2 ^ mw) by (apply Z.mod_pos_bound; lia).
    assert (0 <= p < 2 ^ ew) by (apply Z.mod_pos_bound; lia).
    assert (1 < 2 ^ ew) by (apply Z.pow_gt_1; lia).
    destruct (Z.eqb_spec p (2 ^ ew - 1)) as [P1|P1].
    - rewrite Zeq_bool_false by lia. rewrite Zeq_bool_true by lia. destruct f; try reflexivity.
    - destruct (Z.eqb_spec p 0) as [P0|P0].
      + rewrite Zeq_bool_true by lia. destruct f as [|q|q] eqn:Ef; [|split; [reflexivity|]|lia].
        * split; [reflexivity|]. cbn [FF2R]. rewrite Z.mul_0_r. lra.
        * cbn [FF2R]. unfold F2R. cbn [Fnum Fexp]. f_equal. f_equal. destruct (x <? 0); cbn [cond_Zopp]; lia.
      + rewrite Zeq_bool_false by lia. rewrite Zeq_bool_false by lia.
        destruct (f + 2 ^ mw) as [|q|q] eqn:Ef; [lia| |lia].
        split; [reflexivity|]. cbn [FF2R]. unfold F2R. cbn [Fnum Fexp].
        replace (p + SpecFloat.emin (mw + 1) (2 ^ (ew - 1)) - 1) with ((p - 1) + emin)
          by (unfold emin, SpecFloat.emin; lia).
        rewrite bpow_plus. rewrite <- (IZR_Zpower radix2 (p - 1)) by lia.
        rewrite <- Rmult_assoc. f_equal. rewrite <- mult_IZR. f_equal. change (Z.pow_pos 2) with (Z.pow_pos radix2).
        change (radix_val radix2) with 2. destruct (x <? 0); cbn [cond_Zopp]; lia.
  Qed.

  Definition word_of (g : binary_float (mw + 1) (2 ^ (ew - 1))) : Z := wrap (mw + ew + 1) (bits_of_binary_float mw ew g).

  Lemma word_of_word : forall g, Word (mw + ew + 1) (word_of g) /\ F (word_of g mod 2 ^ (mw + ew + 1)) = g.
  Proof.
    intros g. pose proof (bits_of_binary_float_range mw ew Hmw Hew g) as B.
    assert (P : 2 ^ (mw + ew + 1) = 2 * 2 ^ (mw + ew)) by (apply pow2_S; lia).
    unfold word_of, wrap, Word. replace (mw + ew + 1 - 1) with (mw + ew) by lia.
    set (b := bits_of_binary_float mw ew g) in *.
    pose proof (Z.mod_pos_bound (b + 2 ^ (mw + ew)) (2 ^ (mw + ew + 1)) ltac:(lia)) as M.
    split; [lia|].
    replace ((_ - 2 ^ (mw + ew)) mod 2 ^ (mw + ew + 1)) with b.
    - apply binary_float_of_bits_of_binary_float.
    - rewrite Zminus_mod_idemp_l. replace (b + 2 ^ (mw + ew) - 2 ^ (mw + ew)) with b by lia.
      symmetry. apply Z.mod_small. lia.
  Qed.

  (** The rounded product. *)
  Hypothesis Hprec : Prec_gt_0 (mw + 1).
  Hypothesis Hpe : Prec_lt_emax (mw + 1) (2 ^ (ew - 1)).
  Let emax := 2 ^ (ew - 1).
  Lemma product : forall nan (a b : binary_float (mw + 1) emax),
    is_finite _ _ a = true -> is_finite _ _ b = true ->
    let g := Bmult (mw + 1) emax Hprec Hpe nan mode_NE a b in
    (is_finite _ _ g = true
     /\ (Rabs (B2R _ _ g) <= Rabs (B2R _ _ a * B2R _ _ b) * (1 + /2 * bpow radix2 (- mw)) + /2 * bpow radix2 emin)%R)
    \/ (is_finite _ _ g = false
        /\ (bpow radix2 emax <= Rabs (B2R _ _ a * B2R _ _ b) * (1 + /2 * bpow radix2 (- mw)) + /2 * bpow radix2 emin)%R).
  Proof.
    intros nan a b Fa Fb g. pose proof (Bmult_correct (mw + 1) emax Hprec Hpe nan mode_NE a b) as C. fold g in C.
    set (x := (B2R _ _ a * B2R _ _ b)%R) in *.
    assert (K : (Rabs (round radix2 (SpecFloat.fexp (mw + 1) emax) (round_mode mode_NE) x)
                 <= Rabs x * (1 + /2 * bpow radix2 (- mw)) + /2 * bpow radix2 emin)%R).
    { destruct (relative_error_N_FLT'_ex radix2 emin (mw + 1) Hprec (fun x => negb (Z.even x)) x)
        as (d & e & Hd & He & _ & E).
      unfold SpecFloat.fexp. change (SpecFloat.emin (mw + 1) emax) with emin.
      change (fun e : Z => Z.max (e - (mw + 1)) emin) with (FLT_exp emin (mw + 1)).
      cbn [round_mode]. rewrite E.
      assert (U : u_ro radix2 (mw + 1) = (/2 * bpow radix2 (- mw))%R).
      { unfold u_ro. f_equal. f_equal. lia. }
      rewrite U in Hd. set (u := (/2 * bpow radix2 (- mw))%R) in *.
      assert (0 < u)%R by (unfold u; pose proof (bpow_gt_0 radix2 (- mw)); lra).
      assert (D : (Rabs d <= u)%R).
      { eapply Rle_trans; [exact Hd|]. apply Rmult_le_reg_r with (1 + u)%R; [lra|].
        unfold Rdiv. rewrite Rmult_assoc, Rinv_l by lra. nra. }
      eapply Rle_trans; [apply Rabs_triang|]. apply Rplus_le_compat; [|exact He].
      rewrite Rabs_mult. apply Rmult_le_compat_l; [apply Rabs_pos|].
      eapply Rle_trans; [apply Rabs_triang|]. rewrite (Rabs_right 1) by lra. lra. }
    destruct (Rlt_bool_spec (Rabs (round radix2 (SpecFloat.fexp (mw + 1) emax) (round_mode mode_NE) x)) (bpow radix2 emax)).
    - destruct C as (C1 & C2 & _). left. rewrite C2, Fa, Fb. split; [reflexivity|]. rewrite C1. exact K.
    - right. split; [|lra].
      assert (Q : is_finite_FF (B2FF _ _ g) = false) by (rewrite C; reflexivity).
      rewrite <- Q. clear. generalize g. intros [| | |]; reflexivity.
  Qed.

  (** A product with a factor that is not finite is not finite. *)
  Lemma product_special : forall nan (a b : binary_float (mw + 1) emax),
    is_finite _ _ b = false -> is_finite _ _ (Bmult (mw + 1) emax Hprec Hpe nan mode_NE a b) = false.
  Proof.
    intros nan a b Fb. unfold Bmult. destruct a, b; cbn in Fb |- *; try discriminate;
      unfold build_nan; try (destruct (nan _ _) as [q Hq]; cbn; destruct q; try discriminate; reflexivity); reflexivity.
  Qed.
End Words.
