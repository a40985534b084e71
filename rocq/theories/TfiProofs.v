(** Truncating a floating point word twice with the same tolerance. *)
From Coq Require Import ZArith List Bool Lia.
From Verif Require Import TruncModel TruncSpec TruncProofs TruncFloat TruncProps0.
Import ListNotations.
Open Scope Z_scope.

Section Twice.
  Variables (w mw ew unit : Z) (shifts : list Z) (scale : Z -> fval).
  Hypothesis w_eq : w = mw + ew + 1.
  Hypothesis mw_ge : 1 <= mw.
  Hypothesis ew_ge : 3 <= ew.
  Hypothesis unit_ge : 0 <= unit.
  Hypothesis smear_ok : forall e, 0 < e < 2 ^ (w - 1) ->
    smear w shifts e = 2 ^ (Z.log2 e + 1) - 1.
  Hypothesis smear_0 : smear w shifts 0 = 0.

  Notation tol := (int_tolerance w mw ew unit scale).
  Notation huge := (2 ^ (w - 2) - 1).

  Lemma pw1 : 2 ^ (w - 1) = 2 * 2 ^ (w - 2).
  Proof. rewrite (pow2_pred (w - 1)) by lia. do 2 f_equal. lia. Qed.

  (** The tolerance for a scale that is not negative, and for a negative one. *)
  Lemma tol_pos : forall err E p y, decode mw ew err = Fin E -> 0 <= E -> scale p = Fin y -> 0 <= y ->
    tol err p = Z.min (E * y / 2 ^ (2 * unit)) huge.
  Proof.
    intros err E p y HD HE Hs Hy. unfold int_tolerance. cbv zeta.
    rewrite (clamp_range w mw ew) by (try lia; eapply mul_to_int_range; eauto; lia).
    rewrite HD, Hs. unfold mul_to_int. cbv zeta.
    pose proof (pow2_pos (2 * unit) ltac:(lia)) as PU. pose proof (pow2_pos (w - 2) ltac:(lia)) as P2.
    pose proof pw1 as P1.
    rewrite Z.quot_div_nonneg by nia.
    assert (Q : 0 <= E * y / 2 ^ (2 * unit)) by (apply Z.div_pos; nia).
    set (q := E * y / 2 ^ (2 * unit)) in *.
    destruct (Z.leb_spec (- 2 ^ (w - 1)) q); [|lia].
    destruct (Z.ltb_spec q (2 ^ (w - 1))); cbn [andb].
    - destruct (Z.leb_spec 0 q); [|lia]. destruct (Z.ltb_spec q (2 ^ (w - 2))); cbn [andb]; lia.
    - destruct (Z.leb_spec 0 (- 2 ^ (w - 1))); [lia|]. cbn [andb]. lia.
  Qed.

  Lemma tol_neg : forall err E p y, decode mw ew err = Fin E -> 0 <= E -> scale p = Fin y -> y < 0 ->
    tol err p = 0 \/ tol err p = huge.
  Proof.
    intros err E p y HD HE Hs Hy. unfold int_tolerance. cbv zeta.
    rewrite (clamp_range w mw ew) by (try lia; eapply mul_to_int_range; eauto; lia).
    rewrite HD, Hs. unfold mul_to_int. cbv zeta.
    pose proof (pow2_pos (2 * unit) ltac:(lia)) as PU. pose proof (pow2_pos (w - 2) ltac:(lia)) as P2.
    pose proof pw1 as P1.
    replace (E * y) with (- (E * - y)) by lia.
    rewrite Z.quot_opp_l by lia. rewrite Z.quot_div_nonneg by nia.
    assert (Q : 0 <= E * - y / 2 ^ (2 * unit)) by (apply Z.div_pos; nia).
    set (q := E * - y / 2 ^ (2 * unit)) in *.
    destruct (Z.ltb_spec (- q) (2 ^ (w - 1))); [|lia].
    destruct (Z.leb_spec (- 2 ^ (w - 1)) (- q)); cbn [andb].
    - destruct (Z.leb_spec 0 (- q)).
      + destruct (Z.ltb_spec (- q) (2 ^ (w - 2))); cbn [andb]; lia.
      + cbn [andb]. now right.
    - destruct (Z.leb_spec 0 (- 2 ^ (w - 1))); [lia|]. cbn [andb]. now right.
  Qed.

  Lemma man_range : forall m t, 2 ^ mw <= m <= 2 ^ (mw + 1) -> 0 <= t < 2 ^ (w - 2) -> InRange w m t.
  Proof.
    intros m t Hm Ht. pose proof pw1. pose proof (pow2_pos mw ltac:(lia)).
    assert (2 ^ (mw + 1) <= 2 ^ (w - 2)) by (apply Z.pow_le_mono_r; lia).
    assert (4 <= 2 ^ (mw + 1)) by (change 4 with (2 ^ 2); apply Z.pow_le_mono_r; lia).
    unfold InRange. lia.
  Qed.

  (** A tolerance that reaches the top clears the mantissa. *)
  Lemma clears : forall m, 2 ^ mw <= m < 2 ^ (mw + 1) -> bit_truncate_w w shifts m huge = 0.
  Proof.
    intros m Hm. pose proof (pow2_pos mw ltac:(lia)).
    assert (P2 : 2 ^ (mw + 1) <= 2 ^ (w - 2)) by (apply Z.pow_le_mono_r; lia).
    assert (P1 : 2 ^ (mw + 1) = 2 * 2 ^ mw) by (apply pow2_S; lia).
    assert (P3 : 2 <= 2 ^ mw) by (change 2 with (2 ^ 1) at 1; apply Z.pow_le_mono_r; lia).
    assert (P4 : 2 * 2 ^ (mw + 1) <= 2 ^ (w - 2)).
    { rewrite <- pow2_S by lia. apply Z.pow_le_mono_r; lia. }
    assert (L : Z.log2 huge + 1 = w - 2).
    { rewrite Z.sub_1_r, Z.log2_pred_pow2 by lia. lia. }
    pose proof (granularity huge ltac:(lia)) as G. rewrite L in G.
    destruct (btw_nearest w shifts ltac:(lia) smear_ok m huge _ (man_range m huge ltac:(lia) ltac:(lia)) ltac:(lia) G)
      as [k [Ek [Nr _]]].
    set (r := bit_truncate_w w shifts m huge) in *. set (g := 2 ^ (w - 2)) in *.
    pose proof (Nr 0) as N0. assert (k = 0) by nia. subst k. lia.
  Qed.

  (** The leading bit alone is kept by a tolerance below it. *)
  Lemma keeps : forall t, 0 <= t < 2 ^ mw -> bit_truncate_w w shifts (2 ^ mw) t = 2 ^ mw.
  Proof.
    intros t Ht. pose proof (pow2_pos mw ltac:(lia)). pose proof pw1 as P1.
    assert (P2 : 2 ^ mw < 2 ^ (w - 2)) by (apply Z.pow_lt_mono_r; lia).
    assert (P3 : 2 <= 2 ^ mw) by (change 2 with (2 ^ 1) at 1; apply Z.pow_le_mono_r; lia).
    assert (P4 : 2 ^ (mw + 1) = 2 * 2 ^ mw) by (apply pow2_S; lia).
    destruct (Z.eq_dec t 0) as [->|Hn].
    - apply bit_truncate_zero; auto; lia.
    - pose proof (granularity t ltac:(lia)) as G. pose proof (Z.log2_nonneg t).
      destruct (btw_nearest w shifts ltac:(lia) smear_ok (2 ^ mw) t _ (man_range (2 ^ mw) t ltac:(lia) ltac:(lia)) ltac:(lia) G)
        as [k [Ek [Nr _]]].
      assert (L : Z.log2 t < mw) by (apply Z.log2_lt_pow2; lia).
      pose proof (Nr (2 ^ (mw - (Z.log2 t + 1)))) as N. rewrite <- Z.pow_add_r in N by lia.
      replace (mw - (Z.log2 t + 1) + (Z.log2 t + 1)) with mw in N by lia. lia.
  Qed.

  (** Rounding up to the next power of two needs a small tolerance. *)
  Lemma rounds_up : forall m t, 2 ^ mw <= m < 2 ^ (mw + 1) -> 0 <= t < 2 ^ (w - 2) ->
    bit_truncate_w w shifts m t = 2 ^ (mw + 1) -> 0 < t < 2 ^ (mw + 1).
  Proof.
    intros m t Hm Ht H. pose proof (pow2_pos mw ltac:(lia)). pose proof pw1 as P1.
    assert (P2 : 2 ^ (mw + 1) <= 2 ^ (w - 2)) by (apply Z.pow_le_mono_r; lia).
    pose proof (pow2_pos (mw + 1) ltac:(lia)) as P3.
    destruct (Z.eq_dec t 0) as [->|Hn].
    - rewrite bit_truncate_zero in H by (auto; lia). lia.
    - pose proof (granularity t ltac:(lia)) as G.
      destruct (btw_nearest w shifts ltac:(lia) smear_ok m t _ (man_range m t ltac:(lia) ltac:(lia)) ltac:(lia) G)
        as [k [Ek _]]. destruct G as [_ [G1 _]].
      rewrite H in Ek. clear H. set (g := 2 ^ (Z.log2 t + 1)) in *.
      set (X := 2 ^ (mw + 1)) in *. clearbody X g.
      assert (K1 : 1 <= k) by (clear - Ek P3 G1 Ht; nia). clear - Ek P3 G1 Ht Hn K1. nia.
  Qed.

  Definition twice_ok (p : Z) : bool :=
    match scale p with
    | Fin y => (y <=? 0) || match scale (p + 1) with Fin y' => (0 <=? y') && (2 * y' <=? y) | _ => false end
    | _ => false
    end.

  Definition zero_ok (E : Z) : bool :=
    match scale 0 with
    | Fin y => (y <? 0) || (E * y / 2 ^ (2 * unit) <? 2 ^ mw)
    | _ => false
    end.

  Notation trunc v e := (bit_truncate_fp w mw ew unit shifts scale v e).

  Theorem fp_twice : forall val err E,
    Word w val -> decode mw ew err = Fin E -> 0 <= E ->
    let p := (val / 2 ^ mw) mod 2 ^ ew in
    p + 2 < 2 ^ ew -> twice_ok p = true -> zero_ok E = true ->
    trunc (trunc val err) err = trunc val err.
  Proof.
    intros val err E Hv HD HE p Hp Hok Hz.
    pose proof (fp_closed w mw ew unit shifts scale w_eq mw_ge ltac:(lia) smear_ok smear_0 val err Hv) as HC.
    cbv zeta in HC. fold p in HC. specialize (HC ltac:(lia)).
    pose proof (pow2_pos mw ltac:(lia)) as Pm. pose proof (pow2_pos ew ltac:(lia)) as Pe.
    assert (P1 : 2 ^ (mw + 1) = 2 * 2 ^ mw) by (apply pow2_S; lia).
    set (f := val mod 2 ^ mw) in *.
    assert (Hf : 0 <= f < 2 ^ mw) by (apply Z.mod_pos_bound; lia).
    assert (Hp0 : 0 <= p < 2 ^ ew) by (apply Z.mod_pos_bound; lia).
    set (t := tol err p) in *.
    assert (Ht : 0 <= t < 2 ^ (w - 2)) by (eapply int_tolerance_range; eauto; lia).
    set (r := bit_truncate_w w shifts (f + 2 ^ mw) t) in *.
    pose proof (trunc_man w mw ew shifts w_eq mw_ge ltac:(lia) smear_ok smear_0 (f + 2 ^ mw) t ltac:(lia) Ht) as TM.
    cbv zeta in TM. fold r in TM. destruct TM as [_ Hr].
    set (p' := if r =? 0 then 0 else if r =? 2 ^ (mw + 1) then p + 1 else p) in *.
    set (f' := if r =? 0 then 0 else if r =? 2 ^ (mw + 1) then 0 else r - 2 ^ mw) in *.
    assert (Hf' : 0 <= f' < 2 ^ mw).
    { unfold f'. destruct (Z.eqb_spec r 0), (Z.eqb_spec r (2 ^ (mw + 1))); lia. }
    assert (Hp' : 0 <= p' /\ p' + 1 < 2 ^ ew).
    { unfold p'. destruct (Z.eqb_spec r 0), (Z.eqb_spec r (2 ^ (mw + 1))); lia. }
    destruct (word_fields w mw ew w_eq mw_ge ltac:(lia) (val <? 0) p' f' Hf' ltac:(lia)) as [F1 [F2 [F3 F4]]].
    rewrite HC.
    pose proof (fp_closed w mw ew unit shifts scale w_eq mw_ge ltac:(lia) smear_ok smear_0
                  (word w mw (val <? 0) p' f') err F4) as HC2.
    cbv zeta in HC2. rewrite F1, F2, F3 in HC2. rewrite HC2 by lia. clear HC2 HC.
    (* the mantissa of the second pass *)
    assert (K : bit_truncate_w w shifts (f' + 2 ^ mw) (tol err p') = f' + 2 ^ mw
                \/ (p' = 0 /\ f' = 0 /\ bit_truncate_w w shifts (f' + 2 ^ mw) (tol err p') = 0)).
    { unfold p', f'. destruct (Z.eqb_spec r 0) as [R0|R0].
      - unfold zero_ok in Hz. destruct (scale 0) as [y| |] eqn:Es; try discriminate.
        rewrite Z.add_0_l. apply orb_prop in Hz as [Hz|Hz]; [apply Z.ltb_lt in Hz|apply Z.ltb_lt in Hz].
        + destruct (tol_neg err E 0 y HD HE Es Hz) as [-> | ->].
          * left. apply keeps. lia.
          * right. repeat split; auto. apply clears. lia.
        + destruct (Z.lt_ge_cases y 0) as [Hy|Hy].
          * destruct (tol_neg err E 0 y HD HE Es Hy) as [-> | ->].
            -- left. apply keeps. lia.
            -- right. repeat split; auto. apply clears. lia.
          * left. apply keeps. rewrite (tol_pos err E 0 y HD HE Es Hy).
            pose proof (pow2_pos (w - 2) ltac:(lia)).
            assert (0 <= E * y / 2 ^ (2 * unit)) by (apply Z.div_pos; [nia|apply pow2_pos; lia]). lia.
      - left. destruct (Z.eqb_spec r (2 ^ (mw + 1))) as [R1|R1].
        + rewrite Z.add_0_l. apply keeps.
          pose proof (rounds_up (f + 2 ^ mw) t ltac:(lia) Ht R1) as Hu.
          unfold twice_ok in Hok. destruct (scale p) as [y| |] eqn:Es; try discriminate.
          pose proof (pow2_pos (w - 2) ltac:(lia)) as P2.
          assert (P3 : 2 ^ (mw + 1) < 2 ^ (w - 2)) by (apply Z.pow_lt_mono_r; lia).
          pose proof (pow2_pos (2 * unit) ltac:(lia)) as PU.
          destruct (Z.lt_ge_cases y 0) as [Hy|Hy].
          { destruct (tol_neg err E p y HD HE Es Hy) as [T|T]; fold t in T; lia. }
          pose proof (tol_pos err E p y HD HE Es Hy) as T. fold t in T.
          apply orb_prop in Hok as [Hok|Hok].
          { apply Z.leb_le in Hok. assert (y = 0) by lia. subst y.
            rewrite Z.mul_0_r, Z.div_0_l in T by lia. lia. }
          destruct (scale (p + 1)) as [y'| |] eqn:Es'; try discriminate.
          apply andb_prop in Hok as [O1 O2]. apply Z.leb_le in O1, O2.
          rewrite (tol_pos err E (p + 1) y' HD HE Es' O1).
          assert (Q : 0 <= E * y' / 2 ^ (2 * unit)) by (apply Z.div_pos; nia).
          assert (Q2 : 2 * (E * y' / 2 ^ (2 * unit)) <= E * y / 2 ^ (2 * unit)).
          { apply Z.div_le_lower_bound; [lia|].
            pose proof (Z.mul_div_le (E * y') (2 ^ (2 * unit)) PU). nia. }
          lia.
        + replace (r - 2 ^ mw + 2 ^ mw) with r by lia. fold t. unfold r.
          apply btw_idem; auto; try lia; apply man_range; fold r; lia. }
    destruct K as [K|[K1 [K2 K3]]].
    - rewrite K. destruct (Z.eqb_spec (f' + 2 ^ mw) 0); [lia|].
      destruct (Z.eqb_spec (f' + 2 ^ mw) (2 ^ (mw + 1))); [lia|].
      f_equal. lia.
    - rewrite K3, K1, K2. reflexivity.
  Qed.
End Twice.

Lemma twice32_all : forallb (fun n => let p := Z.of_nat n in (p =? 22) || twice_ok scale32 p) (seq 0 254) = true.
Proof. vm_compute. reflexivity. Qed.

Lemma twice64_all : forallb (fun n => let p := Z.of_nat n in (p =? 51) || twice_ok scale64 p) (seq 0 2046) = true.
Proof. vm_compute. reflexivity. Qed.

Lemma twice32_ok : forall p, 0 <= p < 254 -> p <> 22 -> twice_ok scale32 p = true.
Proof.
  intros p Hp Hn. pose proof twice32_all as H. rewrite forallb_forall in H.
  specialize (H (Z.to_nat p)). cbv zeta in H. rewrite Z2Nat.id in H by lia.
  apply orb_prop in H as [H|H]; auto.
  - apply Z.eqb_eq in H. lia.
  - apply in_seq. lia.
Qed.

Lemma twice64_ok : forall p, 0 <= p < 2046 -> p <> 51 -> twice_ok scale64 p = true.
Proof.
  intros p Hp Hn. pose proof twice64_all as H. rewrite forallb_forall in H.
  specialize (H (Z.to_nat p)). cbv zeta in H. rewrite Z2Nat.id in H by lia.
  apply orb_prop in H as [H|H]; auto.
  - apply Z.eqb_eq in H. lia.
  - apply in_seq. lia.
Qed.

(** No finite float reaches 2 ^ 277 units. *)
Lemma units_below : forall mw ew x V, 1 <= mw -> 0 < ew -> ieee_units mw ew x = Some V -> Z.abs V < 2 ^ (mw + 2 ^ ew - 2).
Proof.
  intros mw ew x V Hm He H. destruct (units_exponent mw ew x V Hm He H) as [Hp Hs]. cbv zeta in *.
  set (p := (x / 2 ^ mw) mod 2 ^ ew) in *.
  destruct (Z.lt_ge_cases p 1).
  - assert (p = 0) by lia. unfold ieee_units in H. fold p in H. rewrite H1 in H.
    destruct (Z.eqb_spec 0 (2 ^ ew - 1)); [discriminate|]. cbn [Z.eqb] in H. injection H as <-.
    assert (Hf : 0 <= x mod 2 ^ mw < 2 ^ mw) by (apply Z.mod_pos_bound, pow2_pos; lia).
    assert (2 ^ mw <= 2 ^ (mw + 2 ^ ew - 2)).
    { apply Z.pow_le_mono_r; [lia|]. assert (2 ^ 1 <= 2 ^ ew) by (apply Z.pow_le_mono_r; lia). lia. }
    destruct (x <? 0); lia.
  - eapply Z.lt_le_trans; [apply Hs; lia|]. apply Z.pow_le_mono_r; lia.
Qed.

Lemma float_twice : forall val err V E,
  Word 32 val -> Word 32 err ->
  ieee_units 23 8 val = Some V -> ieee_units 23 8 err = Some E -> 0 <= E ->
  Z.abs V < 2 ^ 276 -> ~ (2 ^ 44 <= Z.abs V < 2 ^ 45) ->
  bit_truncate_float (bit_truncate_float val err) err = bit_truncate_float val err.
Proof.
  intros val err V E Wv We HV HE H0 HB HN.
  destruct (units_exponent 23 8 val V ltac:(lia) ltac:(lia) HV) as [Hp Hs].
  change (2 ^ 8) with 256 in *.
  set (p := (val / 2 ^ 23) mod 256) in *.
  assert (Hp1 : p < 254).
  { destruct (Z.lt_ge_cases p 1); [lia|].
    specialize (Hs ltac:(lia)).
    assert (23 + p - 1 < 276); [|lia]. apply pow_lt_inv; lia. }
  assert (Hp2 : p <> 22).
  { intros E22. apply HN. rewrite E22 in Hs. apply Hs. lia. }
  apply (fp_twice 32 23 8 149 shifts32 scale32) with (E := E); auto; try lia.
  - exact smear32_half.
  - apply decode_units; auto; try lia.
  - change (2 ^ 8) with 256. fold p. lia.
  - change (2 ^ 8) with 256. fold p. apply twice32_ok; lia.
  - pose proof (units_below 23 8 err E ltac:(lia) ltac:(lia) HE) as B.
    change (23 + 2 ^ 8 - 2) with 277 in B.
    change (zero_ok 23 149 scale32 E) with ((E * 2 ^ 43 / 2 ^ 298 <? 2 ^ 23)).
    apply Z.ltb_lt. apply Z.div_lt_upper_bound; [apply pow2_pos; lia|].
    change (2 ^ 298 * 2 ^ 23) with (2 ^ 278 * 2 ^ 43).
    assert (2 ^ 277 < 2 ^ 278) by (apply Z.pow_lt_mono_r; lia).
    pose proof (pow2_pos 43 ltac:(lia)). nia.
Qed.

Lemma double_twice : forall val err V E,
  Word 64 val -> Word 64 err ->
  ieee_units 52 11 val = Some V -> ieee_units 52 11 err = Some E -> 0 <= E ->
  Z.abs V < 2 ^ 2097 -> ~ (2 ^ 102 <= Z.abs V < 2 ^ 103) ->
  bit_truncate_double (bit_truncate_double val err) err = bit_truncate_double val err.
Proof.
  intros val err V E Wv We HV HE H0 HB HN.
  destruct (units_exponent 52 11 val V ltac:(lia) ltac:(lia) HV) as [Hp Hs].
  change (2 ^ 11) with 2048 in *.
  set (p := (val / 2 ^ 52) mod 2048) in *.
  assert (Hp1 : p < 2046).
  { destruct (Z.lt_ge_cases p 1); [lia|].
    specialize (Hs ltac:(lia)).
    assert (52 + p - 1 < 2097); [|lia]. apply pow_lt_inv; [lia|].
    eapply Z.le_lt_trans; [apply Hs|exact HB]. }
  assert (Hp2 : p <> 51).
  { intros E22. apply HN. rewrite E22 in Hs. apply Hs. lia. }
  apply (fp_twice 64 52 11 1074 shifts64 scale64) with (E := E); auto; try lia.
  - exact smear64_half.
  - apply decode_units; auto; try lia.
  - change (2 ^ 11) with 2048. fold p. lia.
  - change (2 ^ 11) with 2048. fold p. apply twice64_ok; lia.
Qed.
