(** Final lemmas in the exact form used by TruncProps. *)
From Coq Require Import ZArith List Bool Lia.
From Verif Require Import TruncModel TruncSpec TruncProofs TruncFloat.
Import ListNotations.
Open Scope Z_scope.

Lemma bt32_unfold : forall v e, bit_truncate v e = bit_truncate_w 32 shifts32 v e.
Proof. reflexivity. Qed.

Lemma bt64_unfold : forall v e, bit_truncate_64 v e = bit_truncate_w 64 shifts64 v e.
Proof. reflexivity. Qed.

Lemma bt32_bound : forall v e, 0 <= e < 2 ^ 30 -> - 2 ^ 31 + e <= v -> v + e < 2 ^ 31 ->
  v < 2 ^ 31 - 1 -> Z.abs (bit_truncate v e - v) <= e.
Proof.
  intros. apply btw_bound; try lia.
  - exact smear32_half.
  - reflexivity.
  - unfold InRange. change (2 ^ (32 - 2)) with (2 ^ 30). change (2 ^ (32 - 1)) with (2 ^ 31). lia.
Qed.

Lemma bt64_bound : forall v e, 0 <= e < 2 ^ 62 -> - 2 ^ 63 + e <= v -> v + e < 2 ^ 63 ->
  v < 2 ^ 63 - 1 -> Z.abs (bit_truncate_64 v e - v) <= e.
Proof.
  intros. apply btw_bound; try lia.
  - exact smear64_half.
  - reflexivity.
  - unfold InRange. change (2 ^ (64 - 2)) with (2 ^ 62). change (2 ^ (64 - 1)) with (2 ^ 63). lia.
Qed.

Lemma bt32_nearest : forall v e g, 0 < e < 2 ^ 30 -> - 2 ^ 31 + e <= v -> v + e < 2 ^ 31 ->
  IsGranularity e g -> NearestTieEven g v (bit_truncate v e).
Proof.
  intros. apply btw_nearest; try lia; auto.
  - exact smear32_half.
  - unfold InRange. change (2 ^ (32 - 2)) with (2 ^ 30). change (2 ^ (32 - 1)) with (2 ^ 31). lia.
Qed.

Lemma bt64_nearest : forall v e g, 0 < e < 2 ^ 62 -> - 2 ^ 63 + e <= v -> v + e < 2 ^ 63 ->
  IsGranularity e g -> NearestTieEven g v (bit_truncate_64 v e).
Proof.
  intros. apply btw_nearest; try lia; auto.
  - exact smear64_half.
  - unfold InRange. change (2 ^ (64 - 2)) with (2 ^ 62). change (2 ^ (64 - 1)) with (2 ^ 63). lia.
Qed.

Lemma bt_zero : forall v,
  (- 2 ^ 31 <= v < 2 ^ 31 - 1 -> bit_truncate v 0 = v)
  /\ (- 2 ^ 63 <= v < 2 ^ 63 - 1 -> bit_truncate_64 v 0 = v).
Proof.
  intros v. split; intros H; apply bit_truncate_zero; try lia; auto.
Qed.

Lemma bt32_stays : forall v e, 0 < e < 2 ^ 30 -> - 2 ^ 30 <= v <= 2 ^ 30 ->
  - 2 ^ 30 <= bit_truncate v e <= 2 ^ 30.
Proof.
  intros v e He Hv. pose proof (granularity e ltac:(lia)) as G.
  pose proof (bt32_nearest v e _ ltac:(lia) ltac:(lia) ltac:(lia) G) as H.
  generalize dependent (bit_truncate v e). intros r [q [Ek [Nr _]]].
  assert (L : Z.log2 e + 1 <= 30).
  { assert (Z.log2 e < 30); [|lia]. apply Z.log2_lt_pow2; lia. }
  pose proof (Z.log2_nonneg e).
  assert (E30 : 2 ^ 30 = 2 ^ (30 - (Z.log2 e + 1)) * 2 ^ (Z.log2 e + 1)).
  { rewrite <- Z.pow_add_r by lia. f_equal. lia. }
  pose proof (Nr (2 ^ (30 - (Z.log2 e + 1)))). pose proof (Nr (- 2 ^ (30 - (Z.log2 e + 1)))).
  clear - Hv Ek E30 H0 H1 H. lia.
Qed.

Lemma inrange32 : forall v e, 0 < e < 2 ^ 30 -> - 2 ^ 30 <= v <= 2 ^ 30 -> InRange 32 v e.
Proof.
  intros. unfold InRange. change (2 ^ (32 - 2)) with (2 ^ 30). change (2 ^ (32 - 1)) with (2 ^ 31). lia.
Qed.

Lemma bt32_idem : forall v e, 0 <= e < 2 ^ 30 -> - 2 ^ 30 <= v <= 2 ^ 30 ->
  bit_truncate (bit_truncate v e) e = bit_truncate v e.
Proof.
  intros v e He Hv. destruct (Z.eq_dec e 0) as [Hz|Hn].
  - rewrite Hz. rewrite (proj1 (bt_zero v)) by lia. apply (proj1 (bt_zero v)). lia.
  - pose proof (bt32_stays v e ltac:(lia) Hv) as C. rewrite (bt32_unfold (bit_truncate v e) e), (bt32_unfold v e).
    rewrite (bt32_unfold v e) in C.
    apply btw_idem; [lia|exact smear32_half|reflexivity| |]; apply inrange32; try assumption; lia.
Qed.

Lemma bt64_stays : forall v e, 0 < e < 2 ^ 62 -> - 2 ^ 62 <= v <= 2 ^ 62 ->
  - 2 ^ 62 <= bit_truncate_64 v e <= 2 ^ 62.
Proof.
  intros v e He Hv. pose proof (granularity e ltac:(lia)) as G.
  pose proof (bt64_nearest v e _ ltac:(lia) ltac:(lia) ltac:(lia) G) as H.
  generalize dependent (bit_truncate_64 v e). intros r [q [Ek [Nr _]]].
  assert (L : Z.log2 e + 1 <= 62).
  { assert (Z.log2 e < 62); [|lia]. apply Z.log2_lt_pow2; lia. }
  pose proof (Z.log2_nonneg e).
  assert (E30 : 2 ^ 62 = 2 ^ (62 - (Z.log2 e + 1)) * 2 ^ (Z.log2 e + 1)).
  { rewrite <- Z.pow_add_r by lia. f_equal. lia. }
  pose proof (Nr (2 ^ (62 - (Z.log2 e + 1)))). pose proof (Nr (- 2 ^ (62 - (Z.log2 e + 1)))).
  clear - Hv Ek E30 H0 H1 H. lia.
Qed.

Lemma inrange64 : forall v e, 0 < e < 2 ^ 62 -> - 2 ^ 62 <= v <= 2 ^ 62 -> InRange 64 v e.
Proof.
  intros. unfold InRange. change (2 ^ (64 - 2)) with (2 ^ 62). change (2 ^ (64 - 1)) with (2 ^ 63). lia.
Qed.

Lemma bt64_idem : forall v e, 0 <= e < 2 ^ 62 -> - 2 ^ 62 <= v <= 2 ^ 62 ->
  bit_truncate_64 (bit_truncate_64 v e) e = bit_truncate_64 v e.
Proof.
  intros v e He Hv. destruct (Z.eq_dec e 0) as [Hz|Hn].
  - rewrite Hz. rewrite (proj2 (bt_zero v)) by lia. apply (proj2 (bt_zero v)). lia.
  - pose proof (bt64_stays v e ltac:(lia) Hv) as C. rewrite (bt64_unfold (bit_truncate_64 v e) e), (bt64_unfold v e).
    rewrite (bt64_unfold v e) in C.
    apply btw_idem; [lia|exact smear64_half|reflexivity| |]; apply inrange64; try assumption; lia.
Qed.

Lemma granularity_exists : forall e, 0 < e -> exists g, IsGranularity e g.
Proof. intros e H. eexists. now apply granularity. Qed.

(** *** Floats *)

Definition scale32 (p : Z) : fval := decode 23 8 (fast_pow (150 - p)).
Definition scale64 (p : Z) : fval := decode 52 11 (fast_pow_double (1075 - p)).

Lemma scale32_all : forallb (fun n => let p := Z.of_nat n in
   (p =? 22) || scale_ok 32 149 scale32 p) (seq 0 254) = true.
Proof. vm_compute. reflexivity. Qed.

Lemma scale64_all : forallb (fun n => let p := Z.of_nat n in
   (p =? 51) || scale_ok 64 1074 scale64 p) (seq 0 2046) = true.
Proof. vm_compute. reflexivity. Qed.

Lemma scale32_ok : forall p, 0 <= p < 254 -> p <> 22 -> scale_ok 32 149 scale32 p = true.
Proof.
  intros p Hp Hn. pose proof scale32_all as H. rewrite forallb_forall in H.
  specialize (H (Z.to_nat p)). cbv zeta in H. rewrite Z2Nat.id in H by lia.
  apply orb_prop in H as [H|H]; auto.
  - apply Z.eqb_eq in H. lia.
  - apply in_seq. lia.
Qed.

Lemma scale64_ok : forall p, 0 <= p < 2046 -> p <> 51 -> scale_ok 64 1074 scale64 p = true.
Proof.
  intros p Hp Hn. pose proof scale64_all as H. rewrite forallb_forall in H.
  specialize (H (Z.to_nat p)). cbv zeta in H. rewrite Z2Nat.id in H by lia.
  apply orb_prop in H as [H|H]; auto.
  - apply Z.eqb_eq in H. lia.
  - apply in_seq. lia.
Qed.

(** Exponent field from the size of the value. *)
Lemma units_exponent : forall mw ew x V, 1 <= mw -> 0 < ew ->
  ieee_units mw ew x = Some V ->
  let p := (x / 2 ^ mw) mod 2 ^ ew in
  0 <= p < 2 ^ ew - 1 /\ (1 <= p -> 2 ^ (mw + p - 1) <= Z.abs V < 2 ^ (mw + p)).
Proof.
  intros mw ew x V Hm He H p. unfold ieee_units in H. fold p in H.
  assert (Hp : 0 <= p < 2 ^ ew).
  { apply Z.mod_pos_bound. apply pow2_pos; lia. }
  assert (Hf : 0 <= x mod 2 ^ mw < 2 ^ mw).
  { apply Z.mod_pos_bound. apply pow2_pos; lia. }
  destruct (Z.eqb_spec p (2 ^ ew - 1)); [discriminate|]. split; [lia|].
  intros H1. destruct (Z.eqb_spec p 0); [lia|]. injection H as H. subst V.
  set (f := x mod 2 ^ mw) in *. pose proof (pow2_pos (p - 1) ltac:(lia)).
  assert (A : Z.abs ((if x <? 0 then -1 else 1) * ((f + 2 ^ mw) * 2 ^ (p - 1)))
              = (f + 2 ^ mw) * 2 ^ (p - 1)).
  { destruct (x <? 0); nia. }
  rewrite A.
  replace (mw + p - 1) with (mw + (p - 1)) by lia.
  replace (mw + p) with (mw + (p - 1) + 1) by lia.
  rewrite pow2_S, Z.pow_add_r by lia. nia.
Qed.

Lemma pow_lt_inv : forall a b, 0 <= a -> 2 ^ a < 2 ^ b -> a < b.
Proof.
  intros a b Ha H. destruct (Z.lt_ge_cases a b); auto.
  destruct (Z.lt_ge_cases b 0).
  - rewrite (Z.pow_neg_r 2 b) in H by lia. pose proof (pow2_pos a Ha). lia.
  - assert (2 ^ b <= 2 ^ a) by (apply Z.pow_le_mono_r; lia). lia.
Qed.

Lemma float_bound : forall val err V E,
  Word 32 val -> Word 32 err ->
  ieee_units 23 8 val = Some V -> ieee_units 23 8 err = Some E -> 0 <= E ->
  Z.abs V < 2 ^ 276 -> ~ (2 ^ 44 <= Z.abs V < 2 ^ 45) ->
  exists R, ieee_units 23 8 (bit_truncate_float val err) = Some R
    /\ Z.abs (R - V) <= E
    /\ (bit_truncate_float val err <? 0) = (val <? 0).
Proof.
  intros val err V E Wv We HV HE H0 HB HN.
  destruct (units_exponent 23 8 val V ltac:(lia) ltac:(lia) HV) as [Hp Hs].
  change (2 ^ 8) with 256 in *.
  set (p := (val / 2 ^ 23) mod 256) in *.
  assert (Hp1 : p < 254).
  { destruct (Z.lt_ge_cases p 1); [lia|].
    specialize (Hs ltac:(lia)).
    assert (23 + p - 1 < 276); [|lia]. apply pow_lt_inv; lia. }
  assert (Hp2 : p <> 22).
  { intros E22. apply HN. rewrite E22 in Hs. apply Hs. lia. }
  apply (fp_error_bound 32 23 8 149 shifts32 scale32); auto; try lia.
  - exact smear32_half.
  - change (2 ^ 8) with 256. fold p. lia.
  - change (2 ^ 8) with 256. fold p.
    apply (scale_ok_sound 32 23 8 149); auto; try lia.
    + apply decode_units; auto; try lia.
    + apply scale32_ok; lia.
Qed.

Lemma float_zero_tol : forall val err V,
  Word 32 val -> Word 32 err ->
  ieee_units 23 8 val = Some V -> ieee_units 23 8 err = Some 0 ->
  Z.abs V < 2 ^ 276 -> ~ (2 ^ 44 <= Z.abs V < 2 ^ 45) ->
  bit_truncate_float val err = val.
Proof.
  intros val err V Wv We HV HE HB HN.
  destruct (units_exponent 23 8 val V ltac:(lia) ltac:(lia) HV) as [Hp Hs].
  change (2 ^ 8) with 256 in *.
  set (p := (val / 2 ^ 23) mod 256) in *.
  assert (Hp1 : p < 254).
  { destruct (Z.lt_ge_cases p 1); [lia|].
    specialize (Hs ltac:(lia)).
    assert (23 + p - 1 < 276); [|lia]. apply pow_lt_inv; lia. }
  assert (Hp2 : p <> 22).
  { intros E22. apply HN. rewrite E22 in Hs. apply Hs. lia. }
  apply (fp_zero_tolerance 32 23 8 149 shifts32 scale32); auto; try lia.
  - exact smear32_half.
  - change (2 ^ 8) with 256. fold p. lia.
  - change (2 ^ 8) with 256. fold p.
    apply (scale_ok_zero 32 23 8 149); auto; try lia.
    + apply decode_units; auto; lia.
    + pose proof (scale32_ok p ltac:(lia) Hp2) as K. unfold scale_ok in K.
      destruct (scale32 p); try discriminate. eauto.
Qed.

Lemma double_bound : forall val err V E,
  Word 64 val -> Word 64 err ->
  ieee_units 52 11 val = Some V -> ieee_units 52 11 err = Some E -> 0 <= E ->
  Z.abs V < 2 ^ 2097 -> ~ (2 ^ 102 <= Z.abs V < 2 ^ 103) ->
  exists R, ieee_units 52 11 (bit_truncate_double val err) = Some R
    /\ Z.abs (R - V) <= E
    /\ (bit_truncate_double val err <? 0) = (val <? 0).
Proof.
  intros val err V E Wv We HV HE H0 HB HN.
  destruct (units_exponent 52 11 val V ltac:(lia) ltac:(lia) HV) as [Hp Hs].
  change (2 ^ 11) with 2048 in *.
  set (p := (val / 2 ^ 52) mod 2048) in *.
  assert (Hp1 : p < 2046).
  { destruct (Z.lt_ge_cases p 1); [lia|].
    specialize (Hs ltac:(lia)).
    assert (52 + p - 1 < 2097); [|lia]. apply pow_lt_inv; [lia|].
    eapply Z.le_lt_trans; [apply Hs|exact HB]. }
  assert (Hp2 : p <> 51).
  { intros E22. apply HN. rewrite E22 in Hs. apply Hs. lia. }
  apply (fp_error_bound 64 52 11 1074 shifts64 scale64); auto; try lia.
  - exact smear64_half.
  - change (2 ^ 11) with 2048. fold p. lia.
  - change (2 ^ 11) with 2048. fold p.
    apply (scale_ok_sound 64 52 11 1074); auto; try lia.
    + apply decode_units; auto; try lia.
    + apply scale64_ok; lia.
Qed.

Lemma double_zero_tol : forall val err V,
  Word 64 val -> Word 64 err ->
  ieee_units 52 11 val = Some V -> ieee_units 52 11 err = Some 0 ->
  Z.abs V < 2 ^ 2097 -> ~ (2 ^ 102 <= Z.abs V < 2 ^ 103) ->
  bit_truncate_double val err = val.
Proof.
  intros val err V Wv We HV HE HB HN.
  destruct (units_exponent 52 11 val V ltac:(lia) ltac:(lia) HV) as [Hp Hs].
  change (2 ^ 11) with 2048 in *.
  set (p := (val / 2 ^ 52) mod 2048) in *.
  assert (Hp1 : p < 2046).
  { destruct (Z.lt_ge_cases p 1); [lia|].
    specialize (Hs ltac:(lia)).
    assert (52 + p - 1 < 2097); [|lia]. apply pow_lt_inv; [lia|].
    eapply Z.le_lt_trans; [apply Hs|exact HB]. }
  assert (Hp2 : p <> 51).
  { intros E22. apply HN. rewrite E22 in Hs. apply Hs. lia. }
  apply (fp_zero_tolerance 64 52 11 1074 shifts64 scale64); auto; try lia.
  - exact smear64_half.
  - change (2 ^ 11) with 2048. fold p. lia.
  - change (2 ^ 11) with 2048. fold p.
    apply (scale_ok_zero 64 52 11 1074); auto; try lia.
    + apply decode_units; auto; lia.
    + pose proof (scale64_ok p ltac:(lia) Hp2) as K. unfold scale_ok in K.
      destruct (scale64 p); try discriminate. eauto.
Qed.

Definition word32 (x : Z) : Z := wrap 32 x.
Definition word64 (x : Z) : Z := wrap 64 x.

Lemma float_refuted :
  exists val V R, Word 32 val /\ ieee_units 23 8 val = Some V
    /\ ieee_units 23 8 (bit_truncate_float val 0) = Some R /\ Z.abs (R - V) > 0.
Proof.
  exists (22 * 2 ^ 23 + 5). do 2 eexists.
  split; [unfold Word; split; vm_compute; [discriminate|reflexivity]|].
  split; [vm_compute; reflexivity|]. split; [vm_compute; reflexivity|].
  vm_compute. reflexivity.
Qed.

Lemma double_refuted :
  exists val V R, Word 64 val /\ ieee_units 52 11 val = Some V
    /\ ieee_units 52 11 (bit_truncate_double val 0) = Some R /\ Z.abs (R - V) > 0.
Proof.
  exists (51 * 2 ^ 52 + 5). do 2 eexists.
  split; [unfold Word; split; vm_compute; [discriminate|reflexivity]|].
  split; [vm_compute; reflexivity|]. split; [vm_compute; reflexivity|].
  vm_compute. reflexivity.
Qed.

Lemma float_overflow_refuted :
  exists val err V E, Word 32 val /\ Word 32 err
    /\ ieee_units 23 8 val = Some V /\ ieee_units 23 8 err = Some E /\ 0 <= E
    /\ ieee_units 23 8 (bit_truncate_float val err) = None.
Proof.
  exists (254 * 2 ^ 23 + (2 ^ 23 - 1)), (240 * 2 ^ 23). do 2 eexists.
  split; [unfold Word; split; vm_compute; [discriminate|reflexivity]|].
  split; [unfold Word; split; vm_compute; [discriminate|reflexivity]|].
  split; [vm_compute; reflexivity|]. split; [vm_compute; reflexivity|].
  split; [vm_compute; discriminate|]. vm_compute. reflexivity.
Qed.

(** *** Weights *)

Lemma weights_refuted :
  exists val rel V T R, Word 32 val /\ Word 32 rel
    /\ ieee_units 23 8 val = Some V /\ ieee_units 23 8 rel = Some T
    /\ 9 * Z.abs T < Z.abs V
    /\ ieee_units 23 8 (bit_truncate_weight_elem val true 0 rel) = Some R
    /\ Z.abs (R - V) > Z.abs T.
Proof.
  (* val = -1.0f, fallback = 0.1f, rel = -0.1f *)
  exists (wrap 32 0xBF800000), (wrap 32 0xBDCCCCCD). do 3 eexists.
  split; [unfold Word; split; vm_compute; [discriminate|reflexivity]|].
  split; [unfold Word; split; vm_compute; [discriminate|reflexivity]|].
  split; [vm_compute; reflexivity|]. split; [vm_compute; reflexivity|].
  split; [vm_compute; reflexivity|]. split; [vm_compute; reflexivity|].
  vm_compute. reflexivity.
Qed.

Lemma weights_nonneg : forall val rel V T sig,
  Word 32 val -> Word 32 rel ->
  ieee_units 23 8 val = Some V -> ieee_units 23 8 rel = Some T -> 0 <= T ->
  Z.abs V < 2 ^ 276 -> ~ (2 ^ 44 <= Z.abs V < 2 ^ 45) ->
  exists R, ieee_units 23 8 (bit_truncate_weight_elem val true sig rel) = Some R
    /\ Z.abs (R - V) <= T.
Proof.
  intros. unfold bit_truncate_weight_elem.
  destruct (float_bound val rel V T) as [R [E1 [E2 _]]]; auto. eauto.
Qed.

Lemma weights_sigma : forall val sig V T rel,
  Word 32 val -> Word 32 sig ->
  ieee_units 23 8 val = Some V -> ieee_units 23 8 sig = Some T -> 0 <= T ->
  Z.abs V < 2 ^ 276 -> ~ (2 ^ 44 <= Z.abs V < 2 ^ 45) ->
  exists R, ieee_units 23 8 (bit_truncate_weight_elem val false sig rel) = Some R
    /\ Z.abs (R - V) <= T.
Proof.
  intros. unfold bit_truncate_weight_elem.
  destruct (float_bound val sig V T) as [R [E1 [E2 _]]]; auto. eauto.
Qed.

(** Negative relative tolerance of at least one mantissa unit wipes the value. *)
Lemma fabs_units : forall x T, Word 32 x -> ieee_units 23 8 x = Some T ->
  Word 32 (fabs32 x) /\ ieee_units 23 8 (fabs32 x) = Some (Z.abs T).
Proof.
  intros x T W H.
  pose proof (word_decompose 32 23 8 shifts32 ltac:(lia) ltac:(lia) ltac:(lia) smear32_half x W) as D.
  assert (Hf : 0 <= x mod 2 ^ 23 < 2 ^ 23) by (apply Z.mod_pos_bound; apply pow2_pos; lia).
  assert (Hp : 0 <= (x / 2 ^ 23) mod 2 ^ 8 < 2 ^ 8) by (apply Z.mod_pos_bound; apply pow2_pos; lia).
  set (p := (x / 2 ^ 23) mod 2 ^ 8) in *. set (f := x mod 2 ^ 23) in *.
  assert (F : fabs32 x = word 32 23 false p f).
  { unfold fabs32. rewrite land_mask by lia. rewrite D. unfold word.
    change (2 ^ (32 - 1)) with (2 ^ 31). rewrite Z.sub_0_r.
    assert (0 <= f + p * 2 ^ 23 < 2 ^ 31) by lia.
    destruct (x <? 0).
    - symmetry. apply Z.mod_unique with (q := -1); lia.
    - rewrite Z.sub_0_r. apply Z.mod_small. lia. }
  destruct (word_fields 32 23 8 ltac:(lia) ltac:(lia) ltac:(lia) false p f Hf Hp)
    as [F1 [F2 [F3 F4]]].
  rewrite F. split; [exact F4|].
  unfold ieee_units in *. rewrite F1, F2, F3. fold p f in H.
  destruct (p =? 2 ^ 8 - 1); [discriminate|].
  pose proof (Z.pow_nonneg 2 (p - 1) ltac:(lia)).
  destruct (p =? 0); injection H as H; subst T; f_equal;
    destruct (x <? 0); nia.
Qed.

Lemma relative_bound : forall val rel V T,
  Word 32 val -> Word 32 rel ->
  ieee_units 23 8 val = Some V -> ieee_units 23 8 rel = Some T ->
  Z.abs V < 2 ^ 276 -> ~ (2 ^ 44 <= Z.abs V < 2 ^ 45) ->
  exists R, ieee_units 23 8 (bit_truncate_relative_elem val rel) = Some R
    /\ Z.abs (R - V) <= Z.abs T.
Proof.
  intros val rel V T Wv Wr HV HT HB HN. unfold bit_truncate_relative_elem.
  destruct (fabs_units rel T Wr HT) as [W2 H2].
  destruct (float_bound val (fabs32 rel) V (Z.abs T)) as [R [E1 [E2 _]]]; auto; [lia|].
  eauto.
Qed.
