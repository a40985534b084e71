(** Lemmas for the truncation of arrays: relative tolerances, loops. *)
From Coq Require Import ZArith Reals List Bool Lia Lra Psatz.
From Flocq Require Import Core IEEE754.BinarySingleNaN IEEE754.Binary IEEE754.Bits.
From Verif Require Import PyBase TruncModel TruncSpec TruncProofs TruncFloat TruncProps0 BtModel BtSpec BtProofs BtProofs2 BtProofs3.
Import ListNotations.
Open Scope Z_scope.

Lemma units_diff : forall a b n, Rabs (IZR a / 2 ^ n - IZR b / 2 ^ n) = (IZR (Z.abs (a - b)) / 2 ^ n)%R.
Proof.
  intros a b n. rewrite <- abs_units. f_equal. rewrite minus_IZR. unfold Rdiv. ring.
Qed.
Lemma units_le : forall a b n, a <= b -> (IZR a / 2 ^ n <= IZR b / 2 ^ n)%R.
Proof.
  intros a b n H. apply IZR_le in H. pose proof (Rinv_0_lt_compat _ (pow2_R_pos n)). unfold Rdiv.
  apply Rmult_le_compat_r; lra.
Qed.

(** A tolerance that is a finite number, or is not finite *)
Lemma float_by : forall val err v t, Word 32 val -> Word 32 err -> IsFloat val v -> IsFloat err t ->
  (0 <= t)%R -> (Rabs v < 2 ^ 127)%R -> ~ (/ 2 ^ 105 <= Rabs v < / 2 ^ 104)%R ->
  exists r, IsFloat (bit_truncate_float val err) r /\ (Rabs (r - v) <= t)%R
    /\ (bit_truncate_float val err <? 0) = (val <? 0).
Proof.
  intros val err v t Wv We (V & HV & ->) (E & HE & ->) Ht Hs Hb.
  destruct (float_bound val err V E Wv We HV HE) as (R & H1 & H2 & H3).
  - apply le_IZR. pose proof (pow2_R_pos 149). apply Rmult_le_compat_r with (r := (2 ^ 149)%R) in Ht; [|lra].
    unfold Rdiv in Ht. rewrite Rmult_assoc, Rinv_l in Ht by lra. lra.
  - exact (units_lt V 149 127 Hs).
  - intros B. apply Hb. apply (units_band V 149 105 104); [lia|lia|]. exact B.
  - exists (IZR R / 2 ^ 149)%R. split; [exists R; auto|]. split; [|exact H3].
    rewrite units_diff. now apply units_le.
Qed.
Lemma double_by : forall val err v t, Word 64 val -> Word 64 err -> IsDouble val v -> IsDouble err t ->
  (0 <= t)%R -> (Rabs v < 2 ^ 1023)%R -> ~ (/ 2 ^ 972 <= Rabs v < / 2 ^ 971)%R ->
  exists r, IsDouble (bit_truncate_double val err) r /\ (Rabs (r - v) <= t)%R
    /\ (bit_truncate_double val err <? 0) = (val <? 0).
Proof.
  intros val err v t Wv We (V & HV & ->) (E & HE & ->) Ht Hs Hb.
  destruct (double_bound val err V E Wv We HV HE) as (R & H1 & H2 & H3).
  - apply le_IZR. pose proof (pow2_R_pos 1074). apply Rmult_le_compat_r with (r := (2 ^ 1074)%R) in Ht; [|lra].
    unfold Rdiv in Ht. rewrite Rmult_assoc, Rinv_l in Ht by lra. lra.
  - exact (units_lt V 1074 1023 Hs).
  - intros B. apply Hb. apply (units_band V 1074 972 971); [lia|lia|]. exact B.
  - exists (IZR R / 2 ^ 1074)%R. split; [exists R; auto|]. split; [|exact H3].
    rewrite units_diff. now apply units_le.
Qed.

Lemma zero_float : forall b : bool, IsFloat (if b then - 2 ^ 31 else 0) 0%R /\ ((if b then - 2 ^ 31 else 0) <? 0) = b.
Proof. intros b. split; [exists 0|destruct b; reflexivity]. split; [destruct b; reflexivity|lra]. Qed.
Lemma zero_double : forall b : bool, IsDouble (if b then - 2 ^ 63 else 0) 0%R /\ ((if b then - 2 ^ 63 else 0) <? 0) = b.
Proof. intros b. split; [exists 0|destruct b; reflexivity]. split; [destruct b; reflexivity|lra]. Qed.

Lemma fabs32_value : forall x v, Word 32 x -> IsFloat x v -> IsFloat (fabs32 x) (Rabs v).
Proof.
  intros x v W (u & U & ->). exists (Z.abs u). rewrite (proj2 (fabs32_units x W)), U. split; [reflexivity|apply abs_units].
Qed.
Lemma fabs64_value : forall x v, Word 64 x -> IsDouble x v -> IsDouble (fabs64 x) (Rabs v).
Proof.
  intros x v W (u & U & ->). exists (Z.abs u). rewrite (proj2 (fabs64_units x W)), U. split; [reflexivity|apply abs_units].
Qed.

Lemma relative_float_by : forall prec val p v, Word 32 prec -> Word 32 val -> IsFloat prec p -> IsFloat val v ->
  (Rabs v < 2 ^ 127)%R -> ~ (/ 2 ^ 105 <= Rabs v < / 2 ^ 104)%R ->
  exists r, IsFloat (relative_float prec val) r
    /\ (Rabs (r - v) <= Rabs (p * v) * (1 + / 2 ^ 24) + / 2 ^ 150)%R
    /\ (relative_float prec val <? 0) = (val <? 0).
Proof.
  intros prec val p v Wp Wv Hp Hv Hs Hb. unfold relative_float.
  destruct (mul32_bound prec val p v Wp Wv Hp Hv) as [(t & T & B)|[T B]].
  - destruct (float_by val (fabs32 (mul32 prec val)) v (Rabs t)) as (r & R1 & R2 & R3); try assumption.
    + apply fabs32_units, mul32_word.
    + now apply fabs32_value; [apply mul32_word|].
    + apply Rabs_pos.
    + exists r. split; [exact R1|]. split; [lra|exact R3].
  - rewrite float_zeroed; [|assumption|apply fabs32_units, mul32_word|].
    + destruct (zero_float (val <? 0)) as [Z1 Z2]. exists 0%R. split; [exact Z1|]. split; [|exact Z2].
      replace (0 - v)%R with (- v)%R by ring. rewrite Rabs_Ropp.
      assert (2 ^ 127 <= 2 ^ 128)%R by (apply Rle_pow; [lra|lia]). lra.
    + rewrite (proj2 (fabs32_units _ (mul32_word _ _))), T. reflexivity.
Qed.
Lemma relative_double_by : forall prec val p v, Word 64 prec -> Word 64 val -> IsDouble prec p -> IsDouble val v ->
  (Rabs v < 2 ^ 1023)%R -> ~ (/ 2 ^ 972 <= Rabs v < / 2 ^ 971)%R ->
  exists r, IsDouble (relative_double prec val) r
    /\ (Rabs (r - v) <= Rabs (p * v) * (1 + / 2 ^ 53) + / 2 ^ 1075)%R
    /\ (relative_double prec val <? 0) = (val <? 0).
Proof.
  intros prec val p v Wp Wv Hp Hv Hs Hb. unfold relative_double.
  destruct (mul64_bound prec val p v Wp Wv Hp Hv) as [(t & T & B)|[T B]].
  - destruct (double_by val (fabs64 (mul64 prec val)) v (Rabs t)) as (r & R1 & R2 & R3); try assumption.
    + apply fabs64_units, mul64_word.
    + now apply fabs64_value; [apply mul64_word|].
    + apply Rabs_pos.
    + exists r. split; [exact R1|]. split; [lra|exact R3].
  - rewrite double_zeroed; [|assumption|apply fabs64_units, mul64_word|].
    + destruct (zero_double (val <? 0)) as [Z1 Z2]. exists 0%R. split; [exact Z1|]. split; [|exact Z2].
      replace (0 - v)%R with (- v)%R by ring. rewrite Rabs_Ropp.
      assert (2 ^ 1023 <= 2 ^ 1024)%R by (apply Rle_pow; [lra|lia]). lra.
    + rewrite (proj2 (fabs64_units _ (mul64_word _ _))), T. reflexivity.
Qed.

Lemma relative_float_special : forall prec val, Word 32 val -> ieee_units 23 8 val = None ->
  relative_float prec val = if val <? 0 then - 2 ^ 31 else 0.
Proof.
  intros prec val W N. unfold relative_float. apply float_zeroed; [exact W|apply fabs32_units, mul32_word|].
  rewrite (proj2 (fabs32_units _ (mul32_word _ _))), mul32_special by assumption. reflexivity.
Qed.
Lemma relative_double_special : forall prec val, Word 64 val -> ieee_units 52 11 val = None ->
  relative_double prec val = if val <? 0 then - 2 ^ 63 else 0.
Proof.
  intros prec val W N. unfold relative_double. apply double_zeroed; [exact W|apply fabs64_units, mul64_word|].
  rewrite (proj2 (fabs64_units _ (mul64_word _ _))), mul64_special by assumption. reflexivity.
Qed.

(** * Loops *)
Lemma put_length : forall i x l, length (put i x l) = length l.
Proof. intros i x l. revert i. induction l as [|y l IH]; intros [|i]; cbn; auto. Qed.
Lemma put_nth : forall l i j x, (i < length l)%nat ->
  nth_error (put i x l) j = if Nat.eqb j i then Some x else nth_error l j.
Proof.
  induction l as [|y l IH]; intros i j x H; [cbn in H; lia|].
  destruct i as [|i], j as [|j]; cbn; try reflexivity. apply IH. cbn in H. lia.
Qed.
Lemma prange_nth : forall f order l, NoDup order -> (forall i, In i order -> (i < length l)%nat) ->
  length (prange order f l) = length l
  /\ forall i v, nth_error l i = Some v ->
     nth_error (prange order f l) i = Some (if in_dec Nat.eq_dec i order then f i v else v).
Proof.
  intros f order. unfold prange. induction order as [|k order IH]; intros l N B.
  - split; [reflexivity|]. intros i v H. exact H.
  - cbn [fold_left]. inversion N as [|? ? N1 N2]; subst.
    destruct (nth_error l k) as [u|] eqn:Ek.
    2:{ apply nth_error_None in Ek. specialize (B k (or_introl eq_refl)). lia. }
    assert (Lk : (k < length l)%nat) by (apply nth_error_Some; congruence).
    destruct (IH (put k (f k u) l) N2) as [L1 L2].
    { intros i Hi. rewrite put_length. apply B. now right. }
    split; [now rewrite L1, put_length|]. intros i v H.
    destruct (Nat.eq_dec i k) as [->|Nk].
    + rewrite Ek in H. injection H as ->.
      rewrite (L2 k (f k v)); [|now rewrite put_nth, Nat.eqb_refl].
      destruct (in_dec Nat.eq_dec k order); [contradiction|].
      destruct (in_dec Nat.eq_dec k (k :: order)) as [|M]; [reflexivity|]. elim M. now left.
    + rewrite (L2 i v).
      * destruct (in_dec Nat.eq_dec i order) as [I1|I1], (in_dec Nat.eq_dec i (k :: order)) as [I2|I2]; try reflexivity.
        -- elim I2. now right.
        -- destruct I2; [congruence|contradiction].
      * rewrite put_nth by exact Lk. apply Nat.eqb_neq in Nk. now rewrite Nk.
Qed.
Lemma prange_entrywise : forall f order l, Order (length l) order -> Entrywise f l (prange order f l).
Proof.
  intros f order l [N B]. destruct (prange_nth f order l N) as [L1 L2]; [intros i Hi; now apply B|].
  split; [exact L1|]. intros i v H. rewrite (L2 i v H).
  destruct (in_dec Nat.eq_dec i order) as [|M]; [reflexivity|]. elim M. apply B. apply nth_error_Some. congruence.
Qed.
Lemma entrywise_unique : forall f l a b, Entrywise f l a -> Entrywise f l b -> a = b.
Proof.
  intros f l a b [La Ha] [Lb Hb]. apply nth_ext with (d := 0) (d' := 0); [congruence|].
  intros i Hi. rewrite La in Hi. destruct (nth_error l i) as [v|] eqn:E.
  - rewrite (nth_error_nth a i 0 (Ha i v E)), (nth_error_nth b i 0 (Hb i v E)). reflexivity.
  - apply nth_error_None in E. lia.
Qed.
