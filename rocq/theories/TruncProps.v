(** Property theorems: bit truncation (C10-C13). *)
From Coq Require Import ZArith Lia.
From Verif Require Import TruncModel TruncSpec TruncProps0.
Open Scope Z_scope.

(** C10 *)
Theorem C10_error_bound_32 : forall v e, 0 <= e < 2 ^ 30 ->
  - 2 ^ 31 + e <= v -> v + e < 2 ^ 31 -> v < 2 ^ 31 - 1 ->
  Z.abs (bit_truncate v e - v) <= e.
Proof. exact TruncProps0.bt32_bound. Qed.
Print Assumptions C10_error_bound_32.

Theorem C10_error_bound_64 : forall v e, 0 <= e < 2 ^ 62 ->
  - 2 ^ 63 + e <= v -> v + e < 2 ^ 63 -> v < 2 ^ 63 - 1 ->
  Z.abs (bit_truncate_64 v e - v) <= e.
Proof. exact TruncProps0.bt64_bound. Qed.
Print Assumptions C10_error_bound_64.

Example C10_example : bit_truncate 32723 1000 = 32768 /\ bit_truncate (-1234567) 300 = -1234432.
Proof. vm_compute. auto. Qed.
Example C10_example_64 : bit_truncate_64 (2 ^ 50 + 12345) 5000 = 2 ^ 50 + 16384.
Proof. vm_compute. auto. Qed.

(** C11 *)
Theorem C11_nearest_ties_even_32 : forall v e g, 0 < e < 2 ^ 30 ->
  - 2 ^ 31 + e <= v -> v + e < 2 ^ 31 ->
  IsGranularity e g -> NearestTieEven g v (bit_truncate v e).
Proof. exact TruncProps0.bt32_nearest. Qed.
Print Assumptions C11_nearest_ties_even_32.

Theorem C11_nearest_ties_even_64 : forall v e g, 0 < e < 2 ^ 62 ->
  - 2 ^ 63 + e <= v -> v + e < 2 ^ 63 ->
  IsGranularity e g -> NearestTieEven g v (bit_truncate_64 v e).
Proof. exact TruncProps0.bt64_nearest. Qed.
Print Assumptions C11_nearest_ties_even_64.

(** The granularity of the statements exists for every tolerance. *)
Theorem C11_granularity_exists : forall e, 0 < e -> exists g, IsGranularity e g.
Proof. exact TruncProps0.granularity_exists. Qed.
Print Assumptions C11_granularity_exists.

Theorem C11_zero_tolerance_identity : forall v,
  (- 2 ^ 31 <= v < 2 ^ 31 - 1 -> bit_truncate v 0 = v)
  /\ (- 2 ^ 63 <= v < 2 ^ 63 - 1 -> bit_truncate_64 v 0 = v).
Proof. exact TruncProps0.bt_zero. Qed.
Print Assumptions C11_zero_tolerance_identity.

Theorem C11_idempotent_32 : forall v e, 0 <= e < 2 ^ 30 -> - 2 ^ 30 <= v <= 2 ^ 30 ->
  bit_truncate (bit_truncate v e) e = bit_truncate v e.
Proof. exact TruncProps0.bt32_idem. Qed.
Print Assumptions C11_idempotent_32.

Theorem C11_idempotent_64 : forall v e, 0 <= e < 2 ^ 62 -> - 2 ^ 62 <= v <= 2 ^ 62 ->
  bit_truncate_64 (bit_truncate_64 v e) e = bit_truncate_64 v e.
Proof. exact TruncProps0.bt64_idem. Qed.
Print Assumptions C11_idempotent_64.

(** Half-way cases: 12 and 20 with granularity 8. *)
Example C11_example : bit_truncate 12 5 = 16 /\ bit_truncate 20 5 = 16
  /\ bit_truncate (-12) 5 = -16 /\ bit_truncate 21 5 = 24 /\ bit_truncate 77 0 = 77.
Proof. vm_compute. auto. Qed.
Example C11_example_granularity : IsGranularity 5 8.
Proof. repeat split; try lia. exists 3. split; [lia|reflexivity]. Qed.

(** C12.  Values are in units of the smallest denormal (2^-149, 2^-1074), so
    [2 ^ 276] stands for 2^127 and [2 ^ 2097] for 2^1023.  The excluded band
    is [2^-105 <= |v| < 2^-104] (float) and [2^-972 <= |v| < 2^-971] (double),
    in which [fast_pow] overflows its argument. *)
Theorem C12_float_error_bound_partial : forall val err V E,
  Word 32 val -> Word 32 err ->
  ieee_units 23 8 val = Some V -> ieee_units 23 8 err = Some E -> 0 <= E ->
  Z.abs V < 2 ^ 276 -> ~ (2 ^ 44 <= Z.abs V < 2 ^ 45) ->
  exists R, ieee_units 23 8 (bit_truncate_float val err) = Some R
    /\ Z.abs (R - V) <= E
    /\ (bit_truncate_float val err <? 0) = (val <? 0).
Proof. exact TruncProps0.float_bound. Qed.
Print Assumptions C12_float_error_bound_partial.

Theorem C12_float_zero_tolerance_partial : forall val err V,
  Word 32 val -> Word 32 err ->
  ieee_units 23 8 val = Some V -> ieee_units 23 8 err = Some 0 ->
  Z.abs V < 2 ^ 276 -> ~ (2 ^ 44 <= Z.abs V < 2 ^ 45) ->
  bit_truncate_float val err = val.
Proof. exact TruncProps0.float_zero_tol. Qed.
Print Assumptions C12_float_zero_tolerance_partial.

Theorem C12_double_error_bound_partial : forall val err V E,
  Word 64 val -> Word 64 err ->
  ieee_units 52 11 val = Some V -> ieee_units 52 11 err = Some E -> 0 <= E ->
  Z.abs V < 2 ^ 2097 -> ~ (2 ^ 102 <= Z.abs V < 2 ^ 103) ->
  exists R, ieee_units 52 11 (bit_truncate_double val err) = Some R
    /\ Z.abs (R - V) <= E
    /\ (bit_truncate_double val err <? 0) = (val <? 0).
Proof. exact TruncProps0.double_bound. Qed.
Print Assumptions C12_double_error_bound_partial.

Theorem C12_double_zero_tolerance_partial : forall val err V,
  Word 64 val -> Word 64 err ->
  ieee_units 52 11 val = Some V -> ieee_units 52 11 err = Some 0 ->
  Z.abs V < 2 ^ 2097 -> ~ (2 ^ 102 <= Z.abs V < 2 ^ 103) ->
  bit_truncate_double val err = val.
Proof. exact TruncProps0.double_zero_tol. Qed.
Print Assumptions C12_double_zero_tolerance_partial.

(** In the excluded band a zero tolerance does not keep the value. *)
Theorem C12_float_bound_refuted :
  exists val V R, Word 32 val /\ ieee_units 23 8 val = Some V
    /\ ieee_units 23 8 (bit_truncate_float val 0) = Some R /\ Z.abs (R - V) > 0.
Proof. exact TruncProps0.float_refuted. Qed.
Print Assumptions C12_float_bound_refuted.

Theorem C12_double_bound_refuted :
  exists val V R, Word 64 val /\ ieee_units 52 11 val = Some V
    /\ ieee_units 52 11 (bit_truncate_double val 0) = Some R /\ Z.abs (R - V) > 0.
Proof. exact TruncProps0.double_refuted. Qed.
Print Assumptions C12_double_bound_refuted.

(** The largest finite values may be rounded to infinity. *)
Theorem C12_float_overflow_refuted :
  exists val err V E, Word 32 val /\ Word 32 err
    /\ ieee_units 23 8 val = Some V /\ ieee_units 23 8 err = Some E /\ 0 <= E
    /\ ieee_units 23 8 (bit_truncate_float val err) = None.
Proof. exact TruncProps0.float_overflow_refuted. Qed.
Print Assumptions C12_float_overflow_refuted.

(** 32.121 (bits 0x42007be7) truncated with tolerance 1.0 is 32.0. *)
Example C12_example : bit_truncate_float 0x42007be7 0x3f800000 = 0x42000000.
Proof. vm_compute. reflexivity. Qed.
Example C12_example_hyps : exists V E,
  ieee_units 23 8 0x42007be7 = Some V /\ ieee_units 23 8 0x3f800000 = Some E
  /\ 0 <= E /\ Z.abs V < 2 ^ 276 /\ ~ (2 ^ 44 <= Z.abs V < 2 ^ 45).
Proof.
  do 2 eexists. split; [vm_compute; reflexivity|]. split; [vm_compute; reflexivity|].
  vm_compute. repeat split; try discriminate; try reflexivity. intros [_ H]. discriminate.
Qed.

(** C13 *)
Theorem C13_weights_fallback_refuted :
  exists val rel V T R, Word 32 val /\ Word 32 rel
    /\ ieee_units 23 8 val = Some V /\ ieee_units 23 8 rel = Some T
    /\ 9 * Z.abs T < Z.abs V
    /\ ieee_units 23 8 (bit_truncate_weight_elem val true 0 rel) = Some R
    /\ Z.abs (R - V) > Z.abs T.
Proof. exact TruncProps0.weights_refuted. Qed.
Print Assumptions C13_weights_fallback_refuted.

(** True when the product [fallback * val] is not negative. *)
Theorem C13_weights_nonnegative_partial : forall val rel V T sig,
  Word 32 val -> Word 32 rel ->
  ieee_units 23 8 val = Some V -> ieee_units 23 8 rel = Some T -> 0 <= T ->
  Z.abs V < 2 ^ 276 -> ~ (2 ^ 44 <= Z.abs V < 2 ^ 45) ->
  exists R, ieee_units 23 8 (bit_truncate_weight_elem val true sig rel) = Some R
    /\ Z.abs (R - V) <= T.
Proof. exact TruncProps0.weights_nonneg. Qed.
Print Assumptions C13_weights_nonnegative_partial.

Theorem C13_weights_sigma_partial : forall val sig V T rel,
  Word 32 val -> Word 32 sig ->
  ieee_units 23 8 val = Some V -> ieee_units 23 8 sig = Some T -> 0 <= T ->
  Z.abs V < 2 ^ 276 -> ~ (2 ^ 44 <= Z.abs V < 2 ^ 45) ->
  exists R, ieee_units 23 8 (bit_truncate_weight_elem val false sig rel) = Some R
    /\ Z.abs (R - V) <= T.
Proof. exact TruncProps0.weights_sigma. Qed.
Print Assumptions C13_weights_sigma_partial.

(** [bit_truncate_relative] takes the absolute value and is right for both signs. *)
Theorem C13_relative_both_signs : forall val rel V T,
  Word 32 val -> Word 32 rel ->
  ieee_units 23 8 val = Some V -> ieee_units 23 8 rel = Some T ->
  Z.abs V < 2 ^ 276 -> ~ (2 ^ 44 <= Z.abs V < 2 ^ 45) ->
  exists R, ieee_units 23 8 (bit_truncate_relative_elem val rel) = Some R
    /\ Z.abs (R - V) <= Z.abs T.
Proof. exact TruncProps0.relative_bound. Qed.
Print Assumptions C13_relative_both_signs.

(** -1.0 with fallback 0.1: weights give -0.0, relative gives -1.0. *)
Example C13_example : bit_truncate_weight_elem (wrap 32 0xBF800000) true 0 (wrap 32 0xBDCCCCCD) = - 2 ^ 31
  /\ bit_truncate_relative_elem (wrap 32 0xBF800000) (wrap 32 0xBDCCCCCD) = wrap 32 0xBF800000.
Proof. vm_compute. auto. Qed.
