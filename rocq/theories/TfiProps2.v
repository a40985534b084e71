(** C392: truncation of tiny numbers. *)
From Coq Require Import ZArith List Bool Lia.
From Verif Require Import TruncModel TruncSpec TfiProofs2.
Open Scope Z_scope.

(** C392: floats below 2^-105 are not truncated, whatever the tolerance up to 2^106 is; doubles
    below 2^-972 are not for tolerances up to 2^973. *)
Theorem C392_float : forall val err V E, Word 32 val -> Word 32 err ->
  ieee_units 23 8 val = Some V -> ieee_units 23 8 err = Some E ->
  Z.abs V < 2 ^ 44 -> Z.abs E < 2 ^ 255 -> bit_truncate_float val err = val.
Proof. exact float_tiny. Qed.
Print Assumptions C392_float.

Theorem C392_double : forall val err V E, Word 64 val -> Word 64 err ->
  ieee_units 52 11 val = Some V -> ieee_units 52 11 err = Some E ->
  Z.abs V < 2 ^ 102 -> Z.abs E < 2 ^ 2047 -> bit_truncate_double val err = val.
Proof. exact double_tiny. Qed.
Print Assumptions C392_double.

(** 1e-35 and 1e-30 with the tolerance 0.5: the one stays, the other becomes 0. *)
Example C392_example :
  bit_truncate_float 89435438 1056964608 = 89435438 /\ bit_truncate_float 228737632 1056964608 = 0.
Proof. vm_compute. auto. Qed.

(** C393: so the number returned is not always the one with the fewest bits: 0 is as near as the tolerance. *)
Theorem C393_refuted : exists val err V E, Word 32 val /\ ieee_units 23 8 val = Some V
  /\ ieee_units 23 8 err = Some E /\ 2 ^ 100 * Z.abs V <= E /\ bit_truncate_float val err <> 0.
Proof.
  exists 89435438, 1056964608. do 2 eexists. split; [unfold Word; vm_compute; split; congruence|].
  split; [vm_compute; reflexivity|]. split; [vm_compute; reflexivity|].
  split; [vm_compute; discriminate|vm_compute; discriminate].
Qed.
Print Assumptions C393_refuted.
