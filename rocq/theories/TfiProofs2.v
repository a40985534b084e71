(** Numbers so small that the scale of the tolerance wraps. *)
From Coq Require Import ZArith List Bool Lia.
From Verif Require Import TruncModel TruncSpec TruncProofs TruncFloat TruncProps0 TfiProofs.
Import ListNotations.
Open Scope Z_scope.

Definition below (bound : Z) (s : fval) : bool := match s with Fin y => Z.abs y <=? bound | _ => false end.

Lemma tiny32_all : forallb (fun n => below (2 ^ 43) (scale32 (Z.of_nat n))) (seq 0 22) = true.
Proof. vm_compute. reflexivity. Qed.
Lemma tiny64_all : forallb (fun n => below (2 ^ 101) (scale64 (Z.of_nat n))) (seq 0 51) = true.
Proof. vm_compute. reflexivity. Qed.

Lemma tiny_scale : forall scale bound n, forallb (fun i => below bound (scale (Z.of_nat i))) (seq 0 n) = true ->
  forall p, 0 <= p < Z.of_nat n -> exists y, scale p = Fin y /\ Z.abs y <= bound.
Proof.
  intros scale bound n H p Hp. rewrite forallb_forall in H. specialize (H (Z.to_nat p)).
  rewrite Z2Nat.id in H by lia. unfold below in H.
  assert (I : In (Z.to_nat p) (seq 0 n)) by (apply in_seq; lia). specialize (H I).
  destruct (scale p) as [y| |]; try discriminate. exists y. split; [reflexivity|]. now apply Z.leb_le.
Qed.

Lemma tol_zero : forall w mw ew unit scale err E p y, 2 <= w -> 0 <= unit ->
  decode mw ew err = Fin E -> scale p = Fin y -> Z.abs (E * y) < 2 ^ (2 * unit) ->
  int_tolerance w mw ew unit scale err p = 0.
Proof.
  intros w mw ew unit scale err E p y Hw Hu HD Hs B. unfold int_tolerance, mul_to_int. rewrite HD, Hs. cbv zeta.
  pose proof (pow2_pos (2 * unit) ltac:(lia)).
  assert (Q : Z.quot (E * y) (2 ^ (2 * unit)) = 0) by (apply Z.quot_small_iff; [lia|]; rewrite (Z.abs_eq (2 ^ _)) by lia; exact B).
  rewrite Q. pose proof (pow2_pos (w - 1) ltac:(lia)).
  destruct (Z.leb_spec (- 2 ^ (w - 1)) 0); [|lia]. destruct (Z.ltb_spec 0 (2 ^ (w - 1))); [|lia]. cbn [andb].
  rewrite Z.mod_0_l by (pose proof (pow2_pos w ltac:(lia)); lia). reflexivity.
Qed.

(** The exponent field of a small number *)
Lemma small_exponent : forall mw ew x V n, 1 <= mw -> 0 < ew -> ieee_units mw ew x = Some V ->
  Z.abs V < 2 ^ (mw + n) -> 1 <= n -> 0 <= (x / 2 ^ mw) mod 2 ^ ew <= n.
Proof.
  intros mw ew x V n Hm He HV B Hn. destruct (units_exponent mw ew x V Hm He HV) as [Hp Hs]. cbv zeta in *.
  set (p := (x / 2 ^ mw) mod 2 ^ ew) in *. destruct (Z.lt_ge_cases p 1); [lia|].
  specialize (Hs ltac:(lia)). assert (mw + p - 1 < mw + n); [|lia]. apply pow_lt_inv; lia.
Qed.

Lemma float_tiny : forall val err V E, Word 32 val -> Word 32 err ->
  ieee_units 23 8 val = Some V -> ieee_units 23 8 err = Some E ->
  Z.abs V < 2 ^ 44 -> Z.abs E < 2 ^ 255 -> bit_truncate_float val err = val.
Proof.
  intros val err V E Wv We HV HE BV BE.
  pose proof (small_exponent 23 8 val V 21 ltac:(lia) ltac:(lia) HV BV ltac:(lia)) as Hp.
  change (2 ^ 8) with 256 in *. set (p := (val / 2 ^ 23) mod 256) in *.
  destruct (tiny_scale scale32 _ _ tiny32_all p ltac:(lia)) as (y & Ey & By).
  apply (fp_zero_tolerance 32 23 8 149 shifts32 scale32); auto; try lia.
  - exact smear32_half.
  - change (2 ^ 8) with 256. fold p. lia.
  - change (2 ^ 8) with 256. fold p. apply (tol_zero 32 23 8 149 scale32 err E p y); auto; try lia.
    + apply decode_units; auto; lia.
    + rewrite Z.abs_mul. change (2 ^ (2 * 149)) with (2 ^ 255 * 2 ^ 43).
      pose proof (pow2_pos 43 ltac:(lia)). nia.
Qed.

Lemma double_tiny : forall val err V E, Word 64 val -> Word 64 err ->
  ieee_units 52 11 val = Some V -> ieee_units 52 11 err = Some E ->
  Z.abs V < 2 ^ 102 -> Z.abs E < 2 ^ 2047 -> bit_truncate_double val err = val.
Proof.
  intros val err V E Wv We HV HE BV BE.
  pose proof (small_exponent 52 11 val V 50 ltac:(lia) ltac:(lia) HV BV ltac:(lia)) as Hp.
  change (2 ^ 11) with 2048 in *. set (p := (val / 2 ^ 52) mod 2048) in *.
  destruct (tiny_scale scale64 _ _ tiny64_all p ltac:(lia)) as (y & Ey & By).
  apply (fp_zero_tolerance 64 52 11 1074 shifts64 scale64); auto; try lia.
  - exact smear64_half.
  - change (2 ^ 11) with 2048. fold p. lia.
  - change (2 ^ 11) with 2048. fold p. apply (tol_zero 64 52 11 1074 scale64 err E p y); auto; try lia.
    + apply decode_units; auto; lia.
    + rewrite Z.abs_mul. change (2 ^ (2 * 1074)) with (2 ^ 2047 * 2 ^ 101).
      pose proof (pow2_pos 101 ltac:(lia)). set (a := 2 ^ 101) in *. set (b := 2 ^ 2047) in *. clearbody a b. nia.
Qed.
