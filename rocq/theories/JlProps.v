(** C119 to C121: spherical Bessel functions. *)
From Coq Require Import List Bool Reals ZArith Lra Lia.
From Verif Require Import PyBase SolveModel SolveProofs SphModel SphProofs JlModel JlSpec JlProofs.
Import ListNotations.
Open Scope R_scope.

(** * C119 *)
(** Every element gets exactly one value, by one of the four formulas. *)
Theorem C119_one_formula l z :
  (zca l z = true /\ lca l z = false /\ hca l z = false /\ gca l z = false) \/
  (zca l z = false /\ lca l z = true /\ hca l z = false /\ gca l z = false) \/
  (zca l z = false /\ lca l z = false /\ hca l z = true /\ gca l z = false) \/
  (zca l z = false /\ lca l z = false /\ hca l z = false /\ gca l z = true).
Proof.
  assert (A : lca l z = true -> hca l z = true -> False) by (rewrite lca_true, hca_true; lra).
  assert (B : lca l z = true -> zca l z = true -> False) by (rewrite lca_true, zca_true; lra).
  assert (C : hca l z = true -> zca l z = true -> False) by (rewrite hca_true, zca_true; lra).
  unfold gca. destruct (lca l z), (hca l z), (zca l z); cbn; try tauto; exfalso; auto.
Qed.
Print Assumptions C119_one_formula.
(** Zero where the argument is zero, an approximation where its formula is defined, and SciPy's value
    everywhere else. *)
Theorem C119_values sj l z :
  (z = 0 -> 0 < l -> jl_elem sj l z = Some (Some 0)) /\
  (0 < z -> (20 < l /\ z < l / 5) \/ z < l / 1000000 -> exists x, jl_elem sj l z = Some (Some x) /\ jl_approx_lowz l z = Some x) /\
  (20 < l -> 10 * l < z -> exists x, jl_elem sj l z = Some (Some x) /\ jl_approx_highz l z = Some x) /\
  (z <= 0 \/ (l / 1000000 <= z /\ (20 < l -> l / 5 <= z <= 10 * l)) -> z <> 0 \/ l <= 0 -> jl_elem sj l z = Some (sj l z)).
Proof.
  pose proof (C119_one_formula l z) as O. unfold jl_elem. split; [|split; [|split]].
  - intros A B. assert (Z : zca l z = true) by now apply zca_true. destruct O as [(a & b & c & d)|[(a & b & c & d)|[(a & b & c & d)|(a & b & c & d)]]]; try congruence. now rewrite a, b, c, d.
  - intros A B. assert (Z : lca l z = true) by (apply lca_true; lra). destruct (lowz_ok l z A ltac:(lra)) as (x & E). exists x.
    destruct O as [(a & b & c & d)|[(a & b & c & d)|[(a & b & c & d)|(a & b & c & d)]]]; try congruence. rewrite a, b, c, d, E. auto.
  - intros A B. assert (Z : hca l z = true) by now apply hca_true. destruct (highz_ok l z ltac:(lra) ltac:(lra)) as (x & E). exists x.
    destruct O as [(a & b & c & d)|[(a & b & c & d)|[(a & b & c & d)|(a & b & c & d)]]]; try congruence. rewrite a, b, c, d, E. auto.
  - intros A B. assert (lca l z <> true) by (rewrite lca_true; lra). assert (hca l z <> true) by (rewrite hca_true; lra). assert (zca l z <> true) by (rewrite zca_true; lra).
    destruct O as [(a & b & c & d)|[(a & b & c & d)|[(a & b & c & d)|(a & b & c & d)]]]; try congruence. now rewrite a, b, c, d.
Qed.
Print Assumptions C119_values.
(** Arrays keep all their elements, in order .. *)
Theorem C119_arrays sj kl kz lz : kl = NdArray \/ kz = NdArray -> exists l, jl sj kl kz lz = Ok (Elems l) /\ length l = length lz /\
  forall i p, nth_error lz i = Some p -> nth_error l i = Some (jl_elem sj (fst p) (snd p)).
Proof.
  intros H. eexists. split; [unfold jl; destruct kl, kz; destruct H; try discriminate; reflexivity|]. split; [apply map_length|].
  intros i p N. now apply map_nth_error with (f := fun p => jl_elem sj (fst p) (snd p)) in N.
Qed.
Print Assumptions C119_arrays.
(** .. sequences only the first. *)
Theorem C119_sequences_refuted : exists sj kl kz lz x, (1 < length lz)%nat /\ jl sj kl kz lz = Ok (Single x).
Proof. exists (fun _ _ => None), Sequence, Number, [(0, 1); (1, 1); (2, 1)], (jl_elem (fun _ _ => None) 0 1). split; [cbn; lia|reflexivity]. Qed.
Print Assumptions C119_sequences_refuted.
Example C119_ex sj : jl sj NdArray Number [(2, 0); (0, 0); (3, 5)] = Ok (Elems [Some (Some 0); Some (sj 0 0); Some (sj 3 5)]).
Proof.
  cbn [jl map fst snd]. do 2 f_equal. destruct (C119_values sj 2 0) as (A & _). destruct (C119_values sj 0 0) as (_ & _ & _ & B). destruct (C119_values sj 3 5) as (_ & _ & _ & C).
  rewrite A, B, C by lra. reflexivity.
Qed.

(** * C120 *)
Theorem C120_derivative_partial l : exists g, Derivative (sbessel l) g /\ forall z, z <> 0 -> jl_d sbessel l z = Some (g z).
Proof.
  exists (fun z => - sbessel (S l) z + INR l / z * sbessel l z). split; [intros z N; now apply sbessel_d|].
  intros z N. unfold jl_d. rewrite quot_ok by assumption. cbn [bind]. now rewrite Nat.add_1_r.
Qed.
Print Assumptions C120_derivative_partial.
(** At zero there is no value, although the function is smooth there: [jl] of 1 is close to z / 3. *)
Theorem C120_zero_refuted : exists l, jl_d sbessel l 0 = None.
Proof. exists 1%nat. unfold jl_d. now rewrite quot_nan. Qed.
Print Assumptions C120_zero_refuted.
(** sin z / z at pi: *)
Example C120_ex : jl_d sbessel 0 PI = Some (- / PI).
Proof.
  pose proof PI_RGT_0. unfold jl_d. rewrite quot_ok by lra. cbn [bind Nat.add]. f_equal. rewrite sbessel_1, sin_PI, cos_PI. cbn [INR]. field. lra.
Qed.

(** * C121 *)
(** The second derivative, and what [jl_d2] is off by. *)
Theorem C121_error l : exists g h, Derivative (sbessel l) g /\ Derivative g h /\
  forall z, z <> 0 -> jl_d2 sbessel l z = Some (h z + sbessel (l + 1) z / z + (INR l - 1) / z ^ 2 * sbessel l z).
Proof.
  exists (fun z => - sbessel (S l) z + INR l / z * sbessel l z).
  exists (fun z => sbessel (S (S l)) z - (2 * INR l + 1) / z * sbessel (S l) z + (INR l ^ 2 - INR l) / z ^ 2 * sbessel l z).
  split; [intros z N; now apply sbessel_d|]. split; [intros z N; now apply sbessel_d2|].
  intros z N. unfold jl_d2. rewrite !quot_ok by (try assumption; apply pow_nonzero; assumption). cbn [bind]. f_equal.
  replace (l + 1)%nat with (S l) by lia. replace (l + 2)%nat with (S (S l)) by lia. field. assumption.
Qed.
Print Assumptions C121_error.
Theorem C121_second_refuted : exists l z g h, z <> 0 /\ Derivative (sbessel l) g /\ Derivative g h /\ jl_d2 sbessel l z <> Some (h z).
Proof.
  destruct (C121_error 0) as (g & h & A & B & C). exists 0%nat, PI, g, h. pose proof PI_RGT_0. split; [lra|]. split; [assumption|]. split; [assumption|].
  rewrite C by lra. intros E. assert (K : sbessel (0 + 1) PI / PI + (INR 0 - 1) / PI ^ 2 * sbessel 0 PI = 0).
  { apply (f_equal (fun o => match o with Some x => x | None => 0 end)) in E. lra. }
  cbn [Nat.add INR] in K. rewrite sbessel_1, sbessel_0, sin_PI, cos_PI in K. assert (Q : / PI ^ 2 = 0).
  { rewrite <- K. field. lra. } assert (0 < / PI ^ 2) by (apply Rinv_0_lt_compat, pow_lt; lra). lra.
Qed.
Print Assumptions C121_second_refuted.
(** 3 / pi^2; the second derivative of sin z / z at pi is 2 / pi^2. *)
Example C121_ex : jl_d2 sbessel 0 PI = Some (3 / PI ^ 2) /\ exists g h, Derivative (sbessel 0) g /\ Derivative g h /\ h PI = 2 / PI ^ 2.
Proof.
  pose proof PI_RGT_0. split.
  - unfold jl_d2. rewrite !quot_ok by (try lra; apply pow_nonzero; lra). cbn [bind Nat.add]. f_equal. rewrite sbessel_rec, sbessel_1, sbessel_0, sin_PI, cos_PI. cbn [INR]. field. lra.
  - exists (fun z => - sbessel 1 z + INR 0 / z * sbessel 0 z). eexists. split; [intros z N; now apply sbessel_d|]. split; [intros z N; now apply sbessel_d2|].
    cbn beta. rewrite sbessel_rec, sbessel_1, sbessel_0, sin_PI, cos_PI. cbn [INR]. field. lra.
Qed.
