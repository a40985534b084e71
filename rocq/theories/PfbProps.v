(** The filter bank, C149-C152. *)
From Coq Require Import List Bool Reals ZArith Arith Lia Lra.
From Verif Require Import PyBase FftModel FftSpec FftProofs PfbModel PfbSpec PfbProofs PfbProofs2.
Import ListNotations.
Open Scope R_scope.
Add Ring CRingP3 : C_ring.

(** C149 *)
Theorem C149_channels : forall ntap lblock w size ts, (0 < ntap)%nat -> (0 < lblock)%nat -> (ntap <= size / lblock + 1)%nat ->
  exists spec, apply ntap lblock w size ts = Ok spec /\
    length spec = (size / lblock + 1 - ntap)%nat /\
    forall b, (b < size / lblock + 1 - ntap)%nat -> exists row, nth_error spec b = Some row /\
      length row = (lblock / 2)%nat /\
      forall f, (f < lblock / 2)%nat -> nth_error row f = Some (channel ntap lblock w ts b f).
Proof.
  intros ntap lblock w size ts P L E. unfold apply. destruct (Nat.eqb_spec lblock 0); [lia|].
  unfold nblock. destruct (Z.ltb_spec (Z.of_nat (size / lblock) - (Z.of_nat ntap - 1)) 0); [lia|].
  replace (Z.to_nat (Z.of_nat (size / lblock) - (Z.of_nat ntap - 1))) with (size / lblock + 1 - ntap)%nat by lia.
  eexists. split; [reflexivity|]. rewrite map_length, seq_length. split; [reflexivity|].
  intros b B. rewrite nth_error_map, (nth_error_nth' _ 0%nat) by now rewrite seq_length.
  rewrite seq_nth by assumption. cbn [option_map]. eexists. split; [reflexivity|].
  rewrite map_length, seq_length. split; [reflexivity|]. intros f F.
  rewrite nth_error_map, (nth_error_nth' _ 0%nat) by now rewrite seq_length.
  rewrite seq_nth by assumption. cbn [option_map]. now rewrite rfft_channel by assumption.
Qed.
Print Assumptions C149_channels.
(** Only numbers of the timestream are used. *)
Theorem C149_inside : forall ntap lblock size b f a j, (0 < lblock)%nat -> (b < size / lblock + 1 - ntap)%nat ->
  (f < lblock / 2)%nat -> (a < ntap)%nat -> (j < lblock)%nat -> ((b + a) * lblock + j < size)%nat.
Proof.
  intros ntap lblock size b f a j L B _ A J. pose proof (Nat.div_mod size lblock ltac:(lia)) as D.
  set (q := (size / lblock)%nat) in *. assert (b + a + 1 <= q)%nat by lia. nia.
Qed.
Print Assumptions C149_inside.
(** A delay of whole blocks moves the spectra. *)
Theorem C149_delay : forall ntap lblock w ts n b f,
  channel ntap lblock w (fun t => ts (n * lblock + t)%nat) b f = channel ntap lblock w ts (n + b) f.
Proof.
  intros. unfold channel. apply csum_ext. intros j _. do 2 f_equal. unfold taps. apply rsum_ext. intros a _.
  do 2 f_equal. lia.
Qed.
Print Assumptions C149_delay.
Theorem C149_short : forall ntap lblock w size ts, (0 < lblock)%nat -> (size / lblock + 1 < ntap)%nat ->
  apply ntap lblock w size ts = Err ValueError.
Proof.
  intros ntap lblock w size ts L E. unfold apply. destruct (Nat.eqb_spec lblock 0); [lia|].
  unfold nblock. destruct (Z.ltb_spec (Z.of_nat (size / lblock) - (Z.of_nat ntap - 1)) 0); [reflexivity|lia].
Qed.
Print Assumptions C149_short.
Example C149_example : exists r, apply 2 2 (fun _ => 1) 5 INR = Ok [[r]] /\ r = (0 + 1 + 2 + 3, 0).
Proof.
  exists (rfft 4 (section_ 2 (fun _ => 1) INR 0) 0). split; [reflexivity|]. unfold rfft, section_. cbn [csum Nat.mul Nat.add INR].
  change (- Z.of_nat 0)%Z with 0%Z. rewrite root_0.
  apply ceq; cbn; lra.
Qed.

(** C150 *)
Theorem C150_profile : forall ntap lblock os w i, (0 < ntap)%nat -> (0 < lblock)%nat -> (0 < os)%nat ->
  let N := (ntap * lblock)%nat in
  (i < N * os)%nat ->
  rel_freq ntap lblock os i = (INR i - INR (N * os / 2)) / (INR ntap * INR os) /\
  profile ntap lblock os w false i = response N lblock w (rel_freq ntap lblock os i).
Proof.
  intros ntap lblock os w i Pt Pl Po N I. unfold rel_freq, profile, profile_raw, fftshift, nfft. fold N.
  set (n := (N * os)%nat) in *. destruct (shift_index n i I) as [K E].
  set (k := ((i + (n - n / 2)) mod n)%nat) in *. cbv zeta in K, E.
  assert (En: INR n = INR ntap * INR lblock * INR os) by (unfold n, N; now rewrite !mult_INR).
  assert (Ht: INR ntap <> 0) by (apply not_0_INR; lia). assert (Hl: INR lblock <> 0) by (apply not_0_INR; lia).
  assert (Ho: INR os <> 0) by (apply not_0_INR; lia).
  assert (F: fftfreq n (1 / INR lblock) k = (INR i - INR (n / 2)) / (INR ntap * INR os)).
  { unfold fftfreq. apply (f_equal IZR) in E. rewrite minus_IZR, <- !INR_IZR_INZ in E.
    destruct (k <? (n - 1) / 2 + 1)%nat; [rewrite <- INR_IZR_INZ in E|rewrite minus_IZR, <- !INR_IZR_INZ in E];
      rewrite E, En; field; auto. }
  split; [exact F|]. rewrite F. unfold response.
  replace n with (N + (n - N))%nat at 1 by (assert (N <= n)%nat by (unfold n; nia); lia).
  rewrite csum_plus, (csum_0 (n - N)).
  - match goal with |- cadd ?a C0 = _ => transitivity a; [ring|] end.
    apply csum_ext. intros t T. unfold padded. fold N. destruct (Nat.ltb_spec t N); [|lia]. f_equal.
    assert (R: root n (- Z.of_nat (t * k)) = root n (- (Z.of_nat t * (Z.of_nat i - Z.of_nat (n / 2))))).
    { rewrite <- E. apply root_eqm; [lia|]. destruct (k <? (n - 1) / 2 + 1)%nat.
      - replace (- Z.of_nat (t * k) - - (Z.of_nat t * Z.of_nat k))%Z with 0%Z by lia. now rewrite Z.mod_0_l by lia.
      - replace (- Z.of_nat (t * k) - - (Z.of_nat t * (Z.of_nat k - Z.of_nat n)))%Z with ((- Z.of_nat t) * Z.of_nat n)%Z by nia.
        apply Z.mod_mul. lia. }
    rewrite R. unfold root. rewrite opp_IZR, mult_IZR, minus_IZR, <- !INR_IZR_INZ.
    replace (2 * PI * - (INR t * (INR i - INR (n / 2))) / INR n)
      with (- (2 * PI * INR t * ((INR i - INR (n / 2)) / (INR ntap * INR os)) / INR lblock))
      by (rewrite En; field; auto).
    now rewrite cos_neg, sin_neg.
  - intros j _. unfold padded. fold N. destruct (Nat.ltb_spec (N + j) N); [lia|]. apply ceq; cbn; ring.
Qed.
Print Assumptions C150_profile.
Theorem C150_normalised : forall ntap lblock os w, (0 < ntap * lblock * os)%nat ->
  (exists i, (i < ntap * lblock * os)%nat /\ 0 < fst (profile ntap lblock os w false i)) ->
  (forall i, (i < ntap * lblock * os)%nat -> fst (profile ntap lblock os w true i) <= 1) /\
  (exists i, (i < ntap * lblock * os)%nat /\ fst (profile ntap lblock os w true i) = 1) /\
  exists c, 0 < c /\ forall i, profile ntap lblock os w false i = cmul (rc c) (profile ntap lblock os w true i).
Proof.
  intros ntap lblock os w P (i0 & I0 & E0). unfold profile in *. unfold nfft.
  set (f := fun j => fst (profile_raw ntap lblock os w j)).
  assert (M: 0 < rmax (ntap * lblock * os) f) by (eapply Rlt_le_trans; [exact E0|now apply (rmax_ge _ f)]).
  repeat split.
  - intros i I. rewrite fst_rc. apply (Rmult_le_reg_l (rmax (ntap * lblock * os) f)); [assumption|].
    rewrite <- Rmult_assoc, Rinv_r, Rmult_1_l, Rmult_1_r by lra. now apply (rmax_ge _ f).
  - destruct (rmax_in (ntap * lblock * os) f P) as (i & I & E). exists i. split; [assumption|].
    rewrite fst_rc. fold (f i). rewrite E. apply Rinv_l. lra.
  - exists (rmax (ntap * lblock * os) f). split; [assumption|]. intros i.
    transitivity (cmul (rc (rmax (ntap * lblock * os) f * / rmax (ntap * lblock * os) f)) (profile_raw ntap lblock os w i)).
    + rewrite Rinv_r by lra. apply ceq; cbn; ring.
    + rewrite rc_mul. ring.
Qed.
Print Assumptions C150_normalised.
Theorem C150_evaluate : forall ntap lblock os w I spline value norm calls,
  Forall (fun c => fst c = norm) calls ->
  evaluates ntap lblock os w I spline value None calls
  = map (fun c => value (spline (rel_freq ntap lblock os) (profile ntap lblock os w norm)) (snd c)) calls.
Proof.
  intros ntap lblock os w I spline value norm calls H.
  assert (G: forall st, st = None \/ st = Some (spline (rel_freq ntap lblock os) (profile ntap lblock os w norm)) ->
    evaluates ntap lblock os w I spline value st calls
    = map (fun c => value (spline (rel_freq ntap lblock os) (profile ntap lblock os w norm)) (snd c)) calls).
  { induction H as [|[n x] l E H IH]; intros st S; [reflexivity|]. cbn in E. subst n.
    destruct S as [-> | ->]; cbn; now rewrite IH by now right. }
  apply G. now left.
Qed.
Print Assumptions C150_evaluate.
Example C150_example : rel_freq 2 2 2 4 = 0 /\ profile 2 2 2 INR false 4 = (6, 0).
Proof.
  destruct (C150_profile 2 2 2 INR 4 ltac:(lia) ltac:(lia) ltac:(lia) ltac:(cbn; lia)) as [A B].
  assert (Z: rel_freq 2 2 2 4 = 0) by (rewrite A; cbn; field). split; [exact Z|].
  rewrite B, Z. unfold response. cbn [Nat.mul Nat.add csum INR].
  repeat match goal with |- context [2 * PI * ?t * 0 / ?d] => replace (2 * PI * t * 0 / d) with 0 by (unfold Rdiv; ring) end.
  rewrite cos_0, sin_0. apply ceq; cbn; lra.
Qed.

(** C151 *)
(** The argument [norm] of a later call is not looked at. *)
Theorem C151_cached_refuted : exists ntap lblock os w x,
  let value := fun (f : nat -> Cx) (x : R) => Some (f (Z.to_nat (up x))) in
  let run := fun calls => evaluates ntap lblock os w (nat -> Cx) (fun _ f => f) value None calls in
  nth 1 (run [(true, x); (false, x)]) None <> nth 0 (run [(false, x)]) None.
Proof.
  exists 1%nat, 1%nat, 1%nat, (fun _ => 2), (-1/2). intros value run.
  assert (U: up (-1/2) = 0%Z) by (symmetry; apply tech_up; lra).
  subst run value. cbn [evaluates evaluate nth]. rewrite U. change (Z.to_nat 0) with 0%nat.
  assert (E: profile_raw 1 1 1 (fun _ => 2) 0 = (2, 0)).
  { unfold profile_raw, fftshift, nfft, padded. cbn -[root]. change (- Z.of_nat 0)%Z with 0%Z. rewrite root_0. apply ceq; cbn; ring. }
  unfold profile, nfft. cbn [Nat.mul Nat.add rmax]. rewrite E. cbn [fst].
  rewrite Rmax_left by lra. intros X. injection X as X _. lra.
Qed.
Print Assumptions C151_cached_refuted.
Example C151_example : forall I (i : I) value x ntap lblock os w spline, evaluate ntap lblock os w I spline value (Some i) true x
  = evaluate ntap lblock os w I spline value (Some i) false x.
Proof. reflexivity. Qed.

(** C152 *)
Theorem C152_value : forall ntap lblock os w d, let N := (ntap * lblock)%nat in
  (0 < N)%nat -> (2 <= os)%nat -> Nat.even (N * os) = true -> (d < N)%nat ->
  let c := alternating N w * alternating N w / INR (N * os) in
  autocorrelation N w 0 + c <> 0 ->
  decorrelation ntap lblock os w (d * os)
  = Ok ((autocorrelation N w d + (if Nat.even d then c else - c)) / (autocorrelation N w 0 + c)).
Proof.
  intros ntap lblock os w d N P O E D c Nz.
  assert (T: (d * os < (N * os ^ 2 - 1) / 2 + 1)%nat).
  { assert (N * os - 1 <= (N * os ^ 2 - 1) / 2)%nat by (apply Nat.div_le_lower_bound; [lia|cbn; nia]). nia. } apply Nat.even_spec in E as [h Eh].
  assert (Lh: (ntap * lblock * os = h + h)%nat) by (unfold N in Eh; lia).
  unfold decorrelation. rewrite (length_ok ntap lblock os O P h Lh).
  destruct (Nat.eqb_spec (npad ntap lblock os) 0) as [Q|_].
  { exfalso. unfold npad in Q. fold N in Q. cbn in Q. nia. }
  rewrite Nat.eqb_refl. cbn [negb]. fold N.
  destruct (Nat.leb_spec (d * os) (N * os)); [|nia].
  unfold npad. fold N. destruct (Nat.ltb_spec (d * os) ((N * os ^ 2 - 1) / 2 + 1)); [|lia]. cbn [andb]. f_equal.
  pose proof (irfft_value ntap lblock os w O P h Lh d ltac:(fold N; lia)) as A. pose proof (irfft_value ntap lblock os w O P h Lh 0 ltac:(lia)) as B.
  rewrite Nat.mul_0_l in B. fold N in A, B. cbn [Nat.even] in B.
  set (x := irfft _ _ (d * os)) in *. set (y := irfft _ _ 0) in *.
  assert (H1: INR (os * (N * os)) <> 0) by (apply not_0_INR; nia).
  assert (H2: INR (N * os) <> 0) by (apply not_0_INR; nia).
  set (K := INR (os * (N * os))) in *. set (L := INR (N * os)) in *.
  assert (Ex: x = (autocorrelation N w d + (if Nat.even d then c else - c)) * L / K).
  { apply (Rmult_eq_reg_r K); [|assumption]. rewrite A. unfold c. destruct (Nat.even d); field; auto. }
  assert (Ey: y = (autocorrelation N w 0 + c) * L / K).
  { apply (Rmult_eq_reg_r K); [|assumption]. rewrite B. unfold c. field; auto. }
  rewrite Ex, Ey. field. auto.
Qed.
Print Assumptions C152_value.
(** An odd number of points is an error. *)
Theorem C152_odd : forall ntap lblock os w t, Nat.odd (ntap * lblock * os) = true ->
  exists e, decorrelation ntap lblock os w t = Err e.
Proof.
  intros ntap lblock os w t O. unfold decorrelation, nwf.
  assert (Q: Nat.odd (npad ntap lblock os) = true).
  { unfold npad. replace (ntap * lblock * os ^ 2)%nat with (ntap * lblock * os * os)%nat by (cbn; lia).
    rewrite Nat.odd_mul, O. rewrite Nat.odd_mul in O. apply andb_true_iff in O as [_ ->]. reflexivity. }
  set (n := npad ntap lblock os) in *. apply Nat.odd_spec in Q as [q Q].
  replace (n / 2)%nat with q by (symmetry; rewrite Q; replace (2 * q + 1)%nat with (1 + q * 2)%nat by lia; rewrite Nat.div_add by lia; reflexivity).
  destruct (Nat.eqb_spec (2 * (q + 1 - 1)) 0); [now eexists|].
  destruct (Nat.eqb_spec (2 * (q + 1 - 1)) n); [lia|]. cbn. now eexists.
Qed.
Print Assumptions C152_odd.
Example C152_example : decorrelation 1 2 2 (fun t => INR (1 + t)) (1 * 2) = Ok (1 / 3).
Proof.
  rewrite C152_value; cbn; try lia; try reflexivity; try lra. f_equal. field.
Qed.

(** C153 *)
(** Without the term [c] it is the correlation of the window with itself. *)
Theorem C153_exact_partial : forall ntap lblock os w d, let N := (ntap * lblock)%nat in
  (0 < N)%nat -> (2 <= os)%nat -> Nat.even (N * os) = true -> (d < N)%nat ->
  autocorrelation N w 0 <> 0 -> alternating N w = 0 ->
  decorrelation ntap lblock os w (d * os) = Ok (autocorrelation N w d / autocorrelation N w 0).
Proof.
  intros ntap lblock os w d N P O E D A0 Al. unfold N in *. rewrite C152_value; auto; rewrite Al.
  - assert (INR (ntap * lblock * os) <> 0) by (apply not_0_INR; nia).
    f_equal. destruct (Nat.even d); field; auto.
  - unfold Rdiv. rewrite !Rmult_0_l, Rplus_0_r. assumption.
Qed.
Print Assumptions C153_exact_partial.
Theorem C153_correlation_refuted : exists ntap lblock os w d r,
  decorrelation ntap lblock os w (d * os) = Ok r /\ (d < ntap * lblock)%nat /\
  r <> autocorrelation (ntap * lblock) w d / autocorrelation (ntap * lblock) w 0.
Proof.
  exists 1%nat, 2%nat, 2%nat, (fun t => match t with O => 1 | _ => 0 end), 1%nat. eexists. split.
  - apply C152_value; cbn; try lia; try reflexivity. lra.
  - split; [cbn; lia|]. cbn. intros X.
    match type of X with ?a = ?b => replace a with (-1/5) in X by field; replace b with 0 in X by field end. lra.
Qed.
Print Assumptions C153_correlation_refuted.
(** An odd number of points is an error. *)
Theorem C153_odd_refuted : exists ntap lblock os, forall w t, decorrelation ntap lblock os w t = Err IndexError.
Proof. exists 1%nat, 3%nat, 1%nat. intros. reflexivity. Qed.
Print Assumptions C153_odd_refuted.
Example C153_example : decorrelation 1 2 2 (fun _ => 1) (1 * 2) = Ok (1 / 2).
Proof.
  rewrite C153_exact_partial; cbn; try lia; try reflexivity; try lra. f_equal. lra.
Qed.
