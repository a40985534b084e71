(** C123 to C126: leap seconds, rotation of the Earth, stellar days. *)
From Coq Require Import List Bool Reals ZArith Lra Lia.
From Verif Require Import PyBase SolveModel SolveProofs LsdModel LsdSpec LsdProofs.
Open Scope R_scope.

(** * C123 *)
(** With any clock that differs from UNIX time by leap seconds the result is their number. *)
Theorem C123_number tt leap a b : Clock tt leap -> leap_seconds_between tt a b = Ok (leap b - leap a)%Z.
Proof. apply leap_clock. Qed.
Print Assumptions C123_number.
(** With any other it is checked to be a whole number, to a hundredth of a second. *)
Theorem C123_checked tt a b :
  match leap_seconds_between tt a b with
  | Ok n => Rabs (86400 * (tt b - tt a) - (b - a) - IZR n) <= 1 / 100
  | Err e => e = RuntimeError /\ forall n : Z, 1 / 100 < Rabs (86400 * (tt b - tt a) - (b - a) - IZR n)
  end.
Proof.
  unfold leap_seconds_between. replace ((tt b - tt a) * 24 * 3600 - (b - a)) with (86400 * (tt b - tt a) - (b - a)) by lra. set (x := 86400 * (tt b - tt a) - (b - a)).
  destruct (rltb (1 / 100) (Rabs (x - IZR (rint x)))) eqn:E.
  - apply rltb_true in E. split; [reflexivity|]. intros n. destruct (Rlt_or_le (1 / 100) (Rabs (x - IZR n))) as [H|H]; [exact H|]. rewrite (rint_near x n) in E by lra. lra.
  - apply Rnot_lt_le. intros F. apply rltb_true in F. congruence.
Qed.
Print Assumptions C123_checked.
Definition ex_leap (t : R) : Z := if rltb t 1000 then 0%Z else 1%Z.
Definition ex_tt (t : R) : R := 7 + (t + IZR (ex_leap t)) / 86400.
Definition ex_turns (t : R) : R := (t + IZR (ex_leap t)) / day.
Lemma ex_clock : Clock ex_tt ex_leap.
Proof. now exists 7. Qed.
Lemma ex_leaps : Leaps ex_leap.
Proof.
  assert (B : forall t, (0 <= ex_leap t <= 1)%Z) by (intros t; unfold ex_leap; destruct (rltb t 1000); lia). split.
  - intros s t H. pose proof (B s). pose proof (B t). split; [|lia]. unfold ex_leap. destruct (rltb s 1000) eqn:E, (rltb t 1000) eqn:F; try lia.
    apply rltb_true in F. assert (rltb s 1000 = true) by (apply rltb_true; lra). congruence.
  - intros s t. pose proof (B s). pose proof (B t). lia.
Qed.
Lemma ex_uniform : Uniform ex_turns ex_leap.
Proof. intros a b. unfold ex_turns, elapsed. pose proof day_pos. field. lra. Qed.
Lemma ex_before t : t < 1000 -> ex_leap t = 0%Z.
Proof. intros H. unfold ex_leap. now rewrite (proj2 (rltb_true _ _)). Qed.
Lemma ex_after t : 1000 <= t -> ex_leap t = 1%Z.
Proof. intros H. unfold ex_leap. destruct (rltb t 1000) eqn:E; [apply rltb_true in E; lra|reflexivity]. Qed.
Example C123_ex : leap_seconds_between ex_tt 3 5000 = Ok 1%Z /\ leap_seconds_between ex_tt 2000 5000 = Ok 0%Z /\ leap_seconds_between ex_tt 5000 3 = Ok (-1)%Z /\
  leap_seconds_between (fun t => t) 0 (1 / 86399 / 2) = Err RuntimeError.
Proof.
  split; [rewrite (C123_number _ _ _ _ ex_clock), (ex_after 5000), (ex_before 3) by lra; reflexivity|].
  split; [rewrite (C123_number _ _ _ _ ex_clock), (ex_after 5000), (ex_after 2000) by lra; reflexivity|].
  split; [rewrite (C123_number _ _ _ _ ex_clock), (ex_after 5000), (ex_before 3) by lra; reflexivity|].
  pose proof (C123_checked (fun t => t) 0 (1 / 86399 / 2)) as H. revert H. destruct (leap_seconds_between _ _ _) as [n|e]; intros H; [|now destruct H as [-> _]].
  exfalso. assert (E : 86400 * (1 / 86399 / 2 - 0) - (1 / 86399 / 2 - 0) - IZR n = 1 / 2 - IZR n) by lra. rewrite E in H. clear E.
  assert (Z : (n <= 0)%Z \/ (1 <= n)%Z) by lia. destruct Z as [Z|Z]; apply IZR_le in Z; revert H; unfold Rabs; destruct (Rcase_abs _); lra.
Qed.

(** * C124 *)
(** The time found is the one at which the Earth has the angle, less than one turn after [time0]. *)
Theorem C124_found turns tt leap era t0 t : Clock tt leap -> Uniform turns leap -> Leaps leap ->
  SameAngle (360 * turns t) era -> 0 <= elapsed leap t0 t < day -> era_to_unix turns tt era t0 = Ok t.
Proof.
  intros C U [M _] (k & A) E. rewrite (era_to_unix_eq _ _ leap) by assumption. pose proof day_pos as DP. specialize (U t0 t).
  assert (W : wait turns era t0 = elapsed leap t0 t).
  { unfold wait. rewrite (rmod_unique _ 1 (elapsed leap t0 t / day) (- k)); [field; lra|lra| |].
    - split; [apply Rmult_le_pos; [lra|left; apply Rinv_0_lt_compat; lra]|]. apply (Rmult_lt_reg_r day); [lra|]. replace (elapsed leap t0 t / day * day) with (elapsed leap t0 t) by (field; lra). lra.
    - rewrite opp_IZR, <- U. lra. }
  rewrite W. clear W U. unfold elapsed in *. assert (T : t0 <= t).
  { apply Rnot_lt_le. intros L. destruct (M t t0) as [M1 _]; [lra|]. apply IZR_le in M1. lra. }
  replace (t0 + (t + IZR (leap t) - (t0 + IZR (leap t0)))) with (t + IZR (leap t - leap t0)) by (rewrite minus_IZR; lra).
  assert (L : leap (t + IZR (leap t - leap t0)) = leap t).
  { destruct (M t0 t T) as [M1 _]. assert (M2 : t <= t0 + 86165) by (apply IZR_le in M1; lra). destruct (M t0 t T) as [_ M3]. specialize (M3 ltac:(lra)).
    assert (Z : (leap t - leap t0 = 0 \/ leap t - leap t0 = 1)%Z) by lia. destruct Z as [-> | Z]; [now rewrite Rplus_0_r|]. rewrite Z. destruct (M t (t + 1) ltac:(lra)) as [M4 _].
    destruct (M t0 (t + 1) ltac:(lra)) as [_ M5]. specialize (M5 ltac:(lra)). lia. }
  rewrite L, minus_IZR. f_equal. lra.
Qed.
Print Assumptions C124_found.
(** There always is a result.  It has the angle, unless the Earth has it during a leap second, which has no UNIX
    time; then the result lies in the second before and the angle is missed by the rotation in one second. *)
Theorem C124_result turns tt leap era t0 : Clock tt leap -> Uniform turns leap -> Leaps leap -> exists r, era_to_unix turns tt era t0 = Ok r /\
  ((SameAngle (360 * turns r) era /\ 0 <= elapsed leap t0 r < day) \/
   (leap (r + 1) = (leap r + 1)%Z /\ SameAngle (360 * turns r + 360 / day) era /\ -1 <= elapsed leap t0 r < day - 1)).
Proof.
  intros C U [M _]. rewrite (era_to_unix_eq _ _ leap) by assumption. eexists. split; [reflexivity|]. pose proof (wait_bounds turns era t0) as WB. destruct (wait_angle turns era t0) as (k & A). pose proof day_pos as DP.
  set (d := wait turns era t0) in *. destruct (M t0 (t0 + d) ltac:(lra)) as [M1 M2]. specialize (M2 ltac:(lra)). set (r := t0 + d - IZR (leap (t0 + d)) + IZR (leap t0)) in *.
  assert (K : leap r = leap (t0 + d) -> (SameAngle (360 * turns r) era /\ 0 <= elapsed leap t0 r < day)).
  { intros E. assert (EL : elapsed leap t0 r = d) by (unfold elapsed; rewrite E; unfold r; lra). split; [|lra]. exists k. specialize (U t0 r). rewrite EL in U. lra. }
  assert (Z : leap (t0 + d) = leap t0 \/ leap (t0 + d) = (leap t0 + 1)%Z) by lia. destruct Z as [Z|Z].
  - left. apply K. unfold r. rewrite Z. replace (t0 + d - IZR (leap t0) + IZR (leap t0)) with (t0 + d) by lra. exact Z.
  - assert (R1 : r + 1 = t0 + d) by (unfold r; rewrite Z, plus_IZR; lra). destruct (Z.eq_dec (leap r) (leap (t0 + d))) as [E|N]; [left; auto|].
    right. rewrite R1. destruct (M r (t0 + d) ltac:(lra)) as [M3 M4]. specialize (M4 ltac:(lra)). split; [lia|].
    assert (EL : elapsed leap t0 r = d - 1) by (unfold elapsed; replace (leap r) with (leap t0) by lia; lra). specialize (U t0 r). rewrite EL in U.
    split; [|lra]. exists k. replace ((d - 1) / day) with (d / day - 1 / day) in U by (field; lra). lra.
Qed.
Print Assumptions C124_result.
(** Nothing earlier has the angle. *)
Theorem C124_first turns tt leap era t0 r : Clock tt leap -> Uniform turns leap -> Leaps leap -> era_to_unix turns tt era t0 = Ok r ->
  forall t, 0 <= elapsed leap t0 t < day -> SameAngle (360 * turns t) era -> t = r.
Proof. intros C U L H t E A. rewrite (C124_found _ _ _ _ _ t C U L A E) in H. now injection H. Qed.
Print Assumptions C124_first.
(** Without leap seconds, but any rotation of the Earth: the angle is missed by as much as the Earth turned too far since [time0]. *)
Theorem C124_error turns tt era t0 : Clock tt (fun _ => 0%Z) -> exists r, era_to_unix turns tt era t0 = Ok r /\ t0 <= r < t0 + day /\
  SameAngle (360 * (turns r - (turns r - turns t0 - (r - t0) / day))) era.
Proof.
  intros C. rewrite (era_to_unix_eq _ _ _ _ _ C). eexists. split; [reflexivity|]. pose proof (wait_bounds turns era t0) as WB. destruct (wait_angle turns era t0) as (k & A).
  split; [lra|]. exists k. replace (t0 + wait turns era t0 - 0 + 0 - t0) with (wait turns era t0) by lra. lra.
Qed.
Print Assumptions C124_error.
(** During the leap second the angle is missed. *)
Theorem C124_leap_refuted : exists turns tt leap era t0 r, Clock tt leap /\ Uniform turns leap /\ Leaps leap /\ era_to_unix turns tt era t0 = Ok r /\ ~ SameAngle (360 * turns r) era.
Proof.
  pose proof day_pos as DP. exists ex_turns, ex_tt, ex_leap, (360 * ((2001 / 2) / day)), 0, (1999 / 2).
  split; [apply ex_clock|]. split; [apply ex_uniform|]. split; [apply ex_leaps|].
  assert (W : wait ex_turns (360 * ((2001 / 2) / day)) 0 = (2001 / 2)).
  { unfold wait, ex_turns. rewrite (ex_before 0) by lra. rewrite (rmod_unique _ 1 ((2001 / 2) / day) 0); [field; lra|lra| |field; lra].
    split; [apply Rmult_le_pos; [lra|left; apply Rinv_0_lt_compat; lra]|]. apply (Rmult_lt_reg_r day); [lra|]. replace ((2001 / 2) / day * day) with (2001 / 2) by (field; lra). lra. }
  split; [rewrite (era_to_unix_eq _ _ ex_leap) by apply ex_clock; rewrite W, (ex_after (0 + (2001 / 2))), (ex_before 0) by lra; f_equal; lra|].
  unfold ex_turns. rewrite ex_before by lra. intros (k & H). assert (E : IZR k = -1 / day) by (replace (-1 / day) with (((1999 / 2) + 0) / day - (2001 / 2) / day) by (field; lra); lra).
  assert (B : -1 < -1 / day < 0).
  { assert (0 < / day < 1) by (split; [apply Rinv_0_lt_compat; lra|rewrite <- Rinv_1; apply Rinv_lt_contravar; lra]). unfold Rdiv. lra. }
  rewrite <- E in B. destruct B as [B1 B2]. apply lt_IZR in B1. apply lt_IZR in B2. lia.
Qed.
Print Assumptions C124_leap_refuted.
Example C124_ex : era_to_unix ex_turns ex_tt (360 * (2001 / day)) 0 = Ok 2000 /\ era_to_unix ex_turns ex_tt 0 2000 = Ok (day - 1).
Proof.
  pose proof day_pos as DP. split; apply (C124_found _ _ ex_leap); try apply ex_clock; try apply ex_uniform; try apply ex_leaps.
  - exists 0%Z. unfold ex_turns. rewrite ex_after by lra. lra.
  - unfold elapsed. rewrite ex_after, ex_before by lra. lra.
  - exists 1%Z. unfold ex_turns. rewrite ex_after by lra. field. lra.
  - unfold elapsed. rewrite !ex_after by lra. lra.
Qed.

(** * C125 *)
(** Day zero begins when the meridian of the observer has turned by a whole number of turns, less than a day after the start. *)
Theorem C125_zero turns tt leap lon start z : Clock tt leap -> Uniform turns leap -> Leaps leap ->
  (exists k : Z, meridian turns lon z = IZR k) -> 0 <= elapsed leap start z < day -> lsd_zero turns tt lon start = Ok z.
Proof.
  intros C U L (k & K) E. unfold lsd_zero, lsa_to_unix. apply (C124_found _ _ leap); try assumption. destruct (rmod_shift (0 - lon) 360) as (m & ->). exists (k - m)%Z. unfold meridian in K. rewrite minus_IZR. lra.
Qed.
Print Assumptions C125_zero.
(** Whatever the rotation of the Earth: the result counts the turns of the meridian, as long as the average sidereal day gives them to half a turn. *)
Theorem C125_turns turns tt lon start z (k : Z) t : lsd_zero turns tt lon start = Ok z ->
  Rabs ((t - z) / sidereal_day - (meridian turns lon t - IZR k)) < 1 / 2 -> unix_to_lsd turns tt lon start t = Ok (meridian turns lon t - IZR k).
Proof.
  intros Z H. unfold unix_to_lsd. rewrite Z. cbn [rbind]. rewrite lsa_eq. destruct (rmod_shift (meridian turns lon t) 1) as (m & E).
  replace (24 * 3600 * sidereal_second) with sidereal_day by (unfold sidereal_second, UT1_second, sidereal_day; lra).
  replace (360 * rmod (meridian turns lon t) 1 / 360) with (rmod (meridian turns lon t) 1) by field. rewrite E.
  rewrite (rint_near _ (- k - m)); [rewrite minus_IZR, opp_IZR; f_equal; lra|]. rewrite minus_IZR, opp_IZR.
  replace ((t - z) / sidereal_day - (meridian turns lon t + 1 * IZR m) - (- IZR k - IZR m)) with ((t - z) / sidereal_day - (meridian turns lon t - IZR k)) by lra. exact H.
Qed.
Print Assumptions C125_turns.
Lemma sidereal_ratio x : x / sidereal_day = x / day * (1 + 1 / 10000000) - x / day * (1 / 10000000 - (100273790935079500 / 100273781191135448 - 1)).
Proof. unfold sidereal_day, day. lra. Qed.
Lemma lsd_close leap z t : Leaps leap -> Rabs (t - z) <= 400000000000 -> Rabs ((t - z) / sidereal_day - elapsed leap z t / day) < 1 / 2.
Proof.
  intros [_ M] B. rewrite sidereal_ratio. pose proof day_pos as DP. unfold elapsed. replace ((t + IZR (leap t) - (z + IZR (leap z))) / day) with ((t - z) / day + IZR (leap t - leap z) / day) by (rewrite minus_IZR; field; lra).
  assert (ID : 0 < / day < 1 / 86164) by (split; [apply Rinv_0_lt_compat; lra|]; replace (1 / 86164) with (/ 86164) by lra; apply Rinv_lt_contravar; lra).
  assert (A : Rabs ((t - z) / day) <= 400000000000 / 86164).
  { unfold Rdiv. rewrite Rabs_mult, (Rabs_right (/ day)) by lra. apply Rmult_le_compat; [apply Rabs_pos|lra|exact B|lra]. }
  assert (D : Rabs (IZR (leap t - leap z) / day) <= 500 / 86164).
  { unfold Rdiv. rewrite Rabs_mult, (Rabs_right (/ day)) by lra. apply Rmult_le_compat; [apply Rabs_pos|lra| |lra]. apply Rabs_le. pose proof (M t z) as M1. pose proof (M z t) as M2.
    assert (M3 : (-500 <= leap t - leap z <= 500)%Z) by lia. destruct M3 as [M3 M4]. apply IZR_le in M3, M4. lra. }
  set (a := (t - z) / day) in *. set (b := IZR (leap t - leap z) / day) in *. clearbody a b. clear M B ID DP. revert A D. unfold Rabs. repeat destruct (Rcase_abs _); intros; lra.
Qed.
(** For a uniformly rotating Earth it counts the turns since day zero, for twelve thousand years in either direction. *)
Theorem C125_count turns tt leap lon start z t : Uniform turns leap -> Leaps leap -> lsd_zero turns tt lon start = Ok z -> (exists k : Z, meridian turns lon z = IZR k) ->
  Rabs (t - z) <= 400000000000 -> unix_to_lsd turns tt lon start t = Ok (elapsed leap z t / day).
Proof.
  intros U L Z (k & K) B. assert (E : meridian turns lon t - IZR k = elapsed leap z t / day) by (rewrite <- (U z t); unfold meridian in *; lra).
  rewrite <- E. apply (C125_turns _ _ _ _ z); [assumption|]. rewrite E. now apply lsd_close.
Qed.
Print Assumptions C125_count.
(** Not for ever. *)
Theorem C125_far_refuted : exists turns tt leap lon start z t x, Clock tt leap /\ Uniform turns leap /\ Leaps leap /\ lsd_zero turns tt lon start = Ok z /\ meridian turns lon z = 0 /\
  unix_to_lsd turns tt lon start t = Ok x /\ x <> elapsed leap z t / day.
Proof.
  pose proof day_pos as DP. set (turns := fun t => t / day). set (tt := fun t => 7 + t / 86400).
  assert (U : Uniform turns (fun _ => 0%Z)) by (intros a b; unfold turns, elapsed; field; lra).
  assert (C : Clock tt (fun _ => 0%Z)) by (exists 7; intros t; unfold tt; lra).
  assert (L : Leaps (fun _ => 0%Z)) by (split; [intros; lia|intros; lia]).
  assert (Z : lsd_zero turns tt 0 0 = Ok 0).
  { apply (C125_zero _ _ (fun _ => 0%Z)); try assumption; [exists 0%Z; unfold meridian, turns; lra|unfold elapsed; lra]. }
  exists turns, tt, (fun _ => 0%Z), 0, 0, 0, (10000000 * day), (10000000 + 1).
  split; [exact C|]. split; [exact U|]. split; [exact L|]. split; [exact Z|]. split; [unfold meridian, turns; lra|]. split.
  - rewrite (C125_turns turns tt 0 0 0 (-1) _ Z).
    + unfold meridian, turns. f_equal. field. lra.
    + rewrite sidereal_ratio. unfold meridian, turns. replace ((10000000 * day - 0) / day) with 10000000 by (field; lra). replace (10000000 * day / day) with 10000000 by (field; lra).
      unfold Rabs. destruct (Rcase_abs _); lra.
  - unfold elapsed. replace ((10000000 * day + 0 - (0 + 0)) / day) with 10000000 by (field; lra). lra.
Qed.
Print Assumptions C125_far_refuted.
Lemma ex_zero : lsd_zero ex_turns ex_tt 0 0 = Ok 0.
Proof.
  pose proof day_pos as DP. apply (C125_zero _ _ ex_leap); [apply ex_clock|apply ex_uniform|apply ex_leaps| |unfold elapsed; lra]. exists 0%Z. unfold meridian, ex_turns. rewrite ex_before by lra. field. lra.
Qed.
Example C125_ex : unix_to_lsd ex_turns ex_tt 0 0 (100 * day) = Ok (100 + 1 / day).
Proof.
  pose proof day_pos as DP. rewrite (C125_count _ _ ex_leap _ _ 0); [|apply ex_uniform|apply ex_leaps|apply ex_zero| |].
  - unfold elapsed. rewrite ex_after, ex_before by lra. f_equal. field. lra.
  - exists 0%Z. unfold meridian, ex_turns. rewrite ex_before by lra. field. lra.
  - rewrite Rabs_right by lra. lra.
Qed.

(** * C126 *)
(** [lsd_to_unix] gives the time with the wanted number of turns since day zero. *)
Theorem C126_time turns tt leap lon start z t : Clock tt leap -> Uniform turns leap -> Leaps leap -> lsd_zero turns tt lon start = Ok z -> (exists k : Z, meridian turns lon z = IZR k) ->
  Rabs (t - z) <= 400000000000 -> lsd_to_unix turns tt lon start (elapsed leap z t / day) = Ok t.
Proof.
  intros C U L Z (k & K) B. unfold lsd_to_unix, lsa_to_unix. rewrite Z. cbn [rbind]. set (x := elapsed leap z t / day). pose proof day_pos as DP.
  apply (C124_found _ _ leap); try assumption.
  - destruct (rmod_shift (360 * rmod x 1 - lon) 360) as (m & ->). destruct (rmod_shift x 1) as (n & ->). exists (k - n - m)%Z. rewrite !minus_IZR. unfold x. rewrite <- (U z t). unfold meridian in K. lra.
  - assert (X : x * day = elapsed leap z t) by (unfold x; field; lra).
    replace (x * 3600 * 24 * sidereal_second) with (x * day * (100273781191135448 / 100273790935079500)) by (unfold sidereal_second, UT1_second, day; lra). rewrite X.
    set (s := z + elapsed leap z t * (100273781191135448 / 100273790935079500) - 12 * 3600). destruct L as [_ M]. unfold elapsed in *. pose proof (M s z) as M1. pose proof (M z s) as M2. pose proof (M t z) as M3. pose proof (M z t) as M4.
    apply IZR_lt in M1, M2, M3, M4. rewrite !minus_IZR in *. assert (B' : - 400000000000 <= t - z <= 400000000000) by (revert B; unfold Rabs; destruct (Rcase_abs _); lra).
    clear B X Z C U K x. unfold s in *. clear s. set (ls := IZR (leap (z + (t + IZR (leap t) - (z + IZR (leap z))) * (100273781191135448 / 100273790935079500) - 12 * 3600))) in *. clearbody ls. lra.
Qed.
Print Assumptions C126_time.
(** The two conversions are inverse. *)
Theorem C126_inverse turns tt leap lon start z t : Clock tt leap -> Uniform turns leap -> Leaps leap -> lsd_zero turns tt lon start = Ok z -> (exists k : Z, meridian turns lon z = IZR k) ->
  Rabs (t - z) <= 400000000000 -> exists x, unix_to_lsd turns tt lon start t = Ok x /\ lsd_to_unix turns tt lon start x = Ok t.
Proof.
  intros C U L Z K B. exists (elapsed leap z t / day). split; [now apply C125_count|now apply C126_time].
Qed.
Print Assumptions C126_inverse.
Example C126_ex : lsd_to_unix ex_turns ex_tt 0 0 (100 + 1 / day) = Ok (100 * day).
Proof.
  pose proof day_pos as DP. replace (100 + 1 / day) with (elapsed ex_leap 0 (100 * day) / day); [apply C126_time; [apply ex_clock|apply ex_uniform|apply ex_leaps|apply ex_zero| |]|].
  - exists 0%Z. unfold meridian, ex_turns. rewrite ex_before by lra. field. lra.
  - rewrite Rabs_right by lra. lra.
  - unfold elapsed. rewrite ex_after, ex_before by lra. field. lra.
Qed.
