From Coq Require Import List Bool Reals ZArith Lia Lra Psatz.
From Verif Require Import PyBase SolveModel SolveSpec SolveProofs SolveProps LsdModel LsdSpec LsdProofs RisModel RisSpec RisProofs RisProofs2 RisProofs3 RisProps.
Import ListNotations.
Open Scope R_scope.

(** A star that is on the meridian at [c], [c] + 1, ... *)
Definition wheel (c t : R) : R := 24 * (t - c).
Definition ra0 (_ : location) (_ : unit) (_ : R) : R := 0.
Definition star0 (_ _ : R) : unit := tt.
Definition jd (t : R) : R := t / 86400.
Definition unix (t : R) : R := t * 86400.
Definition next (c : R) (_ : R -> R) (a b : R) : R := c + IZR (ceil (a - c)).
Definition home : observer := new_observer 0 0 0.
Definition hands (c : R) (lower : bool) : R -> R := transit_function unit (wheel c) ra0 0 (Loc 0 0 0) tt lower.
Lemma days_jd : Days jd.
Proof. intros s t L. unfold jd. lra. Qed.
Lemma wheel_angle c w : w < 1 / 2 -> HourAngle (fun t => 360 * (t - c)) (fun t => wheel c t * 15 + 0) (ra0 (Loc 0 0 0) tt) w.
Proof.
  intros W. split.
  - apply (continuity_scal (fun t => t - c) 360). apply (continuity_minus (fun t => t) (fun _ => c)).
    + apply derivable_continuous, derivable_id.
    + apply continuity_const. intros u v. reflexivity.
  - intros t. exists 0%Z. unfold wheel, ra0. cbn. lra.
  - intros s t L. lra.
  - intros s t L B. lra.
Qed.
Lemma hands_same c (lower : bool) t : SameAngle (hands c lower t) (360 * (t - c) - if lower then 180 else 0).
Proof.
  eapply same_trans; [apply tf_same|]. replace (wheel c t * 15 + 0 - ra0 (Loc 0 0 0) tt t) with (360 * (t - c)) by (unfold wheel, ra0; lra). apply same_refl.
Qed.
Lemma hands_eq c (lower : bool) t x k : -180 <= x < 180 -> x = 360 * (t - c) - (if lower then 180 else 0) + 360 * IZR k -> hands c lower t = x.
Proof.
  intros Bx Ex. apply (same_eq _ _ (-180)); [pose proof (tf_range unit (wheel c) ra0 0 (Loc 0 0 0) tt lower t); unfold hands; lra|lra|].
  eapply same_trans; [apply hands_same|]. apply same_sym. exists k. exact Ex.
Qed.
Lemma next_solver c : Solver (hands c false) (next c (hands c false)).
Proof.
  intros a b L (g & Cg & Eg) P. rewrite !Eg in P by lra.
  destruct (IVT_cor g a b Cg L P) as (r & Hr & Z). rewrite <- Eg in Z by exact Hr.
  destruct (hands_same c false r) as (k & Ek). rewrite Z in Ek.
  assert (Er : r = c + IZR (- k)) by (rewrite opp_IZR; lra).
  unfold next. pose proof (ceil_spec (a - c)) as [K1 K2].
  assert (B : (ceil (a - c) <= - k)%Z).
  { destruct (Z_lt_le_dec (- k) (ceil (a - c))) as [Q|Q]; [|exact Q]. exfalso. assert (Q' : IZR (- k) <= IZR (ceil (a - c)) - 1) by (rewrite <- minus_IZR; apply IZR_le; lia). lra. }
  apply IZR_le in B. split; [lra|]. apply (hands_eq c false _ 0 (- ceil (a - c))); [lra|]. rewrite opp_IZR. lra.
Qed.

Example C281_ex : exists jds, fst (transit_times unit star0 (wheel (3/10)) ra0 jd unix (next (3/10)) 1 home (SFloat unit 0) 0 (Some 172800) None false) = Ok (map unix jds) /\
  Ascending jds /\ In (3/10) jds /\ In (13/10) jds /\ forall r, In r jds -> r = 3/10 \/ r = 13/10.
Proof.
  assert (S : (if Rle_dec 86400 (172800 - 0) then 1 / 5 else (172800 - 0) / (5 * 86400)) = 1 / 5) by (destruct (Rle_dec 86400 (172800 - 0)); lra).
  destruct (C281_transits star0 (wheel (3/10)) ra0 jd unix (next (3/10)) 1 home (SFloat unit 0) 0 (Some 172800) None false (fun t => 360 * (t - 3/10))) as (jds & E & A & I).
  - lra.
  - exact days_jd.
  - left. reflexivity.
  - discriminate.
  - lra.
  - rewrite S. lra.
  - rewrite S. apply wheel_angle. lra.
  - apply next_solver.
  - exists jds. split; [exact E|]. split; [exact A|]. unfold jd in I. split; [|split].
    + apply I. split; [lra|]. exists 0%Z. unfold wheel, ra0. cbn. lra.
    + apply I. split; [lra|]. exists 1%Z. unfold wheel, ra0. cbn. lra.
    + intros r Hr. apply I in Hr as [B (k & K)]. unfold wheel, ra0 in K. cbn [place home new_observer longitude] in K.
      assert (Er : r = 3 / 10 + IZR k) by lra.
      assert (K0 : (k = 0 \/ k = 1)%Z).
      { assert (-1 < IZR k < 2) as [U V] by lra. apply (lt_IZR (-1) k) in U. apply (lt_IZR k 2) in V. lia. }
      destruct K0 as [-> | ->]; cbn in Er; lra.
Qed.
(** The lower transits are half a turn away. *)
Definition next_low (c : R) (_ : R -> R) (a b : R) : R := c + 1 / 2 + IZR (ceil (a - (c + 1 / 2))).
Example C281_ex_lower : hands (3/10) true (8/10) = 0 /\ hands (3/10) false (3/10) = 0 /\ hands (3/10) true (3/10) = -180.
Proof. repeat split; [apply (hands_eq _ _ _ _ 0%Z)|apply (hands_eq _ _ _ _ 0%Z)|apply (hands_eq _ _ _ _ 0%Z)]; cbn; lra. Qed.

(** C282: with the default settings, a transit in the middle of the day is listed twice. *)
Theorem C282_refuted : exists (gast : R -> R) brentq h, HourAngle h (fun t => gast t * 15 + 0) (ra0 (Loc 0 0 0) tt) (2 * (1 / 5)) /\
  (let f := transit_function unit gast ra0 0 (Loc 0 0 0) tt false in Solver f (brentq f)) /\
  fst (transit_times unit star0 gast ra0 jd unix brentq 1 home (SFloat unit 0) 0 (Some 86400) None false) = Ok [43200; 43200].
Proof.
  exists (wheel (1/2)), (next (1/2)), (fun t => 360 * (t - 1/2)). split; [apply wheel_angle; lra|]. split; [apply next_solver|].
  assert (F : fixup jd 1 0 (Some 86400) None = Ok (0, 1, 1 / 5)).
  { unfold fixup, fixup_interval. cbn zeta. destruct (Rle_dec 86400 0); [lra|]. cbn [rbind]. unfold jd. destruct (Rle_dec (24 * 3600) (86400 - 0)); [|lra]. f_equal. f_equal. f_equal; lra. }
  unfold transit_times, transit_jds. rewrite F. cbn [skyfield_obs home new_observer obs place longitude to_body star0].
  change (transit_function unit (wheel (1/2)) ra0 0 (Loc 0 0 0) (star0 0 0) false) with (hands (1/2) false).
  assert (N : npoints 0 1 (1/5) = 5%Z) by (apply ceil_is; lra).
  rewrite solve_all_eq by lia. unfold grid. rewrite N. change (Z.to_nat 5) with 5%nat.
  cbn [linspace seq map pairs tl combine flat_map app]. unfold cell. cbn [INR andb negb].
  assert (H0 : hands (1/2) false (0 + 0 * ((1 - 0) / (1 + 1 + 1 + 1))) = -180) by (apply (hands_eq _ _ _ _ 0%Z); cbn; lra).
  assert (H1 : hands (1/2) false (0 + 1 * ((1 - 0) / (1 + 1 + 1 + 1))) = -90) by (apply (hands_eq _ _ _ _ 0%Z); cbn; lra).
  assert (H2 : hands (1/2) false (0 + (1 + 1) * ((1 - 0) / (1 + 1 + 1 + 1))) = 0) by (apply (hands_eq _ _ _ _ 0%Z); cbn; lra).
  assert (H3 : hands (1/2) false (0 + (1 + 1 + 1) * ((1 - 0) / (1 + 1 + 1 + 1))) = 90) by (apply (hands_eq _ _ _ _ 0%Z); cbn; lra).
  assert (H4 : hands (1/2) false (0 + (1 + 1 + 1 + 1) * ((1 - 0) / (1 + 1 + 1 + 1))) = -180) by (apply (hands_eq _ _ _ _ (-1)%Z); cbn; lra).
  rewrite H0, H1, H2, H3, H4.
  assert (T1 : rltb 0 (-180 * -90) = true) by (apply rltb_true; lra). assert (T2 : rltb 0 (-90 * 0) = false) by (apply rltb_false; lra).
  assert (T3 : rltb 0 (0 * 90) = false) by (apply rltb_false; lra). assert (T4 : rltb 0 (90 * -180) = false) by (apply rltb_false; lra).
  assert (U1 : rltb (-90) 0 = true) by (apply rltb_true; lra). assert (U2 : rltb 0 90 = true) by (apply rltb_true; lra).
  assert (U3 : rltb 90 (-180) = false) by (apply rltb_false; lra).
  rewrite T1, T2, T3, T4, U1, U2, U3. cbn [negb app map fst rbind]. unfold next, unix.
  rewrite (ceil_is (0 + 1 * ((1 - 0) / (1 + 1 + 1 + 1)) - 1 / 2) 0%Z) by (cbn; lra).
  rewrite (ceil_is (0 + (1 + 1) * ((1 - 0) / (1 + 1 + 1 + 1)) - 1 / 2) 0%Z) by (cbn; lra).
  f_equal. f_equal; [cbn; lra|]. f_equal. cbn. lra.
Qed.
(** C283: two transits a day apart, a step of nine tenths of a day, and nothing is found. *)
Theorem C283_refuted : exists (gast : R -> R) brentq r1 r2,
  (let f := transit_function unit gast ra0 0 (Loc 0 0 0) tt false in Solver f (brentq f)) /\
  (forall r, OnMeridian false (gast r * 15 + 0) 0 -> jd 0 <= r <= jd 155520 -> r = r1 \/ r = r2) /\
  jd 0 < r1 /\ r1 + 9/10 < r2 /\ r2 < jd 155520 /\ OnMeridian false (gast r1 * 15 + 0) 0 /\ OnMeridian false (gast r2 * 15 + 0) 0 /\
  fst (transit_times unit star0 gast ra0 jd unix brentq 1 home (SFloat unit 0) 0 (Some 155520) (Some (9/10)) false) = Ok [].
Proof.
  exists (wheel (6/10)), (next (6/10)), (6/10), (16/10). split; [apply next_solver|]. unfold jd at 1 2 3 4. split; [|split; [lra|split; [lra|split; [lra|split; [|split]]]]].
  - intros r (k & K) B. unfold wheel in K. cbn zeta in K. assert (Er : r = 6 / 10 + IZR k) by lra.
    assert (K0 : (k = 0 \/ k = 1)%Z). { assert (-1 < IZR k < 2) as [U V] by lra. apply (lt_IZR (-1) k) in U. apply (lt_IZR k 2) in V. lia. }
    destruct K0 as [-> | ->]; cbn in Er; lra.
  - exists 0%Z. unfold wheel. cbn. lra.
  - exists 1%Z. unfold wheel. cbn. lra.
  - assert (F : fixup jd 1 0 (Some 155520) (Some (9/10)) = Ok (0, 18/10, 9/10)).
    { unfold fixup, fixup_interval. cbn zeta. destruct (Rle_dec 155520 0); [lra|]. cbn [rbind]. destruct (Rle_dec (155520 - 0) (9 / 10 * (24 * 3600))); [lra|].
      cbn [rbind]. unfold jd. f_equal. f_equal. f_equal; lra. }
    unfold transit_times, transit_jds. rewrite F. cbn [skyfield_obs home new_observer obs place longitude to_body star0].
    change (transit_function unit (wheel (6/10)) ra0 0 (Loc 0 0 0) (star0 0 0) false) with (hands (6/10) false).
    assert (N : npoints 0 (18/10) (9/10) = 2%Z) by (apply ceil_is; lra).
    rewrite solve_all_eq by lia. unfold grid. rewrite N. change (Z.to_nat 2) with 2%nat.
    cbn [linspace seq map pairs tl combine flat_map app]. unfold cell. cbn [INR andb negb].
    assert (H0 : hands (6/10) false (0 + 0 * ((18/10 - 0) / 1)) = 144) by (apply (hands_eq _ _ _ _ 1%Z); cbn; lra).
    assert (H1 : hands (6/10) false (0 + 1 * ((18/10 - 0) / 1)) = 72) by (apply (hands_eq _ _ _ _ (-1)%Z); cbn; lra).
    rewrite H0, H1. assert (T1 : rltb 0 (144 * 72) = true) by (apply rltb_true; lra). rewrite T1. reflexivity.
Qed.

(** * Risings *)
(** Something that climbs a degree a day, from half a degree below the horizon of the equator. *)
Definition climb (l : location) (_ : unit) (t : R) : R := t - 1 / 2 + latitude l.

(** [brentq] for every straight line of slope one *)
Definition line_root (f : R -> R) (a b : R) : R := - f 0.
Lemma line_solver c : Solver (fun t => t + c) (line_root (fun t => t + c)).
Proof.
  intros a b L _ P. unfold line_root. split; [|lra]. split; nra.
Qed.
Lemma climb_solver lat d : let f := fun t => climb (Loc 0 lat 0) tt t + d / 2 in Solver f (line_root f).
Proof. cbn zeta. intros a b L _ P. unfold line_root, climb in *. cbn [latitude] in *. split; [|lra]. split; nra. Qed.
Lemma climb_continuous l : continuity (climb l tt).
Proof.
  unfold climb. apply (continuity_plus (fun t => t - 1 / 2) (fun _ => latitude l)); [|apply continuity_const; intros u v; reflexivity].
  apply (continuity_minus (fun t => t) (fun _ => 1 / 2)); [apply derivable_continuous, derivable_id|apply continuity_const; intros u v; reflexivity].
Qed.
Lemma climb_rises lat d r : r = 1 / 2 - lat - d / 2 -> 0 <= r <= 1 ->
  exists l, fst (rise_set_times unit climb jd unix line_root 1 (new_observer 0 lat 0) tt 0 (Some 86400) None d) = Ok l /\ (exists u, In u l) /\ (forall u v, In (u, v) l -> u = unix r /\ v = true) /\
    fst (rise_times unit climb jd unix line_root 1 (new_observer 0 lat 0) tt 0 (Some 86400) None d) = Ok (map fst l) /\ fst (set_times unit climb jd unix line_root 1 (new_observer 0 lat 0) tt 0 (Some 86400) None d) = Ok [].
Proof.
  intros Er Br.
  assert (S : (if Rle_dec 86400 (86400 - 0) then 1 / 5 else (86400 - 0) / (5 * 86400)) = 1 / 5) by (destruct (Rle_dec 86400 (86400 - 0)); lra).
  assert (Cr : forall u, Crosses (fun t => climb (Loc 0 lat 0) tt t + d / 2) (jd 0) (jd 86400) u true r).
  { intros w x _ _. unfold climb. cbn [latitude]. split; intros; lra. }
  destruct (C287_rise_set climb jd unix line_root 1 (new_observer 0 lat 0) tt 0 (Some 86400) None d) as (l & E & A & E2 & E3 & I).
  - lra.
  - exact days_jd.
  - now left.
  - discriminate.
  - lra.
  - rewrite S. lra.
  - apply climb_continuous.
  - apply climb_solver.
  - intros q [_ Z]. exists true. cbn in Z. unfold climb in Z. cbn [latitude] in Z. replace q with r by lra. apply Cr.
  - assert (L : forall q v, In (q, v) l -> q = r /\ v = true).
    { intros q v K. apply I in K as (B & Z & C). unfold climb in Z. cbn in Z. assert (q = r) by lra. subst q. split; [reflexivity|].
      destruct v; [reflexivity|]. exfalso. unfold Crosses, climb in C. cbn in C.
      destruct (Rle_dec r (1 / 2)) as [K|K].
      - destruct (C (r + 1/5)) as [_ C2]; [unfold jd; lra|rewrite S; lra|]. specialize (C2 ltac:(lra)). lra.
      - destruct (C (r - 1/5)) as [C2 _]; [unfold jd; lra|rewrite S; lra|]. specialize (C2 ltac:(lra)). lra. }
    exists (map (fun x : R * bool => (unix (fst x), snd x)) l). split; [exact E|]. split; [|split; [|split]].
    + exists (unix r, true). apply in_map_iff. exists (r, true). split; [reflexivity|]. apply I. split; [unfold jd; lra|].
      split; [unfold climb; cbn; lra|]. apply Cr.
    + intros u v K. apply in_map_iff in K as ([q w] & K & Hq). cbn in K. injection K as <- <-. destruct (L q w Hq) as [-> ->]. auto.
    + rewrite E2. f_equal. rewrite map_map. cbn [fst]. f_equal.
      clear -L. induction l as [|[q v] l IH]; [reflexivity|]. cbn. destruct (L q v ltac:(now left)) as [_ ->]. f_equal. apply IH. intros. apply L. now right.
    + rewrite E3. f_equal.
      clear -L. induction l as [|[q v] l IH]; [reflexivity|]. cbn. destruct (L q v ltac:(now left)) as [_ ->]. cbn. apply IH. intros. apply L. now right.
Qed.
Example C287_ex : exists l, fst (rise_set_times unit climb jd unix line_root 1 home tt 0 (Some 86400) None (1/2)) = Ok l /\
  (exists u, In u l) /\ (forall u v, In (u, v) l -> u = unix (1/4) /\ v = true) /\
  fst (rise_times unit climb jd unix line_root 1 home tt 0 (Some 86400) None (1/2)) = Ok (map fst l) /\
  fst (set_times unit climb jd unix line_root 1 home tt 0 (Some 86400) None (1/2)) = Ok [].
Proof. apply (climb_rises 0 (1/2) (1/4)); lra. Qed.

(** C290: the latitude that is set after the first question is not used. *)
Theorem C290_refuted : exists (alt_of : location -> unit -> R -> R) brentq,
  (forall lat, let f := fun t => alt_of (Loc 0 lat 0) tt t + 0 / 2 in continuity (alt_of (Loc 0 lat 0) tt) /\ Solver f (brentq f)) /\
  let rises o := rise_times unit alt_of jd unix brentq 1 o tt 0 (Some 86400) None 0 in
  let asked := snd (rises (new_observer 0 0 0)) in
  place (set_latitude asked (1/4)) = place (new_observer 0 (1/4) 0) /\
  fst (rises (set_latitude asked (1/4))) = fst (rises (new_observer 0 0 0)) /\
  fst (rises (set_latitude asked (1/4))) <> fst (rises (new_observer 0 (1/4) 0)).
Proof.
  exists climb, line_root. split; [intros lat; split; [apply climb_continuous|apply climb_solver]|]. cbn zeta.
  destruct (climb_rises 0 0 (1/2) ltac:(lra) ltac:(lra)) as (l & _ & (u & Iu) & L & E & _).
  destruct (climb_rises (1/4) 0 (1/4) ltac:(lra) ltac:(lra)) as (l' & _ & (u' & Iu') & L' & E' & _).
  assert (St : rise_times unit climb jd unix line_root 1 (new_observer 0 0 0) tt 0 (Some 86400) None 0 = (Ok (map fst l), Observer (Loc 0 0 0) (Some (Loc 0 0 0)))).
  { revert E. unfold rise_times, sr_work, firsts, fixup, fixup_interval. cbn zeta.
    destruct (Rle_dec 86400 0); [lra|]. cbn [rbind]. destruct (Rle_dec (24 * 3600) (86400 - 0)); cbn [rbind skyfield_obs new_observer obs place];
      (destruct (solve_all _ _ _ _ _ _ _) as [rr|ee]; cbn [fst snd rbind]; [intros E; rewrite E; reflexivity|discriminate]). }
  rewrite St. cbn [snd fst]. change (set_latitude _ (1 / 4)) with (Observer (Loc 0 (1/4) 0) (Some (Loc 0 0 0))). split; [reflexivity|].
  assert (Sm : fst (rise_times unit climb jd unix line_root 1 (Observer (Loc 0 (1/4) 0) (Some (Loc 0 0 0))) tt 0 (Some 86400) None 0) = Ok (map fst l)).
  { apply (f_equal fst) in St. cbn [fst] in St. rewrite <- St. unfold rise_times, sr_work, firsts. destruct (fixup _ _ _ _ _) as [[[x y] z]|e]; [|reflexivity].
    cbn [skyfield_obs obs place new_observer]. destruct (solve_all _ _ _ _ _ _ _); reflexivity. }
  rewrite <- Sm. split; [reflexivity|]. rewrite Sm, E'. intros K. injection K as K.
  assert (J : In (fst u) (map fst l')) by (rewrite <- K; now apply in_map). apply in_map_iff in J as ([x v] & J & Ix).
  destruct u as [y w]. cbn [fst] in J. destruct (L y w Iu) as [Ey _]. destruct (L' x v Ix) as [Ex _]. unfold unix in *. lra.
Qed.
(** C288: a rising in the middle of the day is listed twice. *)
Theorem C288_refuted : exists (alt_of : location -> unit -> R -> R) brentq l, continuity (alt_of (Loc 0 0 0) tt) /\
  (let f := fun t => alt_of (Loc 0 0 0) tt t + 0 / 2 in Solver f (brentq f)) /\
  fst (rise_set_times unit alt_of jd unix brentq 1 home tt 0 (Some 86400) None 0) = Ok l /\
  l = [(43200, true); (43200, true)] /\ ~ Alternates (map snd l).
Proof.
  exists climb, line_root, [(43200, true); (43200, true)]. split; [apply climb_continuous|]. split; [apply climb_solver|].
  split; [|split; [reflexivity|intros [K _]; discriminate]].
  assert (F : fixup jd 1 0 (Some 86400) None = Ok (0, 1, 1 / 5)).
  { unfold fixup, fixup_interval. cbn zeta. destruct (Rle_dec 86400 0); [lra|]. cbn [rbind]. unfold jd. destruct (Rle_dec (24 * 3600) (86400 - 0)); [|lra]. f_equal. f_equal. f_equal; lra. }
  unfold rise_set_times, sr_work, source_alt. rewrite F. cbn [skyfield_obs home new_observer obs place].
  assert (N : npoints 0 1 (1/5) = 5%Z) by (apply ceil_is; lra).
  rewrite solve_all_eq by lia. unfold grid. rewrite N. change (Z.to_nat 5) with 5%nat.
  cbn [linspace seq map pairs tl combine flat_map app]. unfold cell, climb. cbn [INR andb negb latitude].
  rewrite (proj2 (rltb_true 0 _)) by lra.
  rewrite (proj2 (rltb_false 0 _)) by lra.
  rewrite (proj2 (rltb_true _ _)) by lra.
  rewrite (proj2 (rltb_false 0 _)) by lra.
  rewrite (proj2 (rltb_true _ _)) by lra.
  rewrite (proj2 (rltb_true 0 _)) by lra.
  cbn [app map fst snd]. unfold line_root, unix. f_equal. f_equal; [f_equal; lra|]. f_equal. f_equal. lra.
Qed.
Print Assumptions C282_refuted.
Print Assumptions C283_refuted.
Print Assumptions C290_refuted.
Print Assumptions C288_refuted.
