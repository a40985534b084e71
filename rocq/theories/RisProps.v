From Coq Require Import List Bool Reals ZArith Lia Lra Psatz.
From Verif Require Import PyBase SolveModel SolveSpec SolveProofs SolveProps LsdModel LsdSpec LsdProofs RisModel RisSpec RisProofs RisProofs2 RisProofs3.
Import ListNotations.
Open Scope R_scope.

Section Sky.
Context {body : Type}.
Variable star : R -> R -> body.
Variable sun moon : body.
Variable gast : R -> R.
Variable ra dec alt_of : location -> body -> R -> R.
Variable to_jd to_unix : R -> R.
Variable brentq : (R -> R) -> R -> R -> R.
Variable ss : R.
Notation lst o := (fun t => gast t * 15 + longitude (place o)).
Notation transits := (transit_times body star gast ra to_jd to_unix brentq ss).
Notation transits_dec := (transit_times_dec body star gast ra dec to_jd to_unix brentq ss).
Notation rise_set := (rise_set_times body alt_of to_jd to_unix brentq ss).
Notation rises := (rise_times body alt_of to_jd to_unix brentq ss).
Notation sets := (set_times body alt_of to_jd to_unix brentq ss).
(** The end of the interval and the step that are used *)
Notation until t0 t1 := (match t1 with Some t => t | None => t0 + 86400 * ss end).
Notation stride t0 t1 step := (match step with Some x => x | None =>
  if Rle_dec 86400 (until t0 t1 - t0) then 1 / 5 else (until t0 t1 - t0) / (5 * 86400) end).
(** The observer has not moved since Skyfield was asked. *)
Definition Settled (o : observer) : Prop := obs o = None \/ obs o = Some (place o).
Lemma settled_place o : Settled o -> fst (skyfield_obs o) = place o.
Proof. unfold skyfield_obs. intros [-> | ->]; reflexivity. Qed.

(** C280 *)
Theorem C280_hour_angle o l b t u :
  let h := source_ha body gast ra (longitude (place o)) l b t in
  (-180 <= h < 180 /\ SameAngle h (lst o t - ra l b t)) /\
  0 <= unix_to_lst gast to_jd o u < 360 /\ SameAngle (unix_to_lst gast to_jd o u) (lst o (to_jd u)).
Proof.
  cbn zeta. split; [split; [apply ha_range|apply ha_same]|]. unfold unix_to_lst. split; [apply rmod_bounds; lra|apply same_rmod].
Qed.

(** C281 *)
Theorem C281_transits o s t0 t1 step lower h : 0 < ss -> Days to_jd -> Settled o ->
  (forall x, step = Some x -> 0 < x) -> t0 < until t0 t1 -> stride t0 t1 step * 86400 < until t0 t1 - t0 ->
  let b := to_body body star s in
  HourAngle h (lst o) (ra (place o) b) (2 * stride t0 t1 step) ->
  let f := transit_function body gast ra (longitude (place o)) (place o) b lower in Solver f (brentq f) ->
  exists jds, fst (transits o s t0 t1 step lower) = Ok (map to_unix jds) /\ Ascending jds /\
    forall r, In r jds <-> to_jd t0 <= r <= to_jd (until t0 t1) /\ OnMeridian lower (lst o r) (ra (place o) b r).
Proof.
  intros P D St Ps L Dd b Hh f So. pose proof (settled_place o St) as Pl.
  pose proof (transit_jds_ok body star gast ra to_jd brentq ss o s t0 t1 step lower h P D Ps) as T. cbn zeta in T.
  rewrite Pl in T. destruct (T Hh So L Dd) as (l & E & A & I & _). exists l. unfold transit_times. rewrite E. cbn [fst rbind].
  split; [reflexivity|]. split; [exact A|]. intros r. rewrite I. apply and_iff_compat_l, tf_zero.
Qed.

(** A number stands for a star on the equator. *)
Theorem C281_number o x t0 t1 step lower : transits o (SFloat body x) t0 t1 step lower = transits o (SBody body (star x 0)) t0 t1 step lower.
Proof. reflexivity. Qed.

(** C282 *)
Theorem C282_once_partial o s t0 t1 step lower h : 0 < ss -> Days to_jd -> Settled o ->
  (forall x, step = Some x -> 0 < x) -> t0 < until t0 t1 -> stride t0 t1 step * 86400 < until t0 t1 - t0 ->
  let b := to_body body star s in
  HourAngle h (lst o) (ra (place o) b) (2 * stride t0 t1 step) ->
  let f := transit_function body gast ra (longitude (place o)) (place o) b lower in Solver f (brentq f) ->
  (forall x, In x (grid (to_jd t0) (to_jd (until t0 t1)) (stride t0 t1 step)) -> ~ OnMeridian lower (lst o x) (ra (place o) b x)) ->
  exists jds, fst (transits o s t0 t1 step lower) = Ok (map to_unix jds) /\ StrictlyAscending jds.
Proof.
  intros P D St Ps L Dd b Hh f So NZ. pose proof (settled_place o St) as Pl.
  pose proof (transit_jds_ok body star gast ra to_jd brentq ss o s t0 t1 step lower h P D Ps) as T. cbn zeta in T.
  rewrite Pl in T. destruct (T Hh So L Dd) as (l & E & _ & _ & C). exists l. unfold transit_times. rewrite E. cbn [fst rbind].
  split; [reflexivity|]. apply C. intros x Hx Z. apply (NZ x Hx). now apply tf_zero in Z.
Qed.

(** C284 *)
Theorem C284_full_turn o s t0 t1 step lower h : 0 < ss -> Days to_jd -> Settled o ->
  (forall x, step = Some x -> 0 < x) -> t0 < until t0 t1 -> stride t0 t1 step * 86400 < until t0 t1 - t0 ->
  let b := to_body body star s in
  HourAngle h (lst o) (ra (place o) b) (2 * stride t0 t1 step) ->
  let f := transit_function body gast ra (longitude (place o)) (place o) b lower in Solver f (brentq f) ->
  360 <= h (to_jd (until t0 t1)) - h (to_jd t0) -> exists u r, fst (transits o s t0 t1 step lower) = Ok (u :: r).
Proof.
  intros P D St Ps L Dd b Hh f So Full.
  destruct (C281_transits o s t0 t1 step lower h P D St Ps L Dd Hh So) as (jds & E & _ & I).
  set (c := if lower then 180 else 0). set (a := to_jd t0) in *. set (z := to_jd (until t0 t1)) in *.
  assert (X : exists r, a <= r <= z /\ OnMeridian lower (lst o r) (ra (place o) b r)).
  { assert (Lz : a <= z). { pose proof (D t0 (until t0 t1) ltac:(lra)) as Dt. fold a z in Dt. assert (0 <= (until t0 t1 - t0) / 86400) by lra. lra. }
    set (k := ceil ((h a - c) / 360)). pose proof (ceil_spec ((h a - c) / 360)) as K. fold k in K.
    destruct (IVT_cor (fun t => h t - (c + 360 * IZR k)) a z) as (r & Hr & Z).
    - apply (continuity_minus h (fun _ => c + 360 * IZR k)); [apply Hh|]. apply continuity_const. intros x y. reflexivity.
    - exact Lz.
    - cbv beta. assert (h a - (c + 360 * IZR k) <= 0) by lra. assert (0 <= h z - (c + 360 * IZR k)) by lra. nra.
    - exists r. split; [exact Hr|]. destruct (ha_angle _ _ _ _ Hh r) as (q & Eq). exists (k - q)%Z. rewrite minus_IZR.
      subst c. destruct lower; lra. }
  destruct X as (r & Hr). apply I in Hr. destruct jds as [|j jds]; [destruct Hr|]. exists (to_unix j), (map to_unix jds). exact E.
Qed.

(** C285 *)
Theorem C285_sidereal_time o s t0 t1 step h : 0 < ss -> Days to_jd -> Settled o ->
  (forall x, step = Some x -> 0 < x) -> t0 < until t0 t1 -> stride t0 t1 step * 86400 < until t0 t1 - t0 ->
  let b := to_body body star s in
  HourAngle h (lst o) (ra (place o) b) (2 * stride t0 t1 step) ->
  let f := transit_function body gast ra (longitude (place o)) (place o) b false in Solver f (brentq f) ->
  (forall r, to_jd (to_unix r) = r) -> (forall r, 0 <= ra (place o) b r < 360) ->
  forall l u, fst (transits o s t0 t1 step false) = Ok l -> In u l -> unix_to_lst gast to_jd o u = ra (place o) b (to_jd u).
Proof.
  intros P D St Ps L Dd b Hh f So Inv Rg l u E I.
  destruct (C281_transits o s t0 t1 step false h P D St Ps L Dd Hh So) as (jds & E' & _ & J).
  rewrite E in E'. injection E' as ->. apply in_map_iff in I as (r & <- & I). apply J in I as [_ M].
  rewrite Inv. unfold unix_to_lst. rewrite Inv. cbn beta in M. unfold OnMeridian in M. apply (same_eq _ _ 0).
  - pose proof (rmod_bounds (gast r * 15 + longitude (place o)) 360 ltac:(lra)). lra.
  - pose proof (Rg r). lra.
  - eapply same_trans; [apply same_rmod|exact M].
Qed.

(** C286 *)
Theorem C286_declination o s t0 t1 step lower :
  match transits o s t0 t1 step lower, transits_dec o s t0 t1 step lower with
  | (Ok l, o1), (Ok (l', ds), o2) => l' = l /\ length ds = length l /\ o1 = o2 /\
      (Settled o -> (forall r, to_jd (to_unix r) = r) -> ds = map (fun u => dec (place o) (to_body body star s) (to_jd u)) l)
  | (Err e, o1), (Err e', o2) => e = e' /\ o1 = o2
  | _, _ => False
  end.
Proof.
  assert (SO : forall x, Settled x -> fst (skyfield_obs (snd (skyfield_obs x))) = place x).
  { intros x. unfold skyfield_obs at 2. destruct (obs x) eqn:K; cbn [snd]; [apply settled_place|]. intros _. reflexivity. }
  assert (SS : forall x, skyfield_obs (snd (skyfield_obs x)) = (fst (skyfield_obs x), snd (skyfield_obs x))).
  { intros x. unfold skyfield_obs. destruct (obs x) eqn:K; cbn [fst snd obs]; [rewrite K|]; reflexivity. }
  unfold transit_times, transit_times_dec, transit_jds. cbn zeta.
  destruct (fixup to_jd ss t0 t1 step) as [[[x y] z]|e]; [|cbn; auto].
  destruct (skyfield_obs o) as [pl o'] eqn:Eo. pose proof (SS o) as SSo. pose proof (fun St => settled_place o St) as Pl. rewrite Eo in SSo, Pl. cbn [fst snd] in SSo, Pl.
  set (f := transit_function _ _ _ _ _ _ _).
  destruct (solve_all f (brentq f) x y z false true) as [r|e]; [|cbn; auto].
  destruct (map fst r) as [|j js]; cbn [rbind]; [cbn; auto|]. rewrite SSo. split; [reflexivity|].
  split; [now rewrite !map_length|]. split; [reflexivity|]. intros St Inv. rewrite (Pl St), map_map. apply map_ext. intros u. now rewrite Inv.
Qed.

(** C287 *)
Theorem C287_rise_set o b t0 t1 step diameter : 0 < ss -> Days to_jd -> Settled o ->
  (forall x, step = Some x -> 0 < x) -> t0 < until t0 t1 -> stride t0 t1 step * 86400 < until t0 t1 - t0 ->
  let f := fun t => alt_of (place o) b t + diameter / 2 in continuity (alt_of (place o) b) -> Solver f (brentq f) ->
  let a := to_jd t0 in let z := to_jd (until t0 t1) in let w := 2 * stride t0 t1 step in
  (forall r, IsRoot f a z r -> exists up, Crosses f a z w up r) ->
  exists l, fst (rise_set o b t0 t1 step diameter) = Ok (map (fun x : R * bool => (to_unix (fst x), snd x)) l) /\ Ascending (map fst l) /\
    fst (rises o b t0 t1 step diameter) = Ok (map (fun x : R * bool => to_unix (fst x)) (filter (fun x => snd x) l)) /\
    fst (sets o b t0 t1 step diameter) = Ok (map (fun x : R * bool => to_unix (fst x)) (filter (fun x => negb (snd x)) l)) /\
    forall r up, In (r, up) l <-> a <= r <= z /\ alt_of (place o) b r = - (diameter / 2) /\ Crosses f a z w up r.
Proof.
  intros P D St Ps L Dd f Cf So a z w All. pose proof (settled_place o St) as Pl.
  unfold rise_set_times, rise_times, set_times, sr_work, source_alt. cbn zeta.
  pose proof (fixup_ok ss to_jd t0 t1 step P D Ps) as F. cbn zeta in F.
  destruct (fixup to_jd ss t0 t1 step) as [[[x y] d]|err] eqn:Ef.
  - destruct F as (_ & -> & -> & Pd & Ld & Ed). destruct (skyfield_obs o) as [pl o'] eqn:Eo. cbn [fst] in Pl. subst pl.
    fold f. fold a z in Ld |- *.
    assert (Cf' : continuity f). { apply (continuity_plus (alt_of (place o) b) (fun _ => diameter / 2)); [exact Cf|]. apply continuity_const. intros u v. reflexivity. }
    destruct (solve_crossings f (brentq f) a z d false false (solver_brackets _ _ Cf' So) Pd Ld) as (l & E & A & I).
    { intros r Hr. subst w. rewrite Ed. exact (All r Hr). }
    exists l. rewrite (C75_skip f (brentq f) a z d false true), (C75_skip f (brentq f) a z d true false), E. cbn [rbind fst firsts].
    split; [reflexivity|]. split; [exact A|]. split; [|split].
    + f_equal. rewrite map_map. cbn [fst]. f_equal. apply filter_ext. intros [u v]. cbn. destruct v; reflexivity.
    + f_equal. rewrite map_map. cbn [fst]. f_equal. apply filter_ext. intros [u v]. cbn. destruct v; reflexivity.
    + intros r up. rewrite I. subst w. rewrite <- Ed. unfold IsRoot. subst f. cbv beta. split.
      * intros ((H1 & H2) & H3 & _). split; [exact H1|]. split; [lra|exact H3].
      * intros (H1 & H2 & H3). split; [split; [exact H1|lra]|]. split; [exact H3|]. destruct up; reflexivity.
  - exfalso. apply fixup_refused in Ef. unfold fixup_interval in Ef. cbn zeta in Ef.
    destruct t1 as [t1|]; cbn [rbind] in Ef.
    + destruct (Rle_dec t1 t0); [lra|]. cbn [rbind] in Ef. destruct step as [x|]; [|discriminate].
      destruct (Rle_dec (t1 - t0) (x * (24 * 3600))); [lra|discriminate].
    + destruct step as [x|]; [|discriminate]. destruct (Rle_dec _ (x * (24 * 3600))); [lra|discriminate].
Qed.

(** C288 *)
Theorem C288_alternate_partial o b t0 t1 step diameter l : 0 < ss -> Days to_jd -> Settled o -> (forall x, step = Some x -> 0 < x) ->
  (forall x, In x (grid (to_jd t0) (to_jd (until t0 t1)) (stride t0 t1 step)) -> alt_of (place o) b x <> - (diameter / 2)) ->
  fst (rise_set o b t0 t1 step diameter) = Ok l -> Alternates (map snd l).
Proof.
  intros P D St Ps NZ. pose proof (settled_place o St) as Pl.
  unfold rise_set_times, sr_work, source_alt. cbn zeta.
  pose proof (fixup_ok ss to_jd t0 t1 step P D Ps) as F. cbn zeta in F.
  destruct (fixup to_jd ss t0 t1 step) as [[[x y] d]|err]; [|discriminate].
  destruct F as (_ & -> & -> & Pd & Ld & Ed). rewrite <- Ed in NZ. destruct (skyfield_obs o) as [pl o'] eqn:Eo. cbn [fst] in Pl. subst pl.
  set (f := fun t => alt_of (place o) b t + diameter / 2).
  destruct (solve_all f (brentq f) (to_jd t0) (to_jd (until t0 t1)) d false false) as [r|e] eqn:E; [|discriminate].
  cbn [fst]. intros H. injection H as <-. rewrite map_map. cbn [snd].
  apply (solve_alternates f (brentq f) (to_jd t0) (to_jd (until t0 t1)) d r Pd) in E; [exact E|lra|]. intros q Hq Z. apply (NZ q Hq). subst f. cbv beta in Z. lra.
Qed.

(** C289 *)
Theorem C289_horizon o t0 t1 step : 0 < ss -> Days to_jd -> Settled o -> (forall x, step = Some x -> 0 < x) ->
  (forall b, b = sun \/ b = moon -> continuity (alt_of (place o) b) /\ let f := fun t => alt_of (place o) b t + 100 / 60 / 2 in Solver f (brentq f)) ->
  let found b f := forall l, fst (f body b alt_of to_jd to_unix brentq ss o t0 t1 step) = Ok l ->
    forall u, In u l -> exists r, u = to_unix r /\ to_jd t0 <= r <= to_jd (until t0 t1) /\ alt_of (place o) b r * 60 = -50 in
  found sun solar_rising /\ found sun solar_setting /\ found moon lunar_rising /\ found moon lunar_setting.
Proof.
  intros P D St Ps Cs. pose proof (settled_place o St) as Pl.
  assert (X : forall b l si sd, b = sun \/ b = moon -> fst (firsts (sr_work body alt_of to_jd to_unix brentq ss o b t0 t1 step (100 / 60) si sd)) = Ok l ->
    forall u, In u l -> exists r, u = to_unix r /\ to_jd t0 <= r <= to_jd (until t0 t1) /\ alt_of (place o) b r * 60 = -50).
  { intros b l si sd Hb. destruct (Cs b Hb) as [Ca So]. cbn zeta in So.
    unfold sr_work, source_alt. pose proof (fixup_ok ss to_jd t0 t1 step P D Ps) as F. cbn zeta in F.
    destruct (fixup to_jd ss t0 t1 step) as [[[x y] d]|err]; [|discriminate].
    destruct F as (_ & -> & -> & Pd & Ld & Ed). destruct (skyfield_obs o) as [pl o'] eqn:Eo. cbn [fst] in Pl. subst pl.
    set (f := fun t => alt_of (place o) b t + 100 / 60 / 2) in *.
    assert (Cf : continuity f). { apply (continuity_plus (alt_of (place o) b) (fun _ => 100 / 60 / 2)); [exact Ca|]. apply continuity_const. intros u v. reflexivity. }
    destruct (C75_sound_partial f (brentq f) (to_jd t0) (to_jd (until t0 t1)) d si sd (solver_brackets _ _ Cf So) ltac:(lra) Pd) as (r & E & _ & S).
    fold f. rewrite E. cbn [firsts fst rbind]. intros K. injection K as <-. intros u I. rewrite map_map in I. apply in_map_iff in I as ([q v] & <- & I).
    destruct (S q v I) as [[B Z] _]. exists q. split; [reflexivity|]. split; [exact B|]. subst f. cbv beta in Z. lra. }
  cbn zeta. repeat split; intros l H; (eapply X; [auto|exact H]).
Qed.
(** The risings are risings, and the settings settings, with that horizon; the transits those of the Sun and the Moon. *)
Theorem C289_which o t0 t1 step lower :
  solar_rising body sun alt_of to_jd to_unix brentq ss o t0 t1 step = rises o sun t0 t1 step (2 * (50 / 60)) /\
  solar_setting body sun alt_of to_jd to_unix brentq ss o t0 t1 step = sets o sun t0 t1 step (2 * (50 / 60)) /\
  lunar_rising body moon alt_of to_jd to_unix brentq ss o t0 t1 step = rises o moon t0 t1 step (2 * (50 / 60)) /\
  lunar_setting body moon alt_of to_jd to_unix brentq ss o t0 t1 step = sets o moon t0 t1 step (2 * (50 / 60)) /\
  solar_transit body star sun gast ra to_jd to_unix brentq ss o t0 t1 step lower = transits o (SBody body sun) t0 t1 step lower /\
  lunar_transit body star moon gast ra to_jd to_unix brentq ss o t0 t1 step lower = transits o (SBody body moon) t0 t1 step lower.
Proof.
  unfold solar_rising, solar_setting, lunar_rising, lunar_setting. replace (2 * (50 / 60)) with (100 / 60) by lra. repeat split; reflexivity.
Qed.

(** C291 *)
Theorem C291_asked o s b t0 t1 step lower diameter :
  let states := [snd (transits o s t0 t1 step lower); snd (transits_dec o s t0 t1 step lower);
    snd (rise_set o b t0 t1 step diameter); snd (rises o b t0 t1 step diameter); snd (sets o b t0 t1 step diameter)] in
  forall o', In o' states -> place o' = place o /\ (Settled o -> Settled o').
Proof.
  assert (T : place (snd (skyfield_obs o)) = place o /\ (Settled o -> Settled (snd (skyfield_obs o)))).
  { unfold skyfield_obs. destruct (obs o) eqn:E; cbn [snd]; [auto|]. split; [reflexivity|]. intros _. right. reflexivity. }
  assert (J : forall t1 step lower, let r := transit_jds body star gast ra to_jd brentq ss o s t0 t1 step lower in snd r = o \/ snd r = snd (skyfield_obs o)).
  { intros. subst r. unfold transit_jds. destruct (fixup _ _ _ _ _) as [[[x y] z]|e]; [|now left]. destruct (skyfield_obs o) as [pl o'].
    cbn zeta. destruct (solve_all _ _ _ _ _ _ _); [now right|now left]. }
  assert (W : forall si sd, let r := sr_work body alt_of to_jd to_unix brentq ss o b t0 t1 step diameter si sd in snd r = o \/ snd r = snd (skyfield_obs o)).
  { intros. subst r. unfold sr_work. destruct (fixup _ _ _ _ _) as [[[x y] z]|e]; [|now left]. destruct (skyfield_obs o) as [pl o'].
    cbn zeta. destruct (solve_all _ _ _ _ _ _ _); [now right|now left]. }
  assert (G : forall o', o' = o \/ o' = snd (skyfield_obs o) -> place o' = place o /\ (Settled o -> Settled o')) by (intros o' [-> | ->]; auto).
  cbn zeta. intros o' [<-|[<-|[<-|[<-|[<-|[]]]]]]; apply G.
  - unfold transit_times. specialize (J t1 step lower). cbn zeta in J. destruct (transit_jds _ _ _ _ _ _ _ _ _ _ _ _ _). exact J.
  - unfold transit_times_dec. specialize (J t1 step lower). cbn zeta in J. destruct (transit_jds _ _ _ _ _ _ _ _ _ _ _ _ _) as [r o'] eqn:E. cbn [snd] in J.
    assert (Q : snd (skyfield_obs o') = o' \/ o' = o) by (destruct J as [->| ->]; [now right|left; unfold skyfield_obs; destruct (obs o) eqn:K; cbn [snd obs]; [rewrite K|]; reflexivity]).
    destruct r as [[|j js]|e]; cbn; auto. destruct (skyfield_obs o') as [pl o2] eqn:E2. cbn [snd] in *. destruct Q as [->| ->]; [exact J|]. right. now rewrite E2.
  - apply W.
  - unfold rise_times, firsts. cbn [snd]. apply W.
  - unfold set_times, firsts. cbn [snd]. apply W.
Qed.

(** C292 *)
Theorem C292_refused o s b t0 t1 step lower diameter : 0 < ss -> Days to_jd -> (forall x, step = Some x -> 0 < x) ->
  let bad := until t0 t1 <= t0 \/ (exists x, step = Some x /\ until t0 t1 - t0 <= x * 86400) in
  (fst (transits o s t0 t1 step lower) = Err ValueError <-> bad) /\
  (fst (rise_set o b t0 t1 step diameter) = Err ValueError <-> bad) /\
  (~ bad -> (exists l, fst (transits o s t0 t1 step lower) = Ok l) /\ exists l, fst (rise_set o b t0 t1 step diameter) = Ok l).
Proof.
  intros P D Ps bad. pose proof (C112_refused ss t0 t1 step P) as B. cbn zeta in B. unfold SolveProps.day in B. replace (24 * 3600) with 86400 in B by lra. fold bad in B.
  pose proof (fixup_ok ss to_jd t0 t1 step P D Ps) as F. cbn zeta in F.
  unfold transit_times, transit_jds, rise_set_times, sr_work. destruct (fixup to_jd ss t0 t1 step) as [[[x y] d]|err] eqn:Ef.
  - destruct F as (_ & -> & -> & Pd & Ld & _). destruct (skyfield_obs o) as [pl o'].
    assert (NB : ~ bad). { intros K. apply B in K. apply (fixup_refused ss to_jd) in K. congruence. }
    assert (SA : forall g br si sd, exists l, solve_all g br (to_jd t0) (to_jd (until t0 t1)) d si sd = Ok l).
    { intros. destruct (solve_all_cells g br (to_jd t0) (to_jd (until t0 t1)) d si sd Pd Ld) as (m & _ & _ & E). eauto. }
    cbn zeta. set (f := transit_function _ _ _ _ _ _ _). destruct (SA f (brentq f) false true) as (l & ->).
    set (g := fun t => _ + _). destruct (SA g (brentq g) false false) as (l2 & ->). cbn [fst rbind].
    split; [split; [discriminate|intros K; now destruct NB]|]. split; [split; [discriminate|intros K; now destruct NB]|]. eauto.
  - subst err. assert (Bd : bad) by (apply B; now apply fixup_refused in Ef). cbn [fst rbind]. split; [tauto|]. split; [tauto|]. intros K. now destruct K.
Qed.
End Sky.
Print Assumptions C280_hour_angle.
Print Assumptions C281_transits.
Print Assumptions C282_once_partial.
Print Assumptions C284_full_turn.
Print Assumptions C285_sidereal_time.
Print Assumptions C286_declination.
Print Assumptions C287_rise_set.
Print Assumptions C288_alternate_partial.
Print Assumptions C281_number.
Print Assumptions C289_horizon.
Print Assumptions C289_which.
Print Assumptions C291_asked.
Print Assumptions C292_refused.
