From Coq Require Import List Bool Reals ZArith Lia Lra Psatz.
From Verif Require Import PyBase SolveModel SolveSpec SolveProofs LsdModel LsdSpec LsdProofs RisModel RisSpec RisProofs.
Import ListNotations.
Open Scope R_scope.

Lemma keep_increasing f brentq sd a b r u : In (r, u) (cell f brentq false sd (a, b)) -> sd = true -> u = true /\ f a < f b.
Proof.
  intros I E. apply cell_in in I as (_ & _ & U & _ & K). specialize (K E). split; [exact K|]. rewrite K in U. symmetry in U. now apply rltb_true.
Qed.
(** The search in a wrapped angle finds what there is. *)
Lemma solve_wrapped f g brentq x0 x1 dx : continuity g -> (forall t, -180 <= f t < 180) -> (forall t, SameAngle (f t) (g t)) ->
  (forall s t, s < t -> g s < g t) -> (forall s t, s < t -> t - s <= 2 * dx -> g t - g s < 180) -> Solver f brentq ->
  0 < dx -> dx < x1 - x0 ->
  exists l, solve_all f brentq x0 x1 dx false true = Ok l /\ Ascending (map fst l) /\
    (forall r, In r (map fst l) <-> x0 <= r <= x1 /\ f r = 0) /\
    ((forall x, In x (grid x0 x1 dx) -> f x <> 0) -> StrictlyAscending (map fst l)).
Proof.
  intros Cg Rg Sm Gr Sl So D L.
  destruct (solve_all_cells f brentq x0 x1 dx false true D L) as (m & N & M & E).
  destruct (spacing2 x0 x1 dx m D N M) as [S1 S2]. assert (L' : x0 < x1) by lra.
  assert (H : Holds f brentq x0 x1 m false true m).
  { intros i r u Hi I. destruct (keep_increasing _ _ _ _ _ _ _ I eq_refl) as [_ Inc].
    apply cell_in in I as (P & -> & _). pose proof (gpoint_mono x0 x1 m i (S i) L' M ltac:(lia)) as Lt.
    apply So; [now left| |exact P]. apply (wrapped_continuous f g (2 * dx)); auto. rewrite gpoint_step. exact S2. }
  eexists. split; [exact E|]. split; [apply holds_ascending; auto|]. split; [|].
  - intros r. split.
    + intros I. apply holds_bounds in I as (i & Hi & Br & Z); auto.
      pose proof (gpoint_range x0 x1 m i L' M ltac:(lia)). pose proof (gpoint_range x0 x1 m (S i) L' M ltac:(lia)). split; [lra|exact Z].
    + intros [Hr Z]. destruct (in_cell x0 x1 m r L' M Hr) as (i & Hi & Hc).
      pose proof (gpoint_mono x0 x1 m i (S i) L' M ltac:(lia)) as Lt.
      assert (W : gpoint x0 x1 m (S i) - gpoint x0 x1 m i <= 2 * dx) by (rewrite gpoint_step; exact S2).
      assert (Hc' : gpoint x0 x1 m i <= r <= gpoint x0 x1 m (S i)) by lra. destruct (wrapped_seen f g (2 * dx) Rg Sm Gr Sl _ _ r Lt W Hc' Z) as [P Inc].
      apply in_map_iff. exists (brentq (gpoint x0 x1 m i) (gpoint x0 x1 m (S i)), true). split.
      * cbn [fst]. destruct (So _ _ (Rlt_le _ _ Lt) (wrapped_continuous f g (2 * dx) Cg Rg Sm Gr Sl _ _ Lt W P Inc) P) as [Q1 Q2].
        apply (wrapped_unique f g (2 * dx) Rg Sm Gr Sl _ _ _ _ Lt W P Inc Q1 Hc' Q2 Z).
      * apply in_flat_map. exists i. split; [apply in_seq; lia|]. unfold cell.
        assert (rltb 0 (f (gpoint x0 x1 m i) * f (gpoint x0 x1 m (S i))) = false) as -> by (apply rltb_false; exact P).
        assert (rltb (f (gpoint x0 x1 m i)) (f (gpoint x0 x1 m (S i))) = true) as -> by (apply rltb_true; exact Inc).
        now left.
  - intros NZ. apply holds_strict; auto. intros i Hi. apply NZ. unfold grid. rewrite N, Nat2Z.id, linspace_eq by assumption.
    apply in_map, in_seq. lia.
Qed.

Section Sky.
Variable body : Type.
Variable star : R -> R -> body.
Variable gast : R -> R.
Variable ra dec alt_of : location -> body -> R -> R.
Variable to_jd to_unix : R -> R.
Variable brentq : (R -> R) -> R -> R -> R.
Variable ss : R.
Notation tf := (transit_function body gast ra).
Lemma ha_range lon l b t : -180 <= source_ha body gast ra lon l b t < 180.
Proof. unfold source_ha. pose proof (rmod_bounds (gast t * 15 + lon - ra l b t + 180) 360 ltac:(lra)). lra. Qed.
Lemma ha_same lon l b t : SameAngle (source_ha body gast ra lon l b t) (gast t * 15 + lon - ra l b t).
Proof.
  unfold source_ha. destruct (same_rmod (gast t * 15 + lon - ra l b t + 180)) as (k & ->). exists k. lra.
Qed.
Lemma tf_range lon l b lower t : -180 <= tf lon l b lower t < 180.
Proof.
  unfold transit_function. cbn zeta. pose proof (ha_range lon l b t) as H. destruct lower; [|exact H].
  pose proof (rmod_bounds (source_ha body gast ra lon l b t) 360 ltac:(lra)). lra.
Qed.
Lemma tf_same lon l b lower t : SameAngle (tf lon l b lower t) (gast t * 15 + lon - ra l b t - if lower then 180 else 0).
Proof.
  unfold transit_function. cbn zeta. pose proof (ha_same lon l b t) as H. destruct lower.
  - eapply same_trans; [apply same_plus; [apply same_rmod|apply same_refl]|]. apply same_plus; [exact H|apply same_refl].
  - replace (gast t * 15 + lon - ra l b t - 0) with (gast t * 15 + lon - ra l b t) by lra. exact H.
Qed.
Lemma tf_zero lon l b lower t : tf lon l b lower t = 0 <-> OnMeridian lower (gast t * 15 + lon) (ra l b t).
Proof.
  pose proof (tf_range lon l b lower t) as Rg. pose proof (tf_same lon l b lower t) as Sm. unfold OnMeridian. split.
  - intros Z. rewrite Z in Sm. destruct (same_sym _ _ Sm) as (k & E). exists k. destruct lower; lra.
  - intros (k & E). apply (same_eq _ _ (-180)); [lra|lra|]. eapply same_trans; [exact Sm|]. exists k. destruct lower; lra.
Qed.
Notation place' o := (fst (skyfield_obs o)).
(** The interval that is searched *)
Lemma transit_jds_ok o s t0 t1 step lower h : 0 < ss -> Days to_jd -> (forall x, step = Some x -> 0 < x) ->
  let e := match t1 with Some t => t | None => t0 + 86400 * ss end in
  let d := match step with Some x => x | None => if Rle_dec 86400 (e - t0) then 1 / 5 else (e - t0) / (5 * 86400) end in
  let lon := longitude (place o) in let b := to_body body star s in
  HourAngle h (fun t => gast t * 15 + lon) (ra (place' o) b) (2 * d) ->
  let f := tf lon (place' o) b lower in
  Solver f (brentq f) -> t0 < e -> d * 86400 < e - t0 ->
  exists l, transit_jds body star gast ra to_jd brentq ss o s t0 t1 step lower = (Ok l, snd (skyfield_obs o)) /\
    Ascending l /\ (forall r, In r l <-> to_jd t0 <= r <= to_jd e /\ f r = 0) /\
    ((forall x, In x (grid (to_jd t0) (to_jd e) d) -> f x <> 0) -> StrictlyAscending l).
Proof.
  intros P Dy Ps e d lon b Hh f So L Dd. unfold transit_jds. fold lon b.
  pose proof (fixup_ok ss to_jd t0 t1 step P Dy Ps) as F. cbn zeta in F. fold e in F.
  destruct (fixup to_jd ss t0 t1 step) as [[[x y] z]|err] eqn:Ef.
  - destruct F as (_ & -> & -> & Pz & Lz & Ez). rewrite Ez in *. fold d in Ef, Pz, Lz |- *.
    assert (Y : exists r, solve_all f (brentq f) (to_jd t0) (to_jd e) d false true = Ok r /\ Ascending (map fst r) /\
      (forall q, In q (map fst r) <-> to_jd t0 <= q <= to_jd e /\ f q = 0) /\
      ((forall q, In q (grid (to_jd t0) (to_jd e) d) -> f q <> 0) -> StrictlyAscending (map fst r))).
    { apply (solve_wrapped f (fun t => h t - if lower then 180 else 0)).
      - apply (continuity_minus h (fun _ => if lower then 180 else 0)); [apply Hh|]. apply continuity_const. intros u v. reflexivity.
      - apply tf_range.
      - intros t. eapply same_trans; [apply tf_same|]. apply same_plus; [|apply same_refl]. apply same_sym. apply (ha_angle _ _ _ _ Hh).
      - intros p q K. pose proof (ha_grows _ _ _ _ Hh p q K). lra.
      - intros p q K1 K2. pose proof (ha_slow _ _ _ _ Hh p q K1 K2). lra.
      - exact So.
      - exact Pz.
      - exact Lz. }
    destruct Y as (r & E & A & B & C). destruct (skyfield_obs o) as [pl o'] eqn:Eo. cbn [fst snd] in *. fold f. rewrite E.
    exists (map fst r). split; [reflexivity|]. auto.
  - exfalso. apply fixup_refused in Ef. unfold fixup_interval in Ef. cbn zeta in Ef.
    destruct t1 as [t1|]; cbn [rbind] in Ef.
    + subst e. destruct (Rle_dec t1 t0); [lra|]. cbn [rbind] in Ef. destruct step as [x|]; [|discriminate].
      subst d. destruct (Rle_dec (t1 - t0) (x * (24 * 3600))); [lra|discriminate].
    + subst e. destruct step as [x|]; [|discriminate]. subst d. destruct (Rle_dec _ (x * (24 * 3600))); [lra|discriminate].
Qed.
End Sky.
