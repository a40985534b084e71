(** C75 and C112: the search for roots and its interval. *)
From Coq Require Import List Bool Reals ZArith Lra Lia.
From Verif Require Import PyBase SolveModel SolveSpec SolveProofs.
Import ListNotations.
Open Scope R_scope.

(** * C75 *)
(** The spacing of the grid is always greater than the step (refuting the property), and at most twice
    as large. *)
Theorem C75_spacing x0 x1 dx a b : x0 < x1 -> 0 < dx -> In (a, b) (pairs (grid x0 x1 dx)) -> dx < b - a <= 2 * dx /\ x0 <= a /\ b <= x1.
Proof.
  intros L D I. destruct (Rle_dec (x1 - x0) dx) as [C|C].
  - unfold grid in I. rewrite npoints_small in I by assumption. destruct I.
  - destruct (npoints_nat x0 x1 dx D ltac:(lra)) as (m & N & M). rewrite (grid_pairs _ _ _ _ N M) in I.
    apply in_map_iff in I as (i & E & Hi). apply in_seq in Hi. injection E as <- <-. rewrite gpoint_step.
    split; [apply (spacing2 x0 x1 dx m D N M)|]. split; apply gpoint_range; auto; lia.
Qed.
Print Assumptions C75_spacing.
Theorem C75_spacing_refuted : exists x0 x1 dx a b, 0 < dx /\ dx < x1 - x0 /\ In (a, b) (pairs (grid x0 x1 dx)) /\ ~ (b - a <= dx).
Proof.
  assert (N : npoints 0 2 1 = 2%Z) by (apply ceil_is; lra).
  assert (I : In (0 + INR 0 * ((2 - 0) / INR 1), 0 + INR 1 * ((2 - 0) / INR 1)) (pairs (grid 0 2 1))).
  { unfold grid. rewrite N. change (Z.to_nat 2) with 2%nat. left. reflexivity. }
  exists 0, 2, 1, (0 + INR 0 * ((2 - 0) / INR 1)), (0 + INR 1 * ((2 - 0) / INR 1)).
  split; [lra|]. split; [lra|]. split; [exact I|]. cbn. lra.
Qed.
Print Assumptions C75_spacing_refuted.

(** Two roots further apart than the step, at which the function changes sign, and none is found. *)
Definition parabola (x : R) : R := (x - 1/4) * (x - 7/4).
Definition parabola_brentq (a b : R) : R := if Rle_dec a (1/4) then if Rle_dec (1/4) b then 1/4 else 7/4 else 7/4.
Lemma Rmult_neg_neg a b : a < 0 -> b < 0 -> 0 < a * b.
Proof. nra. Qed.
Lemma Rmult_pos_neg a b : 0 < a -> b < 0 -> a * b < 0.
Proof. nra. Qed.
Lemma parabola_brackets : Brackets parabola parabola_brentq.
Proof.
  intros a b L P. unfold parabola_brentq.
  assert (Pos : forall x, x < 1/4 \/ 7/4 < x -> 0 < parabola x) by (intros x [H|H]; unfold parabola; nra).
  assert (Neg : forall x, 1/4 < x -> x < 7/4 -> parabola x < 0) by (intros x H K; unfold parabola; nra).
  assert (Z1 : parabola (1/4) = 0) by (unfold parabola; lra).
  assert (Z2 : parabola (7/4) = 0) by (unfold parabola; lra).
  destruct (Rle_dec a (1/4)) as [A|A]; [destruct (Rle_dec (1/4) b) as [B|B]|].
  - split; [lra|assumption].
  - exfalso. pose proof (Rmult_lt_0_compat _ _ (Pos a ltac:(lra)) (Pos b ltac:(lra))). lra.
  - split; [|assumption]. destruct (Rle_dec a (7/4)) as [C|C]; [destruct (Rle_dec (7/4) b) as [E|E]; [lra|]|]; exfalso.
    + pose proof (Neg a ltac:(lra) ltac:(lra)). pose proof (Neg b ltac:(lra) ltac:(lra)). nra.
    + pose proof (Rmult_lt_0_compat _ _ (Pos a ltac:(lra)) (Pos b ltac:(lra))). lra.
Qed.
Theorem C75_missed_refuted : exists f brentq x0 x1 dx r s, 0 < dx /\ dx < x1 - x0 /\ Brackets f brentq /\ Separated f x0 x1 dx /\
  IsRoot f x0 x1 r /\ IsRoot f x0 x1 s /\ r < s /\ Crosses f x0 x1 dx false r /\ Crosses f x0 x1 dx true s /\
  solve_all f brentq x0 x1 dx false false = Ok [].
Proof.
  exists parabola, parabola_brentq, 0, 2, 1, (1/4), (7/4).
  split; [lra|]. split; [lra|]. split; [exact parabola_brackets|]. split; [|split; [|split; [|split; [|split; [|split]]]]].
  - intros r s [[A B] Er] [[C D] Es] L. unfold parabola in *.
    apply Rmult_integral in Er as [Er|Er], Es as [Es|Es]; lra.
  - split; [lra|unfold parabola; lra].
  - split; [lra|unfold parabola; lra].
  - lra.
  - intros x Hx Hr. unfold parabola. split; intros K; [apply Rmult_neg_neg|apply Rmult_pos_neg]; lra.
  - intros x Hx Hr. unfold parabola. split; intros K; [apply Rmult_pos_neg|apply Rmult_lt_0_compat]; lra.
  - assert (N : npoints 0 2 1 = 2%Z) by (apply ceil_is; lra).
    rewrite solve_all_eq by lia. unfold grid. rewrite N. change (Z.to_nat 2) with 2%nat.
    cbn [linspace seq map pairs tl combine flat_map cell app]. unfold cell, parabola.
    destruct (rltb 0 _) eqn:E; [reflexivity|]. apply rltb_false in E. cbn in E. lra.
Qed.
Print Assumptions C75_missed_refuted.

(** A root at a point of the grid is reported twice. *)
Theorem C75_once_refuted : exists f brentq x0 x1 dx r, 0 < dx /\ dx < x1 - x0 /\ Brackets f brentq /\ Separated f x0 x1 dx /\
  solve_all f brentq x0 x1 dx false false = Ok [(r, true); (r, true)].
Proof.
  exists (fun x => x - 1), (fun a b => 1), 0, 2, (2/3), 1.
  split; [lra|]. split; [lra|]. split; [|split].
  - intros a b L P. split; [|lra]. split; nra.
  - intros r s [_ A] [_ B] L. lra.
  - assert (N : npoints 0 2 (2/3) = 3%Z) by (apply ceil_is; lra).
    rewrite solve_all_eq by lia. unfold grid. rewrite N. change (Z.to_nat 3) with 3%nat.
    cbn [linspace seq map pairs tl combine flat_map app]. unfold cell. cbn [INR andb negb].
    repeat match goal with
    | |- context [rltb 0 ?t] => let E := fresh in destruct (rltb 0 t) eqn:E; [apply rltb_true in E; exfalso; lra|apply rltb_false in E]
    end.
    repeat match goal with
    | |- context [rltb ?s ?t] => let E := fresh in destruct (rltb s t) eqn:E; [apply rltb_true in E|apply rltb_false in E; exfalso; lra]
    end. reflexivity.
Qed.
Print Assumptions C75_once_refuted.

(** An interval not longer than the step has no cell: nothing is found in it. *)
Theorem C75_short_interval f brentq x0 x1 dx si sd : x0 < x1 -> x1 - x0 <= dx -> solve_all f brentq x0 x1 dx si sd = Ok [].
Proof.
  intros L D. rewrite solve_all_eq by (rewrite npoints_small by assumption; lia).
  unfold grid. rewrite npoints_small by assumption. reflexivity.
Qed.
Print Assumptions C75_short_interval.

(** Everything reported is a root in the interval, the values ascend, and the flags are those not skipped. *)
Theorem C75_sound_partial f brentq x0 x1 dx si sd : Brackets f brentq -> x0 < x1 -> 0 < dx ->
  exists l, solve_all f brentq x0 x1 dx si sd = Ok l /\ Ascending (map fst l) /\
    (forall r u, In (r, u) l -> IsRoot f x0 x1 r /\ (si = true -> u = false) /\ (sd = true -> u = true)).
Proof.
  intros Br L D. destruct (Rle_dec (x1 - x0) dx) as [C|C].
  { exists []. rewrite C75_short_interval by assumption. split; [reflexivity|]. split; [exact I|]. intros r u []. }
  destruct (solve_all_cells f brentq x0 x1 dx si sd D ltac:(lra)) as (m & N & M & E). eexists. split; [exact E|]. split.
  - apply cells_ascending; assumption.
  - intros r u I. destruct (solve_in f brentq x0 x1 dx si sd _ r u L D E I) as (a & b & A & AB & B & _ & K).
    apply cell_in in K as (P & -> & -> & K1 & K2). destruct (Br a b ltac:(lra) P) as [Q1 Q2]. split; [|split; assumption].
    split; [lra|assumption].
Qed.
Print Assumptions C75_sound_partial.

(** A root with a change of sign and no other root within twice the step is found,
    with the direction it has, unless that direction is skipped. *)
Theorem C75_found_partial f brentq x0 x1 dx si sd up r : Brackets f brentq -> 0 < dx -> dx < x1 - x0 ->
  IsRoot f x0 x1 r -> Crosses f x0 x1 (2 * dx) up r -> (if up then si else sd) = false ->
  exists l, solve_all f brentq x0 x1 dx si sd = Ok l /\ In (r, up) l.
Proof.
  intros Br D L [Hr Zr] Cr Sk. destruct (solve_all_cells f brentq x0 x1 dx si sd D L) as (m & N & M & E).
  eexists. split; [exact E|]. destruct (in_cell x0 x1 m r ltac:(lra) M Hr) as (i & Hi & Hc).
  apply in_flat_map. exists i. split; [apply in_seq; lia|].
  pose proof (gpoint_step x0 x1 m i) as G. destruct (spacing2 x0 x1 dx m D N M) as [S1 S2].
  pose proof (gpoint_range x0 x1 m i ltac:(lra) M ltac:(lia)) as R1.
  pose proof (gpoint_range x0 x1 m (S i) ltac:(lra) M ltac:(lia)) as R2.
  set (a := gpoint x0 x1 m i) in *. set (b := gpoint x0 x1 m (S i)) in *. clearbody a b.
  destruct (Cr a R1 ltac:(lra)) as [Ca _]. destruct (Cr b R2 ltac:(lra)) as [_ Cb].
  assert (Fa : if up then f a <= 0 else 0 <= f a).
  { destruct Hc as [[K|K] _]; [specialize (Ca K); destruct up; lra|subst a; destruct up; lra]. }
  assert (Fb : if up then 0 <= f b else f b <= 0).
  { destruct Hc as [_ [K|K]]; [specialize (Cb K); destruct up; lra|subst b; destruct up; lra]. }
  assert (P : f a * f b <= 0) by (destruct up; nra).
  destruct (Br a b ltac:(lra) P) as [Q1 Q2]. set (q := brentq a b) in *.
  assert (q = r) as <-.
  { destruct (Cr q ltac:(lra) ltac:(lra)) as [K1 K2].
    destruct (Rtotal_order q r) as [K|[K|K]]; [specialize (K1 K); destruct up; lra|assumption|specialize (K2 K); destruct up; lra]. }
  assert (U : rltb (f a) (f b) = up).
  { destruct up; [apply rltb_true|apply rltb_false; lra].
    destruct (Req_dec a q) as [K|K]; [assert (f b > 0) by (apply Cb; lra); lra|].
    assert (f a < 0) by (apply Ca; lra). lra. }
  unfold cell. destruct (rltb 0 (f a * f b)) eqn:E0; [apply rltb_true in E0; lra|].
  rewrite U. destruct up, si, sd; cbn in *; try discriminate; left; reflexivity.
Qed.
Print Assumptions C75_found_partial.

(** Without a root on the grid nothing is reported twice. *)
Theorem C75_once_partial f brentq x0 x1 dx si sd : Brackets f brentq -> x0 < x1 -> 0 < dx ->
  (forall x, In x (grid x0 x1 dx) -> f x <> 0) ->
  exists l, solve_all f brentq x0 x1 dx si sd = Ok l /\ StrictlyAscending (map fst l).
Proof.
  intros Br L D NZ. destruct (Rle_dec (x1 - x0) dx) as [C|C].
  { exists []. rewrite C75_short_interval by assumption. split; [reflexivity|exact I]. }
  destruct (solve_all_cells f brentq x0 x1 dx si sd D ltac:(lra)) as (m & N & M & E). eexists. split; [exact E|].
  apply cells_strict; auto. intros i Hi. apply NZ. unfold grid. rewrite N, Nat2Z.id, linspace_eq by assumption.
  apply in_map, in_seq. lia.
Qed.
Print Assumptions C75_once_partial.

(** Skipping leaves out the roots with that direction and nothing else. *)
Theorem C75_skip f brentq x0 x1 dx si sd : 
  solve_all f brentq x0 x1 dx si sd =
  rbind (solve_all f brentq x0 x1 dx false false) (fun l => Ok (filter (fun x : R * bool => negb (if snd x then si else sd)) l)).
Proof.
  destruct (Z_lt_le_dec (npoints x0 x1 dx) 0) as [K|K].
  - unfold solve_all. destruct (Z.ltb_spec (npoints x0 x1 dx) 0); [reflexivity|lia].
  - rewrite !solve_all_eq by assumption. cbn [rbind]. f_equal. rewrite filter_flat_map.
    apply flat_map_ext_in. intros. apply cell_skip.
Qed.
Print Assumptions C75_skip.

Definition line_root (x : R) : R := x - 5/4.
Example C75_ex_found : exists l, solve_all line_root (fun _ _ => 5/4) 0 3 1 false false = Ok l /\ In (5/4, true) l.
Proof.
  apply C75_found_partial; try lra; try reflexivity.
  - intros a b L P. unfold line_root in *. split; [|lra]. split; nra.
  - split; [lra|unfold line_root; lra].
  - intros x _ _. unfold line_root. split; intros; lra.
Qed.
Example C75_ex_skip : solve_all line_root (fun _ _ => 5/4) 0 3 1 true false = Ok [].
Proof.
  rewrite C75_skip. assert (N : npoints 0 3 1 = 3%Z) by (apply ceil_is; lra).
  rewrite solve_all_eq by lia. cbn [rbind]. f_equal. rewrite filter_flat_map. unfold grid. rewrite N. change (Z.to_nat 3) with 3%nat.
  cbn [linspace seq map pairs tl combine flat_map]. unfold cell, line_root. cbn [INR andb negb].
  repeat match goal with
  | |- context [rltb ?s ?t] => let E := fresh in destruct (rltb s t) eqn:E; [apply rltb_true in E|apply rltb_false in E]; try (exfalso; lra); cbn
  end; reflexivity.
Qed.

(** * C112 *)
Definition day : R := 24 * 3600.
(** The interval and the step: refused exactly if the end is not after the beginning or a given step is not
    shorter than the interval. *)
Theorem C112_refused ss t0 t1 step : 0 < ss ->
  let e := match t1 with Some t => t | None => t0 + day * ss end in
  fixup_interval ss t0 t1 step = Err ValueError <-> e <= t0 \/ (exists s, step = Some s /\ e - t0 <= s * day).
Proof.
  intros P e. subst e. unfold fixup_interval, day. cbn zeta. destruct t1 as [t1|].
  - destruct (Rle_dec t1 t0) as [A|A]; cbn [rbind]; [tauto|]. destruct step as [s|].
    + destruct (Rle_dec (t1 - t0) (s * (24 * 3600))) as [B|B]; cbn [rbind]; split; intros H.
      * right. exists s. auto.
      * reflexivity.
      * discriminate.
      * destruct H as [H|(s' & E & H)]; [lra|]. injection E as <-. lra.
    + split; [intros H; discriminate|]. intros [H|(s & E & _)]; [lra|discriminate].
  - cbn [rbind]. destruct step as [s|].
    + destruct (Rle_dec (t0 + 24 * 3600 * ss - t0) (s * (24 * 3600))) as [B|B]; cbn [rbind]; split; intros H.
      * right. exists s. auto.
      * reflexivity.
      * discriminate.
      * destruct H as [H|(s' & E & H)]; [lra|]. injection E as <-. lra.
    + split; [intros H; discriminate|]. intros [H|(s & E & _)]; [lra|discriminate].
Qed.
Print Assumptions C112_refused.
(** What comes out: an interval of positive length that begins at [t0] and ends where asked, and a step shorter than it. *)
Theorem C112_result ss t0 t1 step a b s : 0 < ss -> fixup_interval ss t0 t1 step = Ok (a, b, s) ->
  a = t0 /\ b = match t1 with Some t => t | None => t0 + day * ss end /\ a < b /\ s * day < b - a /\ (forall x, step = Some x -> s = x).
Proof.
  intros P. unfold fixup_interval, day. cbn zeta. destruct t1 as [t1|].
  - destruct (Rle_dec t1 t0) as [A|A]; cbn [rbind]; [discriminate|]. destruct step as [x|].
    + destruct (Rle_dec (t1 - t0) (x * (24 * 3600))) as [B|B]; cbn [rbind]; [discriminate|].
      intros H. injection H as <- <- <-. repeat split; try lra. intros y H. now injection H.
    + cbn [rbind]. intros H. injection H as <- <- <-. repeat split; try lra; [|discriminate].
      destruct (Rle_dec (24 * 3600) (t1 - t0)); [lra|]. field_simplify; lra.
  - cbn [rbind]. destruct step as [x|].
    + destruct (Rle_dec (t0 + 24 * 3600 * ss - t0) (x * (24 * 3600))) as [B|B]; cbn [rbind]; [discriminate|].
      intros H. injection H as <- <- <-. repeat split; try lra. intros y H. now injection H.
    + cbn [rbind]. intros H. injection H as <- <- <-. repeat split; try lra; [|discriminate].
      destruct (Rle_dec (24 * 3600) (t0 + 24 * 3600 * ss - t0)); [lra|]. field_simplify; lra.
Qed.
Print Assumptions C112_result.
(** With the default step the search samples the interval at least every quarter of a day, and at least
    five times. *)
Theorem C112_default_partial ss t0 t1 a b s x y : 0 < ss -> fixup_interval ss t0 t1 None = Ok (a, b, s) ->
  In (x, y) (pairs (grid (a / day) (b / day) s)) -> 0 < s /\ y - x <= 1 / 4 /\ y - x <= (b - a) / day / 4.
Proof.
  intros P F I.
  destruct (C112_result _ _ _ _ _ _ _ P F) as (-> & _ & L & Ss & _).
  assert (D : s = if Rle_dec day (b - t0) then 1 / 5 else (b - t0) / (5 * day)).
  { unfold fixup_interval in F. cbn zeta in F. fold day in F. destruct t1 as [t1|]; cbn [rbind] in F.
    - destruct (Rle_dec t1 t0); cbn [rbind] in F; [discriminate|]. now injection F as <- <-.
    - now injection F as <- <-. }
  assert (Pd : 0 < day) by (unfold day; lra).
  set (n := (b - t0) / day). assert (Pn : 0 < n) by (apply Rdiv_lt_0_compat; lra).
  assert (En : b / day - t0 / day = n) by (unfold n; field; lra).
  assert (Es : s = if Rle_dec 1 n then 1 / 5 else n / 5).
  { rewrite D. destruct (Rle_dec day (b - t0)) as [A|A], (Rle_dec 1 n) as [B|B]; try reflexivity.
    - exfalso. apply B. unfold n. apply Rmult_le_reg_r with day; [lra|]. unfold Rdiv. rewrite Rmult_assoc, Rinv_l; lra.
    - exfalso. apply A. apply Rmult_le_compat_r with (r := day) in B; [|lra]. unfold n, Rdiv in B. rewrite Rmult_assoc, Rinv_l in B; lra.
    - unfold n. field. lra. }
  assert (Ps : 0 < s) by (rewrite Es; destruct (Rle_dec 1 n); lra). split; [assumption|].
  assert (Q : 5 <= n / s).
  { apply Rmult_le_reg_r with s; [assumption|]. unfold Rdiv. rewrite Rmult_assoc, Rinv_l by lra. rewrite Es. destruct (Rle_dec 1 n); lra. }
  assert (Lm : s < n).
  { rewrite Es. destruct (Rle_dec 1 n); lra. }
  destruct (npoints_nat (t0 / day) (b / day) s Ps ltac:(lra)) as (m & N & M).
  rewrite (grid_pairs _ _ _ _ N M) in I. apply in_map_iff in I as (i & E & _). injection E as <- <-.
  rewrite gpoint_step, En.
  assert (M5 : (5 <= S m)%nat).
  { unfold npoints in N. rewrite En in N. pose proof (ceil_spec (n / s)) as [_ K]. rewrite N in K.
    apply Nat2Z.inj_le, le_IZR. simpl (Z.of_nat 5). lra. }
  assert (M4 : 4 <= INR m) by (apply (le_INR 4) in M5 || idtac; replace 4 with (INR 4) by (cbn; lra); apply le_INR; lia).
  destruct (spacing (t0 / day) (b / day) s m Ps N M) as [_ K]. rewrite En in K.
  assert (U : INR (S m) / INR m <= 5 / 4).
  { apply Rmult_le_reg_r with (INR m); [lra|]. unfold Rdiv at 1. rewrite Rmult_assoc, Rinv_l by lra. rewrite S_INR. lra. }
  split.
  - assert (s <= 1 / 5) by (rewrite Es; destruct (Rle_dec 1 n); lra). nra.
  - change ((b - t0) / day / 4) with (n / 4). apply Rmult_le_reg_r with (INR m); [lra|]. unfold Rdiv at 1. rewrite Rmult_assoc, Rinv_l by lra. nra.
Qed.
Print Assumptions C112_default_partial.
(** A negative step is accepted, and the search then fails. *)
Theorem C112_step_refuted : exists ss t0 t1 step a b s, 0 < ss /\ fixup_interval ss t0 t1 (Some step) = Ok (a, b, s) /\ s < 0 /\
  solve_all (fun x => x) (fun _ _ => 0) (a / day) (b / day) s false false = Err ValueError.
Proof.
  exists 1, 0, (Some (2 * day)), (-1), 0, (2 * day), (-1). assert (Pd : 0 < day) by (unfold day; lra).
  split; [lra|]. split; [|split; [lra|]].
  - unfold fixup_interval. cbn zeta. fold day. destruct (Rle_dec (2 * day) 0); [lra|]. cbn [rbind].
    destruct (Rle_dec (2 * day - 0) (-1 * day)); [lra|]. reflexivity.
  - unfold solve_all. assert (N : npoints (0 / day) (2 * day / day) (-1) = (-2)%Z).
    { apply ceil_is. replace ((2 * day / day - 0 / day) / -1) with (-2) by (field; lra). lra. }
    rewrite N. reflexivity.
Qed.
Print Assumptions C112_step_refuted.
Example C112_ex : fixup_interval 1 0 None None = Ok (0, 0 + 24 * 3600 * 1, 1 / 5).
Proof. unfold fixup_interval. cbn [rbind]. destruct (Rle_dec (24 * 3600) (0 + 24 * 3600 * 1 - 0)); [reflexivity|lra]. Qed.
