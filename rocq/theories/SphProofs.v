(** Proofs about coordinates on the sphere. *)
From Coq Require Import List Bool Reals ZArith Lra Lia Nsatz.
From Verif Require Import PyBase ArrModel SolveModel SolveProofs SphModel SphSpec.
Import ListNotations.
Open Scope R_scope.

Lemma sq2 x : x ^ 2 = x * x.
Proof. ring. Qed.
Ltac nz := rewrite ?sq2 in *; nsatz.
Lemma sc1 x : sin x * sin x + cos x * cos x = 1.
Proof. apply sin2_cos2. Qed.
Lemma rleb_true a b : rleb a b = true <-> a <= b.
Proof. unfold rleb. destruct (Rle_dec a b); split; intros; try discriminate; try lra; auto. Qed.
Lemma req_true a b : req a b = true <-> a = b.
Proof. unfold req. destruct (Req_EM_T a b); split; intros; try discriminate; congruence. Qed.
Lemma root_ok x : 0 <= x -> root x = Some (sqrt x).
Proof. intros H. unfold root. apply rleb_true in H. now rewrite H. Qed.
Lemma root_nan x : x < 0 -> root x = None.
Proof. intros H. unfold root. destruct (rleb 0 x) eqn:E; [apply rleb_true in E; lra|reflexivity]. Qed.
Lemma quot_ok x y : y <> 0 -> quot x y = Some (x / y).
Proof. intros H. unfold quot. destruct (req y 0) eqn:E; [apply req_true in E; contradiction|reflexivity]. Qed.
Lemma quot_nan x : quot x 0 = None.
Proof. unfold quot. replace (req 0 0) with true; [reflexivity|]. symmetry. now apply req_true. Qed.
Lemma arccos_ok x : -1 <= x <= 1 -> arccos x = Some (acos x).
Proof. intros [A B]. unfold arccos. apply rleb_true in A, B. now rewrite A, B. Qed.
Lemma arcsin_ok x : -1 <= x <= 1 -> arcsin x = Some (asin x).
Proof. intros [A B]. unfold arcsin. apply rleb_true in A, B. now rewrite A, B. Qed.
Lemma inner_dotp u v : inner u v = dotp u v.
Proof. reflexivity. Qed.

(** * arctan2 *)
Lemma cos_atan' x : cos (atan x) = / sqrt (1 + x ^ 2).
Proof. rewrite cos_atan. unfold Rsqr, Rdiv. rewrite Rmult_1_l. do 2 f_equal. ring. Qed.
Lemma sin_atan' x : sin (atan x) = x / sqrt (1 + x ^ 2).
Proof. rewrite sin_atan. unfold Rsqr. do 3 f_equal. ring. Qed.
Lemma sqrt_scale x y : x <> 0 -> sqrt (x ^ 2 + y ^ 2) = Rabs x * sqrt (1 + (y / x) ^ 2).
Proof.
  intros H. rewrite <- (sqrt_Rsqr_abs x). rewrite <- sqrt_mult; [|apply Rle_0_sqr|].
  - f_equal. unfold Rsqr. field. assumption.
  - assert (0 <= (y / x) ^ 2) by apply pow2_ge_0. lra.
Qed.
Lemma sqrt1_pos t : 0 < sqrt (1 + t ^ 2).
Proof. apply sqrt_lt_R0. assert (0 <= t ^ 2) by apply pow2_ge_0. lra. Qed.
Lemma atan2_cos_sin y x : sqrt (x ^ 2 + y ^ 2) * cos (atan2 y x) = x /\ sqrt (x ^ 2 + y ^ 2) * sin (atan2 y x) = y.
Proof.
  unfold atan2. destruct (rltb 0 x) eqn:P.
  - apply rltb_true in P. rewrite sqrt_scale by lra. rewrite cos_atan', sin_atan'.
    pose proof (sqrt1_pos (y / x)). rewrite Rabs_right by lra. split; field; lra.
  - apply rltb_false in P. destruct (rltb x 0) eqn:N.
    + apply rltb_true in N. rewrite sqrt_scale by lra. pose proof (sqrt1_pos (y / x)). rewrite Rabs_left by lra.
      destruct (rleb 0 y) eqn:Y.
      * rewrite neg_cos, neg_sin, cos_atan', sin_atan'. split; field; lra.
      * replace (atan (y / x) - PI) with (- (- atan (y / x) + PI)) by ring.
        rewrite cos_neg, sin_neg, neg_cos, neg_sin, cos_neg, sin_neg, cos_atan', sin_atan'. split; field; lra.
    + apply rltb_false in N. assert (x = 0) by lra. subst x. replace (0 ^ 2 + y ^ 2) with (y ^ 2) by ring.
      destruct (rltb 0 y) eqn:Y.
      * apply rltb_true in Y. rewrite cos_PI2, sin_PI2, sqrt_pow2 by lra. lra.
      * apply rltb_false in Y. destruct (rltb y 0) eqn:Y'.
        -- apply rltb_true in Y'. replace (y ^ 2) with ((- y) ^ 2) by ring.
           rewrite cos_neg, sin_neg, cos_PI2, sin_PI2, sqrt_pow2 by lra. lra.
        -- apply rltb_false in Y'. assert (y = 0) by lra. subst y. replace (0 ^ 2) with 0 by ring. rewrite sqrt_0. lra.
Qed.
Lemma atan2_bound y x : - PI < atan2 y x <= PI.
Proof.
  pose proof PI_RGT_0. unfold atan2. pose proof (atan_bound (y / x)) as B.
  destruct (rltb 0 x) eqn:P; [lra|].
  destruct (rltb x 0) eqn:N.
  - apply rltb_true in N. destruct (rleb 0 y) eqn:Y.
    + apply rleb_true in Y. split; [lra|].
      assert (y / x <= 0). { assert (/ x < 0) by now apply Rinv_lt_0_compat. unfold Rdiv. nra. }
      destruct (Req_dec (y / x) 0) as [->|E]; [rewrite atan_0; lra|].
      assert (atan (y / x) < atan 0) by (apply atan_increasing; lra). rewrite atan_0 in *. lra.
    + assert (y < 0) by (destruct (Rlt_dec y 0); [assumption|]; assert (rleb 0 y = true) by (apply rleb_true; lra); congruence).
      assert (0 < y / x). { unfold Rdiv. replace (y * / x) with ((- y) * (- / x)) by ring. apply Rmult_lt_0_compat; [lra|]. assert (/ x < 0) by now apply Rinv_lt_0_compat. lra. }
      assert (atan 0 < atan (y / x)) by (apply atan_increasing; lra). rewrite atan_0 in *. lra.
  - destruct (rltb 0 y); [lra|]. destruct (rltb y 0); lra.
Qed.
Lemma atan2_right y x : 0 <= x -> - PI / 2 <= atan2 y x <= PI / 2.
Proof.
  intros P. pose proof (atan_bound (y / x)) as B. unfold atan2. destruct (rltb 0 x) eqn:E; [lra|].
  destruct (rltb x 0) eqn:E'; [apply rltb_true in E'; lra|]. pose proof PI_RGT_0.
  destruct (rltb 0 y); [lra|]. destruct (rltb y 0); lra.
Qed.
(** Angles with the same sine and cosine. *)
Lemma angle_unique a b : - PI < a <= PI -> - PI < b <= PI -> cos a = cos b -> sin a = sin b -> a = b.
Proof.
  intros A B C S. pose proof PI_RGT_0.
  assert (K : forall u v, - PI < u <= PI -> - PI < v <= PI -> cos u = cos v -> sin u = sin v -> 0 <= u -> u = v).
  { clear A B C S a b. intros u v U V C S P. destruct (Rle_dec 0 v) as [Q|Q].
    - apply cos_inj; auto; lra.
    - exfalso. assert (u = - v). { apply cos_inj; try lra. now rewrite cos_neg. }
      subst u. rewrite sin_neg in S. assert (sin v = 0) by lra.
      assert (sin (- v) > 0) by (apply sin_gt_0; lra). rewrite sin_neg in *. lra. }
  destruct (Rle_dec 0 a) as [P|P]; [now apply K|].
  destruct (Rle_dec 0 b) as [Q|Q]; [symmetry; now apply K|].
  assert (- a = - b); [|lra]. apply K; try lra; rewrite ?cos_neg, ?sin_neg; lra.
Qed.
Lemma sq_sum r a : 0 <= r -> sqrt ((r * cos a) ^ 2 + (r * sin a) ^ 2) = r.
Proof.
  intros H. replace ((r * cos a) ^ 2 + (r * sin a) ^ 2) with (r ^ 2); [now apply sqrt_pow2|].
  pose proof (sc1 a). nz.
Qed.
Lemma atan2_unique r a : 0 < r -> - PI < a <= PI -> atan2 (r * sin a) (r * cos a) = a.
Proof.
  intros P A. destruct (atan2_cos_sin (r * sin a) (r * cos a)) as [C S].
  rewrite sq_sum in C, S by lra. apply angle_unique; [apply atan2_bound|assumption| |]; apply Rmult_eq_reg_l with r; lra.
Qed.

(** * Ground coordinates *)
Lemma ground_unit ha lat dec : dotp (sph_to_ground ha lat dec) (sph_to_ground ha lat dec) = 1.
Proof. unfold dotp, sph_to_ground. pose proof (sc1 ha). pose proof (sc1 lat). pose proof (sc1 dec). nz. Qed.
Lemma ground_round x y lat ha dec : ground_to_sph x y lat = Some (ha, dec) ->
  x ^ 2 + y ^ 2 <= 1 /\ - PI <= ha < PI /\ - PI / 2 <= dec <= PI / 2 /\ sph_to_ground ha lat dec = (x, y, sqrt (1 - x ^ 2 - y ^ 2)).
Proof.
  unfold ground_to_sph. destruct (Rle_dec 0 (1 - x ^ 2 - y ^ 2)) as [P|P]; [|rewrite root_nan by lra; discriminate].
  rewrite root_ok by assumption. cbn [bind]. set (z := sqrt (1 - x ^ 2 - y ^ 2)).
  assert (Z : z * z = 1 - x ^ 2 - y ^ 2) by now apply sqrt_sqrt.
  set (xe := z * cos lat - y * sin lat). set (ze := y * cos lat + z * sin lat).
  assert (Q : 0 <= xe ^ 2 + x ^ 2) by (assert (0 <= xe ^ 2) by apply pow2_ge_0; assert (0 <= x ^ 2) by apply pow2_ge_0; lra).
  rewrite root_ok by assumption. cbn [bind]. intros H.
  apply (f_equal (fun o => match o with Some p => p | None => (0, 0) end)) in H. cbv beta iota in H. apply pair_equal_spec in H as [<- <-].
  destruct (atan2_cos_sin x xe) as [C1 S1]. set (h := sqrt (xe ^ 2 + x ^ 2)) in *.
  assert (Hh : h * h = xe ^ 2 + x ^ 2) by now apply sqrt_sqrt.
  assert (Ph : 0 <= h) by apply sqrt_pos.
  destruct (atan2_cos_sin ze h) as [C2 S2].
  assert (One : h ^ 2 + ze ^ 2 = 1).
  { pose proof (sc1 lat) as T. rewrite !sq2, Hh. unfold xe, ze. rewrite !sq2 in *. clear - Z T. nsatz. }
  rewrite One, sqrt_1, !Rmult_1_l in *.
  split; [lra|]. pose proof (atan2_bound x xe). split; [lra|]. split.
  - now apply atan2_right.
  - unfold sph_to_ground. replace (-1 * atan2 x xe) with (- atan2 x xe) by ring. rewrite cos_neg, sin_neg, C2, S2.
    set (ca := cos (atan2 x xe)) in *. set (sa := sin (atan2 x xe)) in *. pose proof (sc1 lat) as T.
    f_equal; [f_equal|].
    + lra.
    + replace (cos lat * ze - sin lat * h * ca) with (cos lat * ze - sin lat * (h * ca)) by ring. rewrite C1. unfold xe, ze. nz.
    + replace (sin lat * ze + cos lat * h * ca) with (sin lat * ze + cos lat * (h * ca)) by ring. rewrite C1. unfold xe, ze. nz.
Qed.
Lemma ground_inverse ha lat dec x y z : sph_to_ground ha lat dec = (x, y, z) -> 0 <= z -> - PI <= ha < PI -> - (PI / 2) < dec < PI / 2 ->
  ground_to_sph x y lat = Some (ha, dec).
Proof.
  intros E Z A D. pose proof (ground_unit ha lat dec) as U. rewrite E in U. cbn in U.
  unfold ground_to_sph. rewrite root_ok by nra. cbn [bind].
  assert (Ez : sqrt (1 - x ^ 2 - y ^ 2) = z). { replace (1 - x ^ 2 - y ^ 2) with (z ^ 2) by lra. now apply sqrt_pow2. }
  rewrite Ez. unfold sph_to_ground in E. injection E as Ex Ey Ez'. pose proof (sc1 lat) as T.
  assert (Xe : z * cos lat - y * sin lat = cos dec * cos (- ha)) by (rewrite cos_neg; subst y z; clear Ez Z U; nz).
  assert (Ze : y * cos lat + z * sin lat = 1 * sin dec) by (subst y z; clear Ez Z U; nz).
  assert (Xx : x = cos dec * sin (- ha)) by (rewrite sin_neg; lra).
  rewrite Xe, Ze. rewrite Xx. assert (Pc : 0 < cos dec) by (apply cos_gt_0; lra).
  rewrite root_ok by (rewrite <- Rsqr_pow2, <- Rsqr_pow2; apply Rplus_le_le_0_compat; apply Rle_0_sqr).
  cbn [bind]. rewrite sq_sum by lra. replace (cos dec) with (1 * cos dec) at 3 by ring.
  rewrite !atan2_unique by lra. do 2 f_equal. ring.
Qed.

(** * Unit vectors on the sphere *)
Lemma polar_unit t p : dotp (s2c t p) (s2c t p) = 1.
Proof. unfold dotp, s2c. pose proof (sc1 t). pose proof (sc1 p). nz. Qed.
Lemma polar_dot t p t' p' : dotp (s2c t p) (s2c t' p') = sin t * sin t' * cos (p - p') + cos t * cos t'.
Proof. unfold dotp, s2c. rewrite cos_minus. ring. Qed.
Lemma cauchy u v : dotp u v ^ 2 <= dotp u u * dotp v v.
Proof.
  destruct u as [[a b] c], v as [[x y] z]. unfold dotp.
  assert (0 <= (a * y - b * x) ^ 2 + (a * z - c * x) ^ 2 + (b * z - c * y) ^ 2).
  { repeat apply Rplus_le_le_0_compat; apply pow2_ge_0. } nra.
Qed.
Lemma unit_dot u v : dotp u u = 1 -> dotp v v = 1 -> -1 <= dotp u v <= 1.
Proof. intros U V. pose proof (cauchy u v) as C. rewrite U, V in C. nra. Qed.
Lemma dot_pos u : 0 <= dotp u u.
Proof. destruct u as [[a b] c]. unfold dotp. nra. Qed.
Lemma dot_zero u : dotp u u = 0 -> u = (0, 0, 0).
Proof. destruct u as [[a b] c]. unfold dotp. intros H. assert (a = 0) by nra. assert (b = 0) by nra. assert (c = 0) by nra. now subst. Qed.

(** * Angular distance *)
Lemma half_sq x : sin (x / 2) ^ 2 = (1 - cos x) / 2.
Proof. replace (cos x) with (cos (2 * (x / 2))) by (f_equal; lra). rewrite cos_2a_sin. lra. Qed.
Lemma haversine a b c d : sin ((b - d) / 2) ^ 2 = (1 - cos b * cos d - sin b * sin d) / 2 /\
  (cos b * cos d * sin ((a - c) / 2) ^ 2 + sin ((b - d) / 2) ^ 2 = (1 - dotp (direction a b) (direction c d)) / 2).
Proof.
  rewrite !half_sq, !cos_minus. unfold dotp, direction. split; lra.
Qed.
Lemma direction_unit a b : dotp (direction a b) (direction a b) = 1.
Proof. unfold dotp, direction. pose proof (sc1 a). pose proof (sc1 b). nz. Qed.
Lemma sphdist_angle a b c d : exists x, sphdist a b c d = Some x /\ 0 <= x <= PI /\ cos x = dotp (direction a b) (direction c d).
Proof.
  unfold sphdist. destruct (haversine a b c d) as [_ ->].
  pose proof (unit_dot _ _ (direction_unit a b) (direction_unit c d)) as B.
  set (k := dotp _ _) in *. rewrite root_ok by lra. cbn [bind].
  assert (S : 0 <= sqrt ((1 - k) / 2) <= 1).
  { pose proof (sqrt_pos ((1 - k) / 2)). assert (sqrt ((1 - k) / 2) * sqrt ((1 - k) / 2) = (1 - k) / 2) by (apply sqrt_sqrt; lra). split; nra. }
  rewrite arcsin_ok by lra. cbn [bind]. eexists. split; [reflexivity|].
  pose proof (asin_bound (sqrt ((1 - k) / 2))).
  assert (0 <= asin (sqrt ((1 - k) / 2))).
  { destruct (Rle_lt_dec 0 (asin (sqrt ((1 - k) / 2)))) as [K|K]; [assumption|].
    assert (sin (asin (sqrt ((1 - k) / 2))) < 0) by (apply sin_lt_0_var; lra).
    rewrite sin_asin in *; lra. }
  split; [lra|]. rewrite cos_2a_sin, sin_asin by lra.
  replace (1 - 2 * sqrt ((1 - k) / 2) * sqrt ((1 - k) / 2)) with (1 - 2 * (sqrt ((1 - k) / 2) * sqrt ((1 - k) / 2))) by ring.
  rewrite sqrt_sqrt by lra. lra.
Qed.

(** * Spherical to Cartesian and back *)
Lemma cart_sph_ok x y z : 0 < x ^ 2 + y ^ 2 + z ^ 2 ->
  let r := sqrt (x ^ 2 + y ^ 2 + z ^ 2) in
  cart_to_sph (x, y, z) = Some (r, acos (z / r), atan2 y x) /\ 0 < r /\ r * r = x ^ 2 + y ^ 2 + z ^ 2 /\ -1 <= z / r <= 1.
Proof.
  intros P r. assert (Pr : 0 < r) by now apply sqrt_lt_R0.
  assert (Rr : r * r = x ^ 2 + y ^ 2 + z ^ 2) by (apply sqrt_sqrt; lra).
  assert (Q : -1 <= z / r <= 1).
  { assert (A : (z / r) * r = z) by (field; lra). set (q := z / r) in *. assert (q * q <= 1).
    { apply Rmult_le_reg_r with (r * r); [nra|]. replace (q * q * (r * r)) with (z * z) by (rewrite <- A; ring). nra. } nra. }
  split; [|auto]. unfold cart_to_sph. rewrite root_ok by lra. cbn [bind]. fold r. rewrite quot_ok by lra. cbn [bind].
  rewrite arccos_ok by assumption. reflexivity.
Qed.
Lemma sph_cart c s : cart_to_sph c = Some s -> sph_to_cart3 s = c /\ let '(r, t, p) := s in 0 < r /\ r = len c /\ 0 <= t <= PI /\ - PI < p <= PI.
Proof.
  destruct c as [[x y] z]. destruct (Rlt_dec 0 (x ^ 2 + y ^ 2 + z ^ 2)) as [P|P].
  - destruct (cart_sph_ok x y z P) as (-> & Pr & Rr & Q). set (r := sqrt (x ^ 2 + y ^ 2 + z ^ 2)) in *.
    intros H. injection H as <-. split.
    + unfold sph_to_cart3, s2c. rewrite cos_acos, sin_acos by assumption.
      assert (E : sqrt (1 - Rsqr (z / r)) * r = sqrt (x ^ 2 + y ^ 2)).
      { rewrite <- (sqrt_pow2 r) at 2 by lra. rewrite <- sqrt_mult; [|unfold Rsqr; nra|nra]. f_equal. unfold Rsqr.
        replace ((1 - z / r * (z / r)) * r ^ 2) with (r * r - (z / r * r) * (z / r * r)) by ring.
        replace (z / r * r) with z by (field; lra). rewrite Rr. ring. }
      destruct (atan2_cos_sin y x) as [C S]. f_equal; [f_equal|].
      * rewrite <- C at 2. rewrite <- E. ring.
      * rewrite <- S at 2. rewrite <- E. ring.
      * field. lra.
    + split; [assumption|]. split; [|split; [apply acos_bound|apply atan2_bound]].
      unfold len, dotp. unfold r. f_equal. ring.
  - unfold cart_to_sph. assert (x = 0) by nra. assert (y = 0) by nra. assert (z = 0) by nra. subst.
    replace (0 ^ 2 + 0 ^ 2 + 0 ^ 2) with 0 by ring. rewrite root_ok by lra. cbn [bind]. rewrite sqrt_0, quot_nan. discriminate.
Qed.
Lemma cart_sph_inverse r t p : 0 < r -> 0 < t < PI -> - PI < p <= PI -> cart_to_sph (sph_to_cart3 (r, t, p)) = Some (r, t, p).
Proof.
  intros R T P. assert (S : 0 < sin t) by (apply sin_gt_0; lra).
  unfold sph_to_cart3, s2c.
  assert (E : (sin t * cos p * r) ^ 2 + (sin t * sin p * r) ^ 2 + (cos t * r) ^ 2 = r ^ 2) by (pose proof (sc1 t); pose proof (sc1 p); nz).
  destruct (cart_sph_ok (sin t * cos p * r) (sin t * sin p * r) (cos t * r)) as (-> & _); [rewrite E; nra|].
  rewrite E. rewrite sqrt_pow2 by lra. replace (cos t * r / r) with (cos t) by (field; lra). rewrite acos_cos by lra.
  replace (sin t * cos p * r) with ((sin t * r) * cos p) by ring. replace (sin t * sin p * r) with ((sin t * r) * sin p) by ring.
  rewrite atan2_unique; [reflexivity|nra|assumption].
Qed.

(** * Great circles *)
Lemma dot_sub u v : dotp (vsub v u) (vsub v u) = dotp v v - 2 * dotp u v + dotp u u.
Proof. destruct u as [[a b] c], v as [[x y] z]. unfold dotp, vsub, vadd, vscale. ring. Qed.
Lemma great_circle c1 c2 f : dotp c1 c1 = 1 -> dotp c2 c2 = 1 -> -1 < dotp c1 c2 < 1 -> 0 <= f <= 1 ->
  let th := acos (dotp c1 c2) in
  exists k, 0 < k /\ great_circle_cart c1 c2 f =
    Some (vscale k (vadd (vscale (sin ((1 - f) * th) / sin th) c1) (vscale (sin (f * th) / sin th) c2))).
Proof.
  intros U1 U2 K F th. assert (T : 0 < th < PI) by now apply acos_bound_lt.
  assert (C : cos th = dotp c1 c2) by (apply cos_acos; lra).
  assert (N : dotp (vsub c2 c1) (vsub c2 c1) = 2 - 2 * cos th).
  { rewrite C, dot_sub, U1, U2. ring. }
  assert (Sh : 0 < sin (th / 2)) by (apply sin_gt_0; lra).
  assert (Ch : 0 < cos (th / 2)) by (apply cos_gt_0; lra).
  assert (H2 : 2 - 2 * cos th = (2 * sin (th / 2)) ^ 2).
  { replace (cos th) with (cos (2 * (th / 2))) by (f_equal; lra). rewrite cos_2a_sin. ring. }
  assert (Hs : sin th = 2 * sin (th / 2) * cos (th / 2)).
  { rewrite <- sin_2a. f_equal. lra. }
  assert (Hc : cos th = 1 - 2 * sin (th / 2) * sin (th / 2)).
  { rewrite <- cos_2a_sin. f_equal. lra. }
  unfold great_circle_cart. rewrite inner_dotp, N, H2. rewrite root_ok by nra. cbn [bind].
  rewrite sqrt_pow2 by lra. rewrite quot_ok by lra. cbn [bind]. rewrite !inner_dotp.
  rewrite arccos_ok by lra. cbn [bind]. fold th.
  assert (A : - dotp c1 (vscale (1 / (2 * sin (th / 2))) (vsub c2 c1)) = sin (th / 2)).
  { replace (dotp c1 (vscale (1 / (2 * sin (th / 2))) (vsub c2 c1))) with ((dotp c1 c2 - dotp c1 c1) / (2 * sin (th / 2))).
    - rewrite <- C, U1, Hc. field. lra.
    - destruct c1 as [[a b] c], c2 as [[x y] z]. unfold dotp, vsub, vadd, vscale. field. lra. }
  rewrite inner_dotp, A. pose proof (SIN_bound (th / 2)) as SB. rewrite arccos_ok by lra. cbn [bind].
  assert (Al : acos (sin (th / 2)) = PI / 2 - th / 2).
  { rewrite <- cos_shift. apply acos_cos. pose proof PI_RGT_0. lra. }
  rewrite Al. assert (D : sin (f * th + (PI / 2 - th / 2)) = cos (f * th - th / 2)).
  { rewrite <- (cos_shift (f * th - _) ) || idtac. replace (f * th + (PI / 2 - th / 2)) with (PI / 2 + (f * th - th / 2)) by ring. rewrite <- cos_sin. reflexivity. }
  rewrite D. assert (Pd : 0 < cos (f * th - th / 2)) by (apply cos_gt_0; nra).
  rewrite quot_ok by lra. cbn [bind]. exists (cos (th / 2) / cos (f * th - th / 2)).
  split; [now apply Rdiv_lt_0_compat|]. f_equal.
  assert (E1 : sin ((1 - f) * th) = sin th * cos (f * th) - cos th * sin (f * th)).
  { rewrite <- sin_minus. f_equal. ring. }
  assert (E2 : cos (f * th - th / 2) = cos (f * th) * cos (th / 2) + sin (f * th) * sin (th / 2)) by apply cos_minus.
  rewrite E1. pose proof (sc1 (th / 2)) as H1.
  set (sh := sin (th / 2)) in *. set (ch := cos (th / 2)) in *. set (sf := sin (f * th)) in *. set (cf := cos (f * th)) in *.
  set (dd := cos (f * th - th / 2)) in *. rewrite Hs, Hc.
  destruct c1 as [[a b] c], c2 as [[x y] z]. unfold vsub, vadd, vscale.
  assert (G : forall a x, sf / dd * (1 / (2 * sh) * (x + -1 * a)) + a =
     ch / dd * ((2 * sh * ch * cf - (1 - 2 * sh * sh) * sf) / (2 * sh * ch) * a + sf / (2 * sh * ch) * x)).
  { intros a' x'. field_simplify_eq; [|lra]. rewrite E2. nz. }
  rewrite !G. reflexivity.
Qed.

(** * Bases *)
Lemma basis_cycle u v w : Basis u v w -> Basis v w u.
Proof.
  intros (U & V & W & UV & UW & VW & X). destruct u as [[u1 u2] u3], v as [[v1 v2] v3], w as [[w1 w2] w3]. unfold Basis, unit, dotp, cross in *.
  apply pair_equal_spec in X as [X X3]. apply pair_equal_spec in X as [X1 X2]. subst w1 w2 w3.
  repeat split; try nsatz. apply pair_equal_spec; split; [apply pair_equal_spec; split|]; nsatz.
Qed.
Lemma basis_turn u v w s c : s * s + c * c = 1 -> Basis u v w -> Basis (vadd (vscale c u) (vscale (- s) v)) (vadd (vscale s u) (vscale c v)) w.
Proof.
  intros E (U & V & W & UV & UW & VW & X). destruct u as [[u1 u2] u3], v as [[v1 v2] v3], w as [[w1 w2] w3].
  unfold Basis, unit, vadd, vscale, dotp, cross in *.
  apply pair_equal_spec in X as [X X3]. apply pair_equal_spec in X as [X1 X2].
  repeat split; try nsatz. apply pair_equal_spec; split; [apply pair_equal_spec; split|]; nsatz.
Qed.

(** * Broadcasting *)
Open Scope nat_scope.
Lemma fits_rev_trans : forall a b c, FitsRev a b -> FitsRev b c -> FitsRev a c.
Proof.
  induction a as [|x a IH]; intros [|y b] [|z c]; cbn [FitsRev]; try tauto. intros [E F] [G H]. split; [|eauto].
  destruct E, G; subst; auto.
Qed.
Lemma fits_rev_refl : forall a, FitsRev a a.
Proof. induction a; cbn [FitsRev]; auto. Qed.
Lemma fits_rev_antisym : forall a b, FitsRev a b -> FitsRev b a -> a = b.
Proof.
  induction a as [|x a IH]; intros [|y b]; cbn [FitsRev]; try tauto. intros [E F] [G H]. f_equal; [|auto]. destruct E, G; subst; auto.
Qed.
Lemma bcast_rev_sound : forall a b r, bcast_rev a b = Some r -> FitsRev a r /\ FitsRev b r.
Proof.
  induction a as [|x a IH]; intros [|y b] r; cbn [bcast_rev]; intros H; try (injection H as <-; split; [exact I || apply fits_rev_refl|apply fits_rev_refl || exact I]).
  destruct (bcast_rev a b) as [r'|] eqn:E; [|discriminate]. destruct (IH _ _ E) as [A B].
  destruct (x =? y) eqn:X; [apply Nat.eqb_eq in X; subst; injection H as <-; cbn; auto|].
  destruct (x =? 1) eqn:Y; [apply Nat.eqb_eq in Y; subst; injection H as <-; cbn; auto|].
  destruct (y =? 1) eqn:Z; [apply Nat.eqb_eq in Z; subst; injection H as <-; cbn; auto|discriminate].
Qed.
Lemma bcast_rev_least : forall a b s, FitsRev a s -> FitsRev b s -> exists r, bcast_rev a b = Some r /\ FitsRev r s.
Proof.
  induction a as [|x a IH]; intros [|y b] [|z s]; cbn [FitsRev bcast_rev]; try tauto; intros A B; try (eexists; split; [reflexivity|]; cbn [FitsRev]; tauto).
  destruct A as [A1 A2], B as [B1 B2]. destruct (IH b s A2 B2) as (r & -> & F).
  destruct (x =? y) eqn:X; [eexists; split; [reflexivity|]; cbn; auto|].
  destruct (x =? 1) eqn:Y; [eexists; split; [reflexivity|]; cbn; auto|].
  destruct (y =? 1) eqn:Z; [eexists; split; [reflexivity|]; cbn; auto|].
  apply Nat.eqb_neq in X, Y, Z. exfalso. destruct A1, B1; congruence.
Qed.
Lemma bcast_sound a b r : bcast a b = Some r -> Fits a r /\ Fits b r.
Proof.
  unfold bcast, Fits. destruct (bcast_rev _ _) as [q|] eqn:E; [|discriminate]. cbn. intros H. injection H as <-. rewrite rev_involutive. now apply bcast_rev_sound.
Qed.
Lemma bcast_least a b s : Fits a s -> Fits b s -> exists r, bcast a b = Some r /\ Fits r s.
Proof.
  unfold bcast, Fits. intros A B. destruct (bcast_rev_least _ _ _ A B) as (r & -> & F). cbn. exists (rev r). rewrite rev_involutive. auto.
Qed.
Lemma fits_trans a b c : Fits a b -> Fits b c -> Fits a c.
Proof. apply fits_rev_trans. Qed.
Lemma fits_refl a : Fits a a.
Proof. apply fits_rev_refl. Qed.
Lemma fits_antisym a b : Fits a b -> Fits b a -> a = b.
Proof. intros A B. rewrite <- (rev_involutive a), <- (rev_involutive b). f_equal. now apply fits_rev_antisym. Qed.
Lemma fits_nil a : Fits [] a.
Proof. exact I. Qed.
Lemma bcast_all_joint : forall l s, bcast_all l = Some s <-> Joint l s.
Proof.
  assert (S : forall l s, bcast_all l = Some s -> Joint l s).
  { induction l as [|a l IH]; intros s; cbn [bcast_all]; [intros H; injection H as <-; split; [constructor|intros; apply fits_nil]|].
    destruct (bcast_all l) as [t|] eqn:E; cbn [bind]; [|discriminate]. intros H. destruct (IH t eq_refl) as [A B]. destruct (bcast_sound _ _ _ H) as [C D]. split.
    - constructor; [assumption|]. eapply Forall_impl; [|exact A]. intros x Hx. exact (fits_trans _ _ _ Hx D).
    - intros r F. inversion F as [|? ? F1 F2]; subst. destruct (bcast_least _ _ _ F1 (B _ F2)) as (q & Q & G). congruence. }
  assert (L : forall l s, Forall (fun a => Fits a s) l -> exists r, bcast_all l = Some r /\ Fits r s).
  { induction l as [|a l IH]; intros s H; cbn [bcast_all]; [exists []; split; [reflexivity|apply fits_nil]|].
    inversion H as [|? ? F1 F2]; subst. destruct (IH s F2) as (r & -> & G). cbn [bind]. now apply bcast_least. }
  intros l s. split; [apply S|]. intros [A B]. destruct (L _ _ A) as (r & E & F). rewrite E. f_equal. apply fits_antisym; [assumption|]. apply B. apply (S _ _ E).
Qed.
Lemma joint_some l s : Forall (fun a => Fits a s) l -> exists r, bcast_all l = Some r /\ Joint l r /\ Fits r s.
Proof.
  intros H. assert (L : forall l, Forall (fun a => Fits a s) l -> exists r, bcast_all l = Some r).
  { clear. induction l as [|a l IH]; intros H; cbn [bcast_all]; [eauto|]. inversion H as [|? ? F1 F2]; subst. destruct (IH F2) as (r & E). rewrite E. cbn [bind].
    apply bcast_all_joint in E as [A B]. destruct (bcast_least _ _ _ F1 (B _ F2)) as (q & Q & _). eauto. }
  destruct (L l H) as (r & E). exists r. split; [assumption|]. apply bcast_all_joint in E. split; [assumption|]. now apply E.
Qed.
Lemma iadd_cases a b r : iadd a b = Ok r -> Fits a r /\ Fits b r /\ (forall s, Fits a s -> Fits b s -> Fits r s).
Proof.
  unfold iadd. destruct (bcast a b) as [q|] eqn:E; [|discriminate]. intros H. assert (r = q).
  { destruct a; [congruence|]. destruct (list_eq_dec Nat.eq_dec q (n :: a)); congruence. } subst q.
  destruct (bcast_sound _ _ _ E). split; [assumption|]. split; [assumption|]. intros s A B. destruct (bcast_least _ _ _ A B) as (q & Q & F). congruence.
Qed.
Lemma iadd_left a b : Fits b a -> iadd a b = Ok a.
Proof.
  intros F. unfold iadd. destruct (bcast_least a b a (fits_refl a) F) as (r & E & G). rewrite E. destruct (bcast_sound _ _ _ E) as [H _].
  assert (r = a) by now apply fits_antisym. subst r. destruct a; [reflexivity|]. destruct (list_eq_dec _ _ _); congruence.
Qed.
