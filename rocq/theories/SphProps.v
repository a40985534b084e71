(** C76 and C113 to C118: coordinates on the sphere. *)
From Coq Require Import List Bool Arith Reals ZArith Lra Lia Permutation Nsatz.
From Verif Require Import PyBase RedSpec ArrModel ArrSpec ArrProofs SolveModel SolveProofs SphModel SphSpec SphProofs NormProofs.
Import ListNotations.
Open Scope R_scope.

(** * C76 *)
Theorem C76_unit ha lat dec : unit (sph_to_ground ha lat dec).
Proof. apply ground_unit. Qed.
Print Assumptions C76_unit.
Theorem C76_projected ha lat dec x y z : projected_distance ha lat dec x y z = dotp (x, y, z) (sph_to_ground ha lat dec).
Proof. unfold projected_distance, dotp, sph_to_ground. ring. Qed.
Print Assumptions C76_projected.
(** At the zenith it is the height, towards the pole (from latitude [lat]) a combination of north and up. *)
Example C76_ex_zenith lat x y z : projected_distance 0 lat lat x y z = z.
Proof. unfold projected_distance. rewrite sin_0, cos_0. pose proof (sc1 lat). nsatz. Qed.
Example C76_ex_pole : sph_to_ground (PI / 3) 0 (PI / 2) = (0, 1, 0).
Proof. unfold sph_to_ground. rewrite sin_0, cos_0, cos_PI2, sin_PI2. f_equal; [f_equal|]; ring. Qed.

(** A baseline changed along with the basis: all products are kept. *)
Theorem C76_rotate rot u v w u' v' w' :
  let '(a, b, c) := rotate_ypr rot u v w in
  let '(a', b', c') := rotate_ypr rot u' v' w' in
  dotp a a' + dotp b b' + dotp c c' = dotp u u' + dotp v v' + dotp w w'.
Proof.
  destruct rot as [[yaw pitch] roll]. cbn [rotate_ypr].
  destruct u as [[u1 u2] u3], v as [[v1 v2] v3], w as [[w1 w2] w3], u' as [[p1 p2] p3], v' as [[q1 q2] q3], w' as [[r1 r2] r3].
  unfold vsub, vadd, vscale, dotp. pose proof (sc1 yaw) as A. pose proof (sc1 pitch) as B. pose proof (sc1 roll) as C.
  revert A B C. generalize (sin yaw) (cos yaw) (sin pitch) (cos pitch) (sin roll) (cos roll). intros sy cy sp cp sr cr A B C.
  assert (A' : cy * cy = 1 - sy * sy) by lra. assert (B' : cp * cp = 1 - sp * sp) by lra. assert (C' : cr * cr = 1 - sr * sr) by lra.
  clear A B C. ring_simplify. ring [A' B' C'].
Qed.
Print Assumptions C76_rotate.
Theorem C76_basis rot u v w : Basis u v w -> let '(a, b, c) := rotate_ypr rot u v w in Basis a b c.
Proof.
  intros H. destruct rot as [[yaw pitch] roll]. cbn [rotate_ypr].
  assert (Ng : forall a k u v, vsub (vscale a u) (vscale k v) = vadd (vscale a u) (vscale (- k) v)).
  { intros a k [[? ?] ?] [[? ?] ?]. unfold vsub, vadd, vscale. f_equal; [f_equal|]; ring. }
  assert (Cm : forall u v, vadd u v = vadd v u). { intros [[? ?] ?] [[? ?] ?]. unfold vadd. f_equal; [f_equal|]; ring. }
  assert (H1 := basis_turn _ _ _ _ _ (sc1 yaw) H). rewrite <- Ng in H1.
  set (x1 := vsub _ _) in *. set (y1 := vadd _ _) in *.
  assert (H2 := basis_turn _ _ _ (- sin pitch) (cos pitch) ltac:(pose proof (sc1 pitch); lra) (basis_cycle _ _ _ H1)). rewrite Ropp_involutive in H2.
  set (y2 := vadd _ _) in *. set (z2 := vadd (vscale (- sin pitch) y1) _) in *.
  assert (H3 := basis_turn _ _ _ (- sin roll) (cos roll) ltac:(pose proof (sc1 roll); lra) (basis_cycle _ _ _ H2)). rewrite Ropp_involutive in H3.
  apply basis_cycle. rewrite Ng. rewrite (Cm (vscale (cos roll) x1)), (Cm (vscale (sin roll) x1)). apply basis_cycle, basis_cycle. apply basis_cycle in H3. exact H3.
Qed.
Print Assumptions C76_basis.
(** About which axes: yaw turns about the third vector, pitch about the first, roll about the second. *)
Theorem C76_axes a u v w :
  rotate_ypr (a, 0, 0) u v w = (vsub (vscale (cos a) u) (vscale (sin a) v), vadd (vscale (sin a) u) (vscale (cos a) v), w) /\
  rotate_ypr (0, a, 0) u v w = (u, vadd (vscale (cos a) v) (vscale (sin a) w), vsub (vscale (cos a) w) (vscale (sin a) v)) /\
  rotate_ypr (0, 0, a) u v w = (vsub (vscale (cos a) u) (vscale (sin a) w), v, vadd (vscale (sin a) u) (vscale (cos a) w)).
Proof.
  cbn [rotate_ypr]. rewrite sin_0, cos_0. destruct u as [[u1 u2] u3], v as [[v1 v2] v3], w as [[w1 w2] w3]. unfold vsub, vadd, vscale.
  repeat split; repeat (apply pair_equal_spec; split); ring.
Qed.
Print Assumptions C76_axes.
(** A quarter turn of pitch brings [y] to [z]. *)
Example C76_ex_pitch : rotate_ypr (0, PI / 2, 0) (1, 0, 0) (0, 1, 0) (0, 0, 1) = ((1, 0, 0), (0, 0, 1), (0, -1, 0)).
Proof. cbn [rotate_ypr]. rewrite sin_0, cos_0, sin_PI2, cos_PI2. unfold vsub, vadd, vscale. repeat (apply pair_equal_spec; split); ring. Qed.

(** Whenever there is a result, it has the shape of all the arguments together; there is one if the first term has that shape .. *)
Theorem C76_shape ha lat dec x y z : 
  (forall r, projected_shape ha lat dec x y z = Ok r -> Joint [ha; lat; dec; x; y; z] r) /\
  (forall s, Joint [ha; lat; dec; x; y; z] s -> Joint [x; dec; ha] s -> projected_shape ha lat dec x y z = Ok s).
Proof.
  unfold projected_shape. split.
  - intros r. destruct (bcast_all [x; dec; ha]) as [d|] eqn:A; cbn [of_bcast rbind]; [|discriminate].
    destruct (bcast_all [y; lat; dec; ha]) as [t|] eqn:B; cbn [of_bcast rbind]; [|discriminate].
    destruct (iadd d t) as [q|ex] eqn:C; cbn [rbind]; [|discriminate].
    destruct (bcast_all [z; lat; dec; ha]) as [t'|] eqn:D; cbn [of_bcast rbind]; [|discriminate]. intros E.
    apply bcast_all_joint in A as [A1 A2]. apply bcast_all_joint in B as [B1 B2]. apply bcast_all_joint in D as [D1 D2].
    apply iadd_cases in C as (C1 & C2 & C3). apply iadd_cases in E as (E1 & E2 & E3).
    rewrite !Forall_cons_iff in A1. rewrite !Forall_cons_iff in B1. rewrite !Forall_cons_iff in D1. destruct A1 as (a1 & a2 & a3 & _), B1 as (b1 & b2 & b3 & b4 & _), D1 as (d1 & d2 & d3 & d4 & _).
    assert (G : Fits d r) by (eapply fits_trans; eassumption). assert (H : Fits t r) by (eapply fits_trans; eassumption).
    split; [repeat constructor; eapply fits_trans; eassumption|].
    intros s F. rewrite !Forall_cons_iff in F. destruct F as (f1 & f2 & f3 & f4 & f5 & f6 & _).
    apply E3; [apply C3; [apply A2|apply B2]|apply D2]; repeat constructor; assumption.
  - intros s [S1 S2] X. rewrite !Forall_cons_iff in S1. destruct S1 as (f1 & f2 & f3 & f4 & f5 & f6 & _).
    apply bcast_all_joint in X. rewrite X. cbn [of_bcast rbind].
    destruct (joint_some [y; lat; dec; ha] s) as (t & -> & _ & T); [repeat constructor; assumption|]. cbn [of_bcast rbind]. rewrite (iadd_left s t T). cbn [rbind].
    destruct (joint_some [z; lat; dec; ha] s) as (t' & -> & _ & T'); [repeat constructor; assumption|]. cbn [of_bcast rbind]. now apply iadd_left.
Qed.
Print Assumptions C76_shape.
(** .. but not always: a line of baselines in [x] for many [y]. *)
Theorem C76_shape_refuted : exists ha lat dec x y z s, Joint [ha; lat; dec; x; y; z] s /\ forall r, projected_shape ha lat dec x y z <> Ok r.
Proof.
  exists [], [], [], (3%nat :: nil), [4%nat; 1%nat], [], [4%nat; 3%nat]. split; [apply bcast_all_joint; reflexivity|]. intros r H. vm_compute in H. discriminate.
Qed.
Print Assumptions C76_shape_refuted.
(** Without a result: ValueError. *)
Theorem C76_shape_error ha lat dec x y z : (forall r, projected_shape ha lat dec x y z <> Ok r) -> projected_shape ha lat dec x y z = Err ValueError.
Proof.
  assert (B : forall o, (exists s, of_bcast o = Ok s) \/ of_bcast o = Err ValueError) by (intros [s|]; cbn; eauto).
  assert (I : forall a b, (exists s, iadd a b = Ok s) \/ iadd a b = Err ValueError).
  { intros a b. unfold iadd. destruct (bcast a b) as [r|]; [|now right]. destruct a as [|n a]; [left; eauto|].
    destruct (list_eq_dec Nat.eq_dec r (n :: a)); [left; eauto|now right]. }
  unfold projected_shape.
  destruct (B (bcast_all [x; dec; ha])) as [[d ->]| ->]; cbn [rbind]; [|reflexivity].
  destruct (B (bcast_all [y; lat; dec; ha])) as [[t ->]| ->]; cbn [rbind]; [|reflexivity].
  destruct (I d t) as [[q ->]| ->]; cbn [rbind]; [|reflexivity].
  destruct (B (bcast_all [z; lat; dec; ha])) as [[u ->]| ->]; cbn [rbind]; [|reflexivity].
  destruct (I q u) as [[v ->]| ->]; [|reflexivity]. intros H. now destruct (H v).
Qed.
Print Assumptions C76_shape_error.
Example C76_ex_shape : (projected_shape [5; 1] [] [] (3 :: nil) [] [] = Ok [5; 3])%nat.
Proof. reflexivity. Qed.

(** * C113 *)
(** From the ground to the sphere and back. *)
Theorem C113_direction x y lat ha dec : ground_to_sph x y lat = Some (ha, dec) ->
  sph_to_ground ha lat dec = (x, y, sqrt (1 - x ^ 2 - y ^ 2)) /\ - PI <= ha < PI /\ - PI / 2 <= dec <= PI / 2.
Proof. intros H. apply ground_round in H. tauto. Qed.
Print Assumptions C113_direction.
(** Exactly for points of the unit disc there is a result. *)
Theorem C113_domain x y lat : (exists s, ground_to_sph x y lat = Some s) <-> x ^ 2 + y ^ 2 <= 1.
Proof.
  split; [intros [[ha dec] H]; apply ground_round in H; tauto|]. intros H. unfold ground_to_sph. rewrite root_ok by lra. cbn [bind].
  rewrite root_ok; [cbn [bind]; eauto|]. apply Rplus_le_le_0_compat; apply pow2_ge_0.
Qed.
Print Assumptions C113_domain.
(** From the sphere to the ground and back, above the horizon. *)
Theorem C113_inverse_partial ha lat dec x y z : sph_to_ground ha lat dec = (x, y, z) -> 0 <= z -> - PI <= ha < PI -> - (PI / 2) < dec < PI / 2 ->
  ground_to_sph x y lat = Some (ha, dec).
Proof. apply ground_inverse. Qed.
Print Assumptions C113_inverse_partial.
(** Never below it. *)
Theorem C113_below ha lat dec x y z : sph_to_ground ha lat dec = (x, y, z) -> z < 0 -> ground_to_sph x y lat <> Some (ha, dec).
Proof.
  intros E Z H. apply ground_round in H as (_ & _ & _ & H). rewrite E in H. apply pair_equal_spec in H as [_ H].
  pose proof (sqrt_pos (1 - x ^ 2 - y ^ 2)). lra.
Qed.
Print Assumptions C113_below.
(** Seen from the pole, a quarter of a right angle below. *)
Theorem C113_inverse_refuted : exists ha lat dec x y z, - PI <= ha < PI /\ - (PI / 2) < dec < PI / 2 /\ sph_to_ground ha lat dec = (x, y, z) /\
  ground_to_sph x y lat <> Some (ha, dec).
Proof.
  pose proof PI_RGT_0. destruct (sph_to_ground 0 (PI / 2) (- (PI / 4))) as [[x y] z] eqn:E. exists 0, (PI / 2), (- (PI / 4)), x, y, z.
  split; [lra|]. split; [lra|]. split; [assumption|]. apply (C113_below _ _ _ _ _ z E).
  unfold sph_to_ground in E. apply pair_equal_spec in E as [_ E]. rewrite sin_PI2, cos_PI2, sin_neg in E.
  pose proof (sin_gt_0 (PI / 4) ltac:(lra) ltac:(lra)). lra.
Qed.
Print Assumptions C113_inverse_refuted.
(** The zenith has the latitude as its declination. *)
Example C113_ex lat : - (PI / 2) < lat < PI / 2 -> ground_to_sph 0 0 lat = Some (0, lat).
Proof.
  intros H. pose proof PI_RGT_0. apply (C113_inverse_partial _ _ _ _ _ 1); try lra. unfold sph_to_ground. rewrite sin_0, cos_0. pose proof (sc1 lat).
  repeat (apply pair_equal_spec; split); [ring|ring|lra].
Qed.

(** * C114 *)
Theorem C114_to_cart r t p : sph_to_cart3 (r, t, p) = times r (polar t p) /\ sph_to_cart2 (t, p) = polar t p /\ unit (sph_to_cart2 (t, p)).
Proof.
  split; [unfold sph_to_cart3, s2c, times, polar; repeat (apply pair_equal_spec; split); ring|]. split; [reflexivity|]. apply polar_unit.
Qed.
Print Assumptions C114_to_cart.
(** Every vector but zero has coordinates in the usual ranges, and they lead back to it. *)
Theorem C114_round c : c <> zero -> exists r t p, cart_to_sph c = Some (r, t, p) /\ r = len c /\ 0 <= t <= PI /\ - PI < p <= PI /\ sph_to_cart3 (r, t, p) = c.
Proof.
  intros N. destruct c as [[x y] z]. assert (P : 0 < x ^ 2 + y ^ 2 + z ^ 2).
  { destruct (Rlt_dec 0 (x ^ 2 + y ^ 2 + z ^ 2)); [assumption|]. exfalso. apply N. apply dot_zero. unfold dotp. nra. }
  destruct (cart_sph_ok x y z P) as (E & _). exists (sqrt (x ^ 2 + y ^ 2 + z ^ 2)), (acos (z / sqrt (x ^ 2 + y ^ 2 + z ^ 2))), (atan2 y x).
  split; [assumption|]. apply sph_cart in E as (A & B & C & D & F). auto.
Qed.
Print Assumptions C114_round.
Theorem C114_inverse r t p : 0 < r -> 0 < t < PI -> - PI < p <= PI -> cart_to_sph (sph_to_cart3 (r, t, p)) = Some (r, t, p).
Proof. apply cart_sph_inverse. Qed.
Print Assumptions C114_inverse.
(** The zero vector has none. *)
Theorem C114_zero_refuted : exists c, cart_to_sph c = None.
Proof.
  exists zero. unfold cart_to_sph, zero. replace (0 ^ 2 + 0 ^ 2 + 0 ^ 2) with 0 by ring. rewrite root_ok by lra. cbn [bind]. rewrite sqrt_0. now rewrite quot_nan.
Qed.
Print Assumptions C114_zero_refuted.
(** In an array of integers the angles are integers. *)
Lemma int_part_is x k : IZR k <= x < IZR k + 1 -> Int_part x = k.
Proof.
  intros [A B]. unfold Int_part. assert (E : (k + 1)%Z = up x) by (apply tech_up; rewrite plus_IZR; lra). lia.
Qed.
Lemma int_example : cart_to_sph_int (2, 1, 1)%Z = Some (2, 1, 0)%Z.
Proof.
  pose proof PI2_3_2 as P1. pose proof PI_4 as P2.
  assert (T : forall x k, 0 <= x -> IZR k <= x < IZR k + 1 -> trunc x = k).
  { intros x k Px B. unfold trunc. apply rleb_true in Px. rewrite Px. now apply int_part_is. }
  unfold cart_to_sph_int. change (2 ^ 2 + 1 ^ 2 + 1 ^ 2)%Z with 6%Z. rewrite root_ok by lra. cbn [bind].
  assert (S6 : 2 <= sqrt 6 < 3).
  { pose proof (sqrt_sqrt 6 ltac:(lra)). pose proof (sqrt_pos 6). nra. }
  rewrite (T (sqrt 6) 2%Z) by lra. rewrite quot_ok by lra. cbn [bind]. rewrite arccos_ok by lra. cbn [bind].
  rewrite <- cos_PI3. rewrite acos_cos by lra. rewrite (T (PI / 3) 1%Z) by lra.
  assert (A : atan2 1 2 = atan (1 / 2)). { unfold atan2. replace (rltb 0 2) with true; [reflexivity|]. symmetry. apply rltb_true. lra. }
  rewrite A. assert (B : 0 < atan (1 / 2) < 1).
  { split; [rewrite <- atan_0; apply atan_increasing; lra|]. apply Rlt_le_trans with (atan 1); [apply atan_increasing; lra|]. rewrite atan_1. lra. }
  rewrite (T _ 0%Z) by lra. reflexivity.
Qed.
Theorem C114_integers_refuted : exists x y z r t p, cart_to_sph_int (x, y, z) = Some (r, t, p) /\ sph_to_cart3 (IZR r, IZR t, IZR p) <> (IZR x, IZR y, IZR z).
Proof.
  exists 2%Z, 1%Z, 1%Z, 2%Z, 1%Z, 0%Z. split; [apply int_example|]. unfold sph_to_cart3, s2c. rewrite sin_0. intros H.
  apply pair_equal_spec in H as [H _]. apply pair_equal_spec in H as [_ H]. lra.
Qed.
Print Assumptions C114_integers_refuted.
Example C114_ex : cart_to_sph (0, 2, 0) = Some (2, PI / 2, PI / 2).
Proof.
  pose proof PI_RGT_0. rewrite <- (C114_inverse 2 (PI / 2) (PI / 2)) by lra. f_equal. unfold sph_to_cart3, s2c. rewrite sin_PI2, cos_PI2. repeat (apply pair_equal_spec; split); ring.
Qed.

(** * C115 *)
Lemma direction_len a b : len (direction a b) = 1.
Proof. unfold len. rewrite direction_unit. apply sqrt_1. Qed.
Theorem C115_angle a b c d : exists x, sphdist a b c d = Some x /\ Angle (direction a b) (direction c d) x.
Proof.
  destruct (sphdist_angle a b c d) as (x & E & R & C). exists x. split; [assumption|]. split; [assumption|]. rewrite !direction_len, C. ring.
Qed.
Print Assumptions C115_angle.
Lemma dotp_sym u v : dotp u v = dotp v u.
Proof. destruct u as [[? ?] ?], v as [[? ?] ?]. unfold dotp. ring. Qed.
Theorem C115_symmetric a b c d : sphdist a b c d = sphdist c d a b.
Proof.
  destruct (sphdist_angle a b c d) as (x & -> & R & C). destruct (sphdist_angle c d a b) as (y & -> & R' & C'). f_equal.
  rewrite <- (acos_cos x R), <- (acos_cos y R'). f_equal. rewrite C, C'. apply dotp_sym.
Qed.
Print Assumptions C115_symmetric.
Lemma unit_eq u v : dotp u u = 1 -> dotp v v = 1 -> dotp u v = 1 -> u = v.
Proof.
  intros U V W. assert (Z := dot_sub u v). rewrite U, V, W in Z. assert (E : dotp (vsub v u) (vsub v u) = 0) by lra. apply dot_zero in E.
  destruct u as [[a b] c], v as [[x y] z]. unfold vsub, vadd, vscale in E. apply pair_equal_spec in E as [E E3]. apply pair_equal_spec in E as [E1 E2].
  repeat (apply pair_equal_spec; split); lra.
Qed.
Theorem C115_zero a b c d : sphdist a b c d = Some 0 <-> direction a b = direction c d.
Proof.
  destruct (sphdist_angle a b c d) as (x & -> & R & C). split.
  - intros H. assert (x = 0) by congruence. subst x. rewrite cos_0 in C. apply unit_eq; auto using direction_unit.
  - intros H. rewrite H, direction_unit in C. f_equal. rewrite <- (acos_cos x R), C. apply acos_1.
Qed.
Print Assumptions C115_zero.
(** Along a meridian it is the difference of the latitudes. *)
Example C115_ex : sphdist 1 (PI / 6) 1 (- PI / 6) = Some (PI / 3).
Proof.
  destruct (sphdist_angle 1 (PI / 6) 1 (- PI / 6)) as (x & -> & R & C). f_equal. pose proof PI_RGT_0.
  rewrite <- (acos_cos x R), <- (acos_cos (PI / 3)) by lra. f_equal. rewrite C. unfold dotp, direction. replace (- PI / 6) with (- (PI / 6)) by lra.
  rewrite sin_neg, cos_neg. replace (PI / 3) with (2 * (PI / 6)) by lra. rewrite cos_2a. pose proof (sc1 1). nsatz.
Qed.

(** * C116 *)
Lemma anti u v : dotp u u = 1 -> dotp v v = 1 -> dotp u v = -1 <-> v = neg u.
Proof.
  intros U V. split.
  - intros W. symmetry. apply unit_eq; auto; destruct u as [[a b] c], v as [[x y] z]; unfold dotp, neg in *; lra.
  - intros ->. destruct u as [[a b] c]. unfold dotp, neg in *. lra.
Qed.
Lemma linspace_unit n : Forall (fun f => 0 <= f <= 1) (linspace 0 1 n) /\ length (linspace 0 1 n) = n.
Proof.
  destruct n as [|[|m]]; [split; [constructor|reflexivity]|split; [repeat constructor; lra|reflexivity]|].
  rewrite linspace_eq by lia. split; [|rewrite map_length, seq_length; reflexivity].
  apply Forall_forall. intros f H. apply in_map_iff in H as (i & <- & I). apply in_seq in I. unfold gpoint.
  assert (0 < INR (S m)) by (apply lt_0_INR; lia). assert (INR i <= INR (S m)) by (apply le_INR; lia). pose proof (pos_INR i).
  replace (0 + INR i * ((1 - 0) / INR (S m))) with (INR i / INR (S m)) by (field; lra). split; [apply Rmult_le_pos; [assumption|]; left; now apply Rinv_0_lt_compat|].
  apply Rmult_le_reg_r with (INR (S m)); [assumption|]. replace (INR i / INR (S m) * INR (S m)) with (INR i) by (field; lra). lra.
Qed.
Lemma dot_scale k u v : dotp u (vscale k v) = k * dotp u v.
Proof. destruct u as [[? ?] ?], v as [[? ?] ?]. unfold dotp, vscale. ring. Qed.
Lemma dot_add a b c : dotp c (vadd a b) = dotp c a + dotp c b.
Proof. destruct a as [[? ?] ?], b as [[? ?] ?], c as [[? ?] ?]. unfold dotp, vadd. ring. Qed.
Lemma circle_point u v f : dotp u u = 1 -> dotp v v = 1 -> -1 < dotp u v < 1 -> 0 <= f <= 1 ->
  exists s, bind (great_circle_cart u v f) (fun cv => bind (cart_to_sph cv) (fun s => Some (snd (fst s), snd s))) = Some s /\ Between u v (acos (dotp u v)) f s.
Proof.
  intros U V D F. destruct (great_circle u v f U V D F) as (k & K & E). rewrite E. cbn [bind].
  set (th := acos (dotp u v)) in *.
  assert (T : 0 < th < PI) by (apply acos_bound_lt; lra). assert (C : cos th = dotp u v) by (apply cos_acos; lra).
  assert (S0 : 0 < sin th) by (apply sin_gt_0; lra).
  assert (Sm : sin ((1 - f) * th) = sin th * cos (f * th) - cos th * sin (f * th)) by (rewrite <- sin_minus; f_equal; ring).
  assert (Cm : cos ((1 - f) * th) = cos th * cos (f * th) + sin th * sin (f * th)) by (rewrite <- cos_minus; f_equal; ring).
  set (s := vadd _ _).
  assert (Us : dotp u s = cos (f * th)). { unfold s. rewrite dot_add, !dot_scale, U, Sm, <- C. field. lra. }
  assert (Vs : dotp v s = cos ((1 - f) * th)).
  { unfold s. rewrite dot_add, !dot_scale, V, (dotp_sym v u), Sm, Cm, <- C. pose proof (sc1 th) as Q.
    apply Rmult_eq_reg_l with (sin th); [|lra]. field_simplify; [|lra]. nz. }
  assert (Ss : dotp s s = 1).
  { assert (dotp s s = sin ((1 - f) * th) / sin th * dotp s u + sin (f * th) / sin th * dotp s v) as -> by (unfold s at 2; now rewrite dot_add, !dot_scale).
    rewrite (dotp_sym s u), (dotp_sym s v), Us, Vs. apply Rmult_eq_reg_l with (sin th); [|lra].
    replace (sin th * (sin ((1 - f) * th) / sin th * cos (f * th) + sin (f * th) / sin th * cos ((1 - f) * th))) with (sin ((1 - f) * th) * cos (f * th) + cos ((1 - f) * th) * sin (f * th)) by (field; lra).
    rewrite <- sin_plus. rewrite Rmult_1_r. f_equal. ring. }
  assert (Nz : vscale k s <> zero).
  { intros Z. assert (Q : dotp s (vscale k s) = k) by (rewrite dot_scale, Ss; ring). rewrite Z in Q. destruct s as [[? ?] ?]. unfold dotp, zero in Q. lra. }
  destruct (C114_round _ Nz) as (r & t & p & E' & L & _ & _ & B). rewrite E'. cbn [bind fst snd]. exists (t, p). split; [reflexivity|].
  assert (Rk : r = k). { rewrite L. unfold len. rewrite dot_scale, (dotp_sym _ s), dot_scale, Ss. replace (k * (k * 1)) with (k * k) by ring. rewrite sqrt_square; lra. } rewrite Rk in B.
  assert (P : polar t p = s).
  { clear - B K. clearbody s. destruct s as [[s1 s2] s3]. unfold sph_to_cart3, s2c, vscale in B. apply pair_equal_spec in B as [B B3]. apply pair_equal_spec in B as [B1 B2].
    unfold polar. repeat (apply pair_equal_spec; split); apply Rmult_eq_reg_l with k; lra. }
  unfold Between. cbn [fst snd]. rewrite P. unfold Angle, len. rewrite U, V, Ss, sqrt_1, Us, (dotp_sym s v), Vs.
  pose proof PI_RGT_0. split; (split; [split; nra|ring]).
Qed.
(** All points are on the great circle, equally spaced from the first one to the last one. *)
Theorem C116_points s1 s2 n th : let u := polar (fst s1) (snd s1) in let v := polar (fst s2) (snd s2) in
  u <> v -> v <> neg u -> Angle u v th ->
  exists l, great_circle_points s1 s2 n = Ok l /\ length l = n /\
    forall i, (i < n)%nat -> exists s, nth_error l i = Some (Some s) /\ Between u v th (if Nat.eqb n 1 then 0 else INR i / INR (n - 1)) s.
Proof.
  intros u v N1 N2 A. assert (U : dotp u u = 1) by apply polar_unit. assert (V : dotp v v = 1) by apply polar_unit.
  assert (D : -1 < dotp u v < 1).
  { pose proof (unit_dot u v U V) as B. split; apply Rnot_le_lt; intros H; [apply N2; apply (anti u v U V); lra|apply N1; apply (unit_eq u v U V); lra]. }
  assert (th = acos (dotp u v)). { destruct A as [R E]. unfold len in E. rewrite U, V, sqrt_1 in E. rewrite E, !Rmult_1_l. symmetry. now apply acos_cos. } subst th.
  unfold great_circle_points. fold u v. change (sph_to_cart2 s1) with u. change (sph_to_cart2 s2) with v.
  destruct (req (inner (vsub v u) (vsub v u)) 4) eqn:E.
  { apply req_true in E. rewrite inner_dotp, dot_sub in E. lra. }
  eexists. split; [reflexivity|]. destruct (linspace_unit n) as [F L]. split; [now rewrite map_length|].
  intros i I. assert (X : exists f, nth_error (linspace 0 1 n) i = Some f /\ f = (if Nat.eqb n 1 then 0 else INR i / INR (n - 1))).
  { destruct n as [|[|m]]; [lia|exists 0; replace i with 0%nat by lia; auto|]. rewrite linspace_eq by lia. exists (gpoint 0 1 (S m) i). split.
    - rewrite nth_error_map. rewrite (nth_error_nth' _ 0%nat) by (rewrite seq_length; lia). rewrite seq_nth by lia. reflexivity.
    - cbn [Nat.eqb]. replace (S (S m) - 1)%nat with (S m) by lia. unfold gpoint. field. apply not_0_INR. lia. }
  destruct X as (f & X & <-). assert (Ff : 0 <= f <= 1) by (rewrite Forall_forall in F; apply F; eapply nth_error_In; eassumption).
  destruct (circle_point u v f U V D Ff) as (s & Es & B). exists s. split; [|assumption]. rewrite nth_error_map, X. cbn [option_map]. now rewrite Es.
Qed.
Print Assumptions C116_points.
Theorem C116_antipodal s1 s2 n : great_circle_points s1 s2 n = Err OtherException <-> polar (fst s2) (snd s2) = neg (polar (fst s1) (snd s1)).
Proof.
  unfold great_circle_points. change (sph_to_cart2 s1) with (polar (fst s1) (snd s1)). change (sph_to_cart2 s2) with (polar (fst s2) (snd s2)).
  assert (U := polar_unit (fst s1) (snd s1)). assert (V := polar_unit (fst s2) (snd s2)).
  change (s2c ?a ?b) with (polar a b) in U, V. rewrite <- (anti _ _ U V). destruct (req _ 4) eqn:E.
  - apply req_true in E. rewrite inner_dotp, dot_sub in E. split; [intros _; lra|reflexivity].
  - split; [discriminate|]. intros H. exfalso. apply not_true_iff_false in E. apply E, req_true. rewrite inner_dotp, dot_sub. lra.
Qed.
Print Assumptions C116_antipodal.
(** From a point to itself: no points. *)
Theorem C116_same s n : great_circle_points s s n = Ok (repeat None n).
Proof.
  unfold great_circle_points. set (u := sph_to_cart2 s).
  assert (Z : inner (vsub u u) (vsub u u) = 0). { rewrite inner_dotp, dot_sub. lra. }
  rewrite Z. destruct (req 0 4) eqn:E; [apply req_true in E; lra|]. f_equal.
  rewrite <- (proj2 (linspace_unit n)) at 2. induction (linspace 0 1 n) as [|f l IH]; [reflexivity|]. cbn [map length repeat]. f_equal; [|exact IH].
  unfold great_circle_cart. rewrite Z, root_ok by lra. cbn [bind]. now rewrite sqrt_0, quot_nan.
Qed.
Print Assumptions C116_same.
Theorem C116_same_refuted : exists s1 s2 n l, great_circle_points s1 s2 n = Ok l /\ polar (fst s2) (snd s2) <> neg (polar (fst s1) (snd s1)) /\ In None l.
Proof.
  exists (PI / 2, 0), (PI / 2, 0), 2%nat, (repeat None 2). split; [apply C116_same|]. split; [|left; reflexivity].
  cbn [fst snd]. unfold polar, neg. rewrite sin_PI2, cos_0. intros H. apply pair_equal_spec in H as [H _]. apply pair_equal_spec in H as [H _]. lra.
Qed.
Print Assumptions C116_same_refuted.
(** A quarter of the equator in two steps: the point between has the angle of an eighth from both. *)
Example C116_ex : exists l s, great_circle_points (PI / 2, 0) (PI / 2, PI / 2) 3 = Ok l /\ nth_error l 1 = Some (Some s) /\ Between (1, 0, 0) (0, 1, 0) (PI / 2) (1 / 2) s.
Proof.
  pose proof PI_RGT_0. assert (P : polar (PI / 2) 0 = (1, 0, 0)). { unfold polar. rewrite sin_PI2, cos_PI2, sin_0, cos_0. repeat (apply pair_equal_spec; split); ring. }
  assert (Q : polar (PI / 2) (PI / 2) = (0, 1, 0)). { unfold polar. rewrite sin_PI2, cos_PI2. repeat (apply pair_equal_spec; split); ring. }
  destruct (C116_points (PI / 2, 0) (PI / 2, PI / 2) 3 (PI / 2)) as (l & E & _ & B); cbn [fst snd]; rewrite ?P, ?Q.
  - intros Z. apply pair_equal_spec in Z as [Z _]. apply pair_equal_spec in Z as [Z _]. lra.
  - unfold neg. intros Z. apply pair_equal_spec in Z as [Z _]. apply pair_equal_spec in Z as [Z _]. lra.
  - split; [lra|]. rewrite cos_PI2. unfold dotp. ring.
  - destruct (B 1%nat ltac:(lia)) as (s & N & S0). cbn [fst snd] in S0. rewrite P, Q in S0. cbn [Nat.eqb] in S0. exists l, s. split; [assumption|]. split; [assumption|].
    change (3 - 1)%nat with 2%nat in S0. change (INR 1) with 1 in S0. change (INR 2) with (1 + 1) in S0. replace (1 / 2) with (1 / (1 + 1)) by lra. exact S0.
Qed.

(** * C117 *)
Theorem C117_basis t p : let '(th, ph) := thetaphi_plane_cart (t, p) in Basis (polar t p) th ph /\ snd ph = 0.
Proof.
  cbn [thetaphi_plane_cart]. unfold s2c, Basis, unit, dotp, cross, polar. rewrite !sin_plus, !cos_plus, sin_PI2, cos_PI2. cbn [snd].
  pose proof (sc1 t) as T. pose proof (sc1 p) as P. split; [|ring].
  repeat split; try nsatz. repeat (apply pair_equal_spec; split); nsatz.
Qed.
Print Assumptions C117_basis.
(** [th] points along growing [t], [ph] along growing [p]. *)
Theorem C117_growing t p : let '(th, ph) := thetaphi_plane_cart (t, p) in
  forall a, dotp th (polar (t + a) p) = sin a /\ dotp ph (polar t (p + a)) = sin t * sin a.
Proof.
  cbn [thetaphi_plane_cart]. intros a. unfold s2c, dotp, polar. rewrite !sin_plus, !cos_plus, sin_PI2, cos_PI2. pose proof (sc1 t) as T. pose proof (sc1 p) as P. split; nsatz.
Qed.
Print Assumptions C117_growing.
Theorem C117_agree r t p :
  thetaphi_plane_cart (t, p) = (sph_to_cart2 (fst (thetaphi_plane2 (t, p))), sph_to_cart2 (snd (thetaphi_plane2 (t, p)))) /\
  thetaphi_plane_cart (t, p) = (sph_to_cart3 (fst (thetaphi_plane3 (r, t, p))), sph_to_cart3 (snd (thetaphi_plane3 (r, t, p)))).
Proof.
  cbn [thetaphi_plane_cart thetaphi_plane2 thetaphi_plane3 fst snd]. unfold sph_to_cart2, sph_to_cart3, s2c. cbn [fst snd].
  split; [reflexivity|]. repeat (apply pair_equal_spec; split); ring.
Qed.
Print Assumptions C117_agree.
Theorem C117_dot a b : sph_dot a b = dotp (polar (fst a) (snd a)) (polar (fst b) (snd b)).
Proof. reflexivity. Qed.
Print Assumptions C117_dot.
Example C117_ex : thetaphi_plane_cart (PI / 2, 0) = ((0, 0, -1), (0, 1, 0)).
Proof.
  cbn [thetaphi_plane_cart]. unfold s2c. replace (PI / 2 + PI / 2) with PI by lra. rewrite Rplus_0_l, sin_PI, cos_PI, sin_PI2, cos_PI2, sin_0, cos_0. repeat (apply pair_equal_spec; split); ring.
Qed.

(** * C118 *)
Theorem C118_cosine u v x1 x2 : unit u -> unit v -> cosine_rule (dotp u v) x1 x2 = Some (len (vsub (times x1 u) (times x2 v))).
Proof.
  intros U V. unfold cosine_rule. assert (E : (x1 - x2) ^ 2 + 2 * x1 * x2 * (1 - dotp u v) = dotp (vsub (times x1 u) (times x2 v)) (vsub (times x1 u) (times x2 v))).
  { destruct u as [[a b] c], v as [[x y] z]. unfold unit, dotp, vsub, vadd, vscale, times in *. rewrite sq2. nsatz. }
  rewrite E, root_ok by apply dot_pos. reflexivity.
Qed.
Print Assumptions C118_cosine.
Example C118_ex : cosine_rule 0 3 4 = Some 5.
Proof. unfold cosine_rule. rewrite root_ok by lra. f_equal. replace ((3 - 4) ^ 2 + 2 * 3 * 4 * (1 - 0)) with (5 * 5) by ring. apply sqrt_square. lra. Qed.

(** * C118: in place *)
Open Scope nat_scope.
Lemma norm_pair (m : nan_mem) b i : Normalised m (norm_at m b i) (b + 2 * Z.of_nat i) (b + 2 * Z.of_nat i + 1).
Proof.
  intros x y X Y N. destruct (norm_at_vals m b i) as (V & W & _). rewrite X, Y in V, W. unfold hypot in V, W. cbn [bind] in V, W.
  assert (P : (0 < x ^ 2 + y ^ 2)%R). { destruct N as [N|N]; [assert (0 < x ^ 2)%R by (rewrite sq2; nra); assert (0 <= y ^ 2)%R by apply pow2_ge_0; lra|assert (0 < y ^ 2)%R by (rewrite sq2; nra); assert (0 <= x ^ 2)%R by apply pow2_ge_0; lra]. }
  assert (S := sqrt_lt_R0 _ P). assert (Q := sqrt_sqrt (x ^ 2 + y ^ 2) ltac:(lra)). set (n := sqrt (x ^ 2 + y ^ 2)) in *.
  rewrite quot_ok in V, W by lra. exists n, (x / n)%R, (y / n)%R. split; [assumption|]. split; [assumption|]. split; [assumption|].
  split; [field; lra|]. split; [field; lra|]. replace ((x / n) ^ 2 + (y / n) ^ 2)%R with ((x ^ 2 + y ^ 2) / (n * n))%R by (field; lra). rewrite Q. field. lra.
Qed.
(** The vectors of a contiguous array, in any order of the threads. *)
Theorem C118_contiguous (m : nan_mem) lead strides off order : let v := mkview (lead ++ [2]) strides off in
  WellFormed v -> Forall (lt 0) lead -> c_contiguous v = true -> Permutation order (seq 0 (count lead)) ->
  exists m', norm_vec2 m v order = Ok m' /\ (forall idx, InShape idx lead -> Normalised m m' (addr v (idx ++ [0])) (addr v (idx ++ [1]))) /\ Untouched m m' v.
Proof.
  intros v W P C O. exists (fold_left (fun m i => norm_at m off i) order m). split; [now apply norm_vec2_contiguous|].
  assert (ND : NoDup order) by (eapply Permutation_NoDup; [symmetry; exact O|apply seq_NoDup]).
  assert (InO : forall k, In k order <-> k < count lead).
  { intros k. split; intros H; [apply (Permutation_in _ O) in H; apply in_seq in H; lia|]. apply (Permutation_in _ (Permutation_sym O)), in_seq. lia. }
  destruct (norm_loop order m off ND) as [A B]. set (m' := fold_left _ _ _) in *. split.
  - intros idx H. unfold v. rewrite !lead_pos by (auto; lia). set (i := pos false lead idx). assert (I : In i order) by (apply InO, pos_lt, H).
    destruct (A i I) as [A1 A2]. change (Z.of_nat 0) with 0%Z. change (Z.of_nat 1) with 1%Z. rewrite Z.add_0_r.
    unfold Normalised. rewrite A1, A2. exact (norm_pair m off i).
  - intros a Ha. apply B. intros i I. apply InO in I. destruct (lead_some lead i I) as (idx & H & <-).
    assert (K : forall j, j < 2 -> addr v (idx ++ [j]) <> a).
    { intros j J. apply Ha. cbn [v_shape v]. apply Forall2_app; [assumption|]. constructor; [assumption|constructor]. }
    pose proof (K 0 ltac:(lia)) as K0. pose proof (K 1 ltac:(lia)) as K1. unfold v in K0, K1. rewrite lead_pos in K0, K1 by (auto; lia). lia.
Qed.
Print Assumptions C118_contiguous.
(** Vectors in a transposed array: a copy is normalised, the array stays as it was. *)
Theorem C118_copy_refuted : exists (m : nan_mem) v order, WellFormed v /\ last (v_shape v) 0 = 2 /\ Forall (lt 0) (v_shape v) /\
  norm_vec2 m v order = Ok m /\ ~ (exists idx, InShape idx (removelast (v_shape v)) /\ Normalised m m (addr v (idx ++ [0])) (addr v (idx ++ [1]))).
Proof.
  exists (fun _ => Some 1%R), (mkview [2; 3; 2] [2; 4; 1]%Z 0), (seq 0 6). split; [reflexivity|]. split; [reflexivity|]. split; [repeat constructor|].
  split; [reflexivity|]. intros (idx & _ & N). destruct (N 1%R 1%R eq_refl eq_refl ltac:(left; lra)) as (k & x & y & _ & X & Y & _ & _ & E).
  injection X as <-. injection Y as <-. lra.
Qed.
Print Assumptions C118_copy_refuted.
(** A slice of a table is refused. *)
Theorem C118_slice_refuted : exists (m : nan_mem) v order, WellFormed v /\ last (v_shape v) 0 = 2 /\ Forall (lt 0) (v_shape v) /\ norm_vec2 m v order = Err ValueError.
Proof. exists (fun _ => Some 1%R), (mkview [4; 2] [3; 1]%Z 0), (seq 0 4). repeat split; repeat constructor. Qed.
Print Assumptions C118_slice_refuted.
(** Anything but pairs is refused. *)
Theorem C118_pairs (m : nan_mem) v order : last (v_shape v) 0 <> 2 -> norm_vec2 m v order = Err ValueError.
Proof. intros H. unfold norm_vec2. apply Nat.eqb_neq in H. now rewrite H. Qed.
Print Assumptions C118_pairs.
(** The zero vector becomes NaN. *)
Theorem C118_zero_refuted : exists (m m' : nan_mem) v order, norm_vec2 m v order = Ok m' /\ m (addr v [0]) = Some 0%R /\ m (addr v [1]) = Some 0%R /\ m' (addr v [0]) = None /\ m' (addr v [1]) = None.
Proof.
  exists (fun _ => Some 0%R). eexists. exists (mkview (2 :: nil) (1%Z :: nil) 0%Z), (0 :: nil). split; [reflexivity|]. split; [reflexivity|]. split; [reflexivity|].
  destruct (norm_at_vals (fun _ => Some 0%R) 0 0) as (V & W & _). unfold hypot in V, W. cbn [bind] in V, W.
  replace (0 ^ 2 + 0 ^ 2)%R with 0%R in V, W by ring. rewrite sqrt_0 in V, W. rewrite quot_nan in V, W. split; [exact V|exact W].
Qed.
Print Assumptions C118_zero_refuted.
Example C118_ex_norm : exists m', norm_vec2 (fun a => if (a =? 0)%Z then Some 3 else if (a =? 1)%Z then Some 4 else Some 7)%R (mkview [1; 2] [2; 1]%Z 0) (0 :: nil) = Ok m' /\ m' 0%Z = Some (3 / 5)%R /\ m' 1%Z = Some (4 / 5)%R /\ m' 2%Z = Some 7%R.
Proof.
  match goal with |- exists m', norm_vec2 ?m0 _ _ = _ /\ _ => set (m := m0) end. exists (norm_at m 0 0). split; [reflexivity|].
  destruct (norm_at_vals m 0 0) as (V & W & O). change (0 + 2 * Z.of_nat 0)%Z with 0%Z in V, W, O. change (0 + 1)%Z with 1%Z in V, W, O.
  change (m 0%Z) with (Some 3%R) in V, W. change (m 1%Z) with (Some 4%R) in V, W. unfold hypot in V, W. cbn [bind] in V, W.
  assert (S : sqrt (3 ^ 2 + 4 ^ 2) = 5%R). { replace (3 ^ 2 + 4 ^ 2)%R with (5 * 5)%R by ring. apply sqrt_square. lra. }
  rewrite S, quot_ok in V, W by lra. split; [exact V|]. split; [exact W|]. rewrite O by lia. reflexivity.
Qed.
