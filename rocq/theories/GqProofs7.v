(** Proofs about the quickselect with doubles: how far the answer is from the quantile. *)
From Coq Require Import ZArith Reals List Bool Arith Permutation Lia Lra.
From Flocq Require Import Core IEEE754.BinarySingleNaN IEEE754.Binary IEEE754.Bits.
From Verif Require Import PyBase MedModel MedSpec MedProofs MedProofs2 MedProofs3 QselModel QselProofs TruncModel TruncSpec TruncProofs BtModel BtSpec BtProofs BtProofs2 BtProofs3 BtProofs4 BtProofs5 InvModel InvSpec InvProofs InvProps TfModel TfProofs GqModel GqSpec GqProofs GqProofs2 GqProofs3 GqProofs4 GqProofs5 GqProofs6.
Import ListNotations.
Open Scope R_scope.

Definition dvalue (d : Z) : Z := match ieee_units 52 11 d with Some u => u | None => 0%Z end.
Definition wvalue (w : Z) : R := IZR (dvalue w).
Definition gooddatum (x : Z * Z) : Prop :=
  Units (fst x) (dvalue (fst x)) /\ Units (snd x) (dvalue (snd x)) /\ (0 <= dvalue (snd x))%Z.
Lemma units_dvalue : forall d v, Units d v -> dvalue d = v.
Proof. intros d v [_ H]. unfold dvalue. now rewrite H. Qed.
Lemma zero_units : Units 0 0.
Proof. split; [split; vm_compute; congruence|vm_compute; reflexivity]. Qed.

Lemma row_values : forall l z, Row Units l z -> nonneg z ->
  Forall gooddatum l /\ total wvalue l = IZR (weight_total z) /\
  (forall v, below dvalue wvalue l v = IZR (weight_below z v)) /\
  (forall v, upto dvalue wvalue l v = IZR (weight_upto z v)).
Proof.
  intros l z H. unfold Row in H. induction H as [|x y l z [Hx Hw] H IH]; intro Hn; [now repeat split|].
  inversion Hn as [|? ? N1 N2]; subst. destruct (IH N2) as (A & B & C & D).
  pose proof (units_dvalue _ _ Hx) as Ex. pose proof (units_dvalue _ _ Hw) as Ew.
  split; [constructor; auto; unfold gooddatum; rewrite Ex, Ew; auto|].
  split; [|split].
  - rewrite total_cons. unfold weight_total in *. cbn [sum_weights]. rewrite plus_IZR, B. unfold wvalue. now rewrite Ew.
  - intro v. specialize (C v). unfold below, weight_below in *. rewrite vals_cons. cbn [sum_weights]. rewrite plus_IZR, C, Ex.
    unfold wvalue. rewrite Ew. now destruct (_ <? _)%Z.
  - intro v. specialize (D v). unfold upto, weight_upto in *. rewrite vals_cons. cbn [sum_weights]. rewrite plus_IZR, D, Ex.
    unfold wvalue. rewrite Ew. now destruct (_ <=? _)%Z.
Qed.

Section Bound.
Context (n : nat) (T : R).
Context (Hn : INR n * eps <= / 4) (HT : 0 < T) (HT2 : T < IZR (2 ^ 2096)).
Definition RU (s : Z) (x : R) : Prop := exists c, Units s c /\ x = IZR c.
Definition gg : R := 2 * INR n * eps.

Lemma gg_bounds : 0 <= gg <= / 2.
Proof.
  unfold gg. pose proof (pos_INR n). pose proof eps_pos.
  assert (0 <= INR n * eps) by (apply Rmult_le_pos; lra). lra.
Qed.
Lemma below_2097 : forall a, IZR a <= 2 * T -> (a < 2 ^ 2097)%Z.
Proof.
  intros a H. apply lt_IZR. change (2 ^ 2097)%Z with (2 * 2 ^ 2096)%Z. rewrite mult_IZR. set (p := IZR (2 ^ 2096)) in *.
  clearbody p. lra.
Qed.

Lemma sum_near : forall l, Forall gooddatum l -> (length l <= n)%nat -> total wvalue l <= T ->
  exists x, RU (fsum double_ops (map snd l)) x /\ 0 <= x /\ Rabs (x - total wvalue l) <= 2 * INR (length l) * eps * total wvalue l.
Proof.
  induction l as [|x l IH] using rev_ind; intros Hg Hl Ht.
  - exists 0. split; [exists 0%Z; split; [exact zero_units|reflexivity]|]. cbn [total fold_right length INR]. split; [lra|].
    rewrite Rminus_0_r, Rabs_R0. lra.
  - apply Forall_app in Hg as [G1 G2]. inversion G2 as [|? ? (Gx & Gw & Gp) _]; subst.
    rewrite app_length in *. cbn [length] in *. rewrite total_app in *.
    assert (Ex : total wvalue [x] = wvalue (snd x)) by (cbn; lra). rewrite Ex in *.
    assert (Pw : 0 <= wvalue (snd x)) by (apply IZR_le; exact Gp).
    assert (Pt : 0 <= total wvalue l).
    { apply (total_nonneg dvalue wvalue gooddatum); auto. intros y (_ & _ & P). apply IZR_le. exact P. }
    destruct IH as (c0 & (c & Hc & ->) & Pc & Ec); [exact G1|lia|lra|].
    rewrite map_app. cbn [map]. rewrite fsum_snoc. cbn [s_add double_ops].
    pose proof (pos_INR (length l)) as Pk. pose proof eps_pos as Pe.
    assert (Hk : INR (length l) * eps <= / 4).
    { eapply Rle_trans; [|exact Hn]. apply Rmult_le_compat_r; [lra|]. apply le_INR. lia. }
    assert (K0 : 0 <= INR (length l) * eps) by (apply Rmult_le_pos; lra).
    rewrite plus_INR. cbn [INR]. unfold wvalue in *.
    set (t := total (fun w => IZR (dvalue w)) l) in *. set (w := IZR (dvalue (snd x))) in *.
    replace (2 * INR (length l) * eps * t) with (2 * (INR (length l) * eps) * t) in Ec by ring.
    replace (2 * (INR (length l) + 1) * eps * (t + w)) with (2 * (INR (length l) * eps) * (t + w) + 2 * (eps * (t + w))) by ring.
    set (k := INR (length l) * eps) in *.
    assert (Kt : k * t <= / 4 * t) by (apply Rmult_le_compat_r; lra).
    assert (Kt0 : 0 <= k * t) by (apply Rmult_le_pos; lra).
    assert (Kw0 : 0 <= k * w) by (apply Rmult_le_pos; lra).
    apply Rabs_le_inv in Ec.
    assert (Lc : IZR c <= 3 / 2 * t) by lra.
    destruct (add_units (fsum double_ops (map snd l)) c (snd x) (dvalue (snd x)) Hc Gw) as (c' & Hc' & Pc' & Ec').
    + apply le_IZR. exact Pc.
    + exact Gp.
    + apply below_2097. rewrite plus_IZR. fold w. lra.
    + exists (IZR c'). split; [exists c'; split; [exact Hc'|reflexivity]|]. split; [apply IZR_le; exact Pc'|].
      fold w in Ec'. apply Rabs_le_inv in Ec'.
      assert (B : eps * (IZR c + w) <= eps * (2 * (t + w))) by (apply Rmult_le_compat_l; lra).
      apply Rabs_le. lra.
Qed.

Lemma sum_near' : forall l, Forall gooddatum l -> (length l <= n)%nat -> total wvalue l <= T ->
  exists x, RU (fsum double_ops (map snd l)) x /\ 0 <= x /\ Rabs (x - total wvalue l) <= gg * total wvalue l.
Proof.
  intros l H1 H2 H3. destruct (sum_near l H1 H2 H3) as (x & A & B & C). exists x. split; [exact A|]. split; [exact B|].
  eapply Rle_trans; [exact C|].
  assert (0 <= total wvalue l) by (apply (total_nonneg dvalue wvalue gooddatum); auto; intros y (_ & _ & P); apply IZR_le; exact P).
  apply Rmult_le_compat_r; [assumption|]. unfold gg. apply Rmult_le_compat_r; [left; exact eps_pos|].
  apply Rmult_le_compat_l; [lra|now apply le_INR].
Qed.

Lemma eq_near : forall s x s' x', RU s x -> RU s' x' -> eq64 s s' = Req_bool x x'.
Proof.
  intros s x s' x' (a & Ha & ->) (b & Hb & ->). destruct (units_value _ _ Ha) as [Wa Va]. destruct (units_value _ _ Hb) as [Wb Vb].
  rewrite (eq64_value _ _ _ _ Wa Wb Va Vb). pose proof unit_pos as U. pose proof (Rinv_0_lt_compat _ U) as V.
  unfold Rdiv. generalize dependent (/ unit_). clear U; intros r Hr.
  destruct (Req_bool_spec (IZR a) (IZR b)) as [E|E].
  - rewrite E. now apply Req_bool_true.
  - apply Req_bool_false. intro K. apply E. apply Rmult_eq_reg_r with r; [exact K|lra].
Qed.
Lemma le_near : forall s x s' x', RU s x -> RU s' x' -> le64 s s' = Rle_bool x x'.
Proof.
  intros s x s' x' (a & Ha & ->) (b & Hb & ->). destruct (units_value _ _ Ha) as [Wa Va]. destruct (units_value _ _ Hb) as [Wb Vb].
  rewrite (le64_value _ _ _ _ Wa Wb Va Vb). pose proof unit_pos as U. pose proof (Rinv_0_lt_compat _ U) as V.
  unfold Rdiv. generalize dependent (/ unit_). clear U; intros r Hr.
  destruct (Rle_bool_spec (IZR a) (IZR b)) as [E|E].
  - apply Rle_bool_true. apply Rmult_le_compat_r; lra.
  - apply Rle_bool_false. apply Rmult_lt_compat_r; lra.
Qed.
Lemma sub_near : forall s x s' x', RU s x -> RU s' x' -> 0 <= x' -> x' < x -> x <= 2 * T ->
  exists x'', RU (sub64 s s') x'' /\ 0 <= x'' <= x /\ Rabs (x'' - (x - x')) <= eps * (x - x').
Proof.
  intros s x s' x' (a & Ha & ->) (b & Hb & ->) P L B.
  destruct (sub_units s a s' b Ha Hb) as (c & Hc & Pc & Ec).
  - split; [apply le_IZR; exact P|apply lt_IZR; exact L].
  - now apply below_2097.
  - exists (IZR c). split; [exists c; split; [exact Hc|reflexivity]|]. split; [|exact Ec].
    split; apply IZR_le; apply Pc.
Qed.

Lemma quantile_near : forall l q k m a, Forall gooddatum l -> length l = n -> (2 <= n)%nat -> total wvalue l = T ->
  Units q k -> (0 <= k <= 2 ^ 1074)%Z -> grow double_ops l q m = Ok a ->
  forall d, In d (elements a) ->
  below dvalue wvalue l (dvalue d) <= IZR k / unit_ * T + (10 * INR n * eps * T + / 2) /\
  IZR k / unit_ * T <= upto dvalue wvalue l (dvalue d) + (10 * INR n * eps * T + / 2).
Proof.
  intros l q k m a Hg Hlen Hn2 Htot Hq Hk E. unfold grow in E.
  pose proof gg_bounds as G. pose proof eps_pos as Pe.
  destruct (sum_near' l Hg ltac:(lia) ltac:(lra)) as (x0 & (c & Hc & ->) & Pc & Ec).
  change (fsum double_ops (map snd l)) with (gtotal double_ops l) in Hc. rewrite Htot in Ec.
  assert (GT : 0 <= gg * T <= / 2 * T) by (split; [apply Rmult_le_pos; lra|apply Rmult_le_compat_r; lra]).
  apply Rabs_le_inv in Ec.
  assert (E0 : eq64 (gtotal double_ops l) 0 = false).
  { rewrite (eq_near _ (IZR c) _ 0); [|exists c; split; [exact Hc|reflexivity]|exists 0%Z; split; [exact zero_units|reflexivity]].
    apply Req_bool_false. lra. }
  cbn [s_eq double_ops s_zero s_mul] in E. rewrite E0 in E.
  destruct (mul_units (gtotal double_ops l) c q k Hc Hq) as (x & Hx & Px & Ex).
  { split; [apply le_IZR; exact Pc|apply below_2097; lra]. }
  { exact Hk. }
  assert (Q : 0 <= IZR k / unit_ <= 1).
  { pose proof unit_pos as U. split; [apply Rmult_le_pos; [apply IZR_le; exact (proj1 Hk)|left; now apply Rinv_0_lt_compat]|].
    apply Rmult_le_reg_r with unit_; [exact U|]. unfold Rdiv. rewrite Rmult_assoc, Rinv_l, Rmult_1_r, Rmult_1_l by lra.
    unfold unit_. rewrite pow2_R. apply IZR_le. exact (proj2 Hk). }
  set (p := IZR k / unit_) in *. clearbody p.
  set (e0 := 3 / 2 * eps * T + gg * T + / 2).
  assert (ET : 0 <= eps * T) by (apply Rmult_le_pos; lra).
  assert (Cp : 0 <= IZR c * p <= IZR c) by (split; [apply Rmult_le_pos; lra|rewrite <- (Rmult_1_r (IZR c)) at 2; apply Rmult_le_compat_l; lra]).
  assert (Ecp : eps * (IZR c * p) <= eps * (3 / 2 * T)) by (apply Rmult_le_compat_l; lra).
  assert (Tp : - (gg * T) <= (IZR c - T) * p <= gg * T).
  { apply Rabs_le_inv. rewrite Rabs_mult, (Rabs_pos_eq p) by lra. rewrite <- (Rmult_1_r (gg * T)).
    apply Rmult_le_compat; [apply Rabs_pos|lra|apply Rabs_le; lra|lra]. }
  assert (Hxt : Rabs (IZR x - p * T) <= e0).
  { apply Rabs_le_inv in Ex. apply Rabs_le. unfold e0. replace ((IZR c - T) * p) with (IZR c * p - p * T) in Tp by ring. lra. }
  assert (Pt : 0 <= p * T <= T).
  { split; [apply Rmult_le_pos; lra|]. rewrite <- (Rmult_1_l T) at 2. apply Rmult_le_compat_r; lra. }
  assert (He : err eps gg T n e0 <= 10 * INR n * eps * T + / 2).
  { unfold err, e0, gg. assert (N : 2 <= INR n) by (change 2 with (INR 2); now apply le_INR).
    assert (B : 2 * (eps * T) <= INR n * (eps * T)) by (apply Rmult_le_compat_r; lra).
    replace (10 * INR n * eps * T) with (10 * (INR n * (eps * T))) by ring.
    replace (2 * INR n * eps * T) with (2 * (INR n * (eps * T))) by ring.
    replace (2 * (2 * INR n * eps) * T) with (4 * (INR n * (eps * T))) by ring.
    replace (2 * eps * T * INR n) with (2 * (INR n * (eps * T))) by ring.
    replace (3 / 2 * eps * T) with (3 / 2 * (eps * T)) by ring. lra. }
  intros d Hd.
  assert (F : below dvalue wvalue l (dvalue d) <= p * T + err eps gg T n e0 /\ p * T <= upto dvalue wvalue l (dvalue d) + err eps gg T n e0).
  { refine (quickselect_near double_ops dvalue wvalue gooddatum lt64_asymmetric _ _ _ RU eps gg T n _ _ _ sum_near' eq_near le_near sub_near
      l (p * T) e0 Hlen Hg Htot Pt _ (mul64 (gtotal double_ops l) q) m (IZR x) a Hn2 _ _ Hxt E d Hd).
    - intros y z (Y & _) (V & _). now apply lt64_units.
    - intros y (_ & _ & P). apply IZR_le. exact P.
    - intros y (_ & W & _) P. cbn [w_pos double_ops]. rewrite (lt64_units 0 0 _ _ zero_units W). apply Z.ltb_lt. apply lt_IZR. exact P.
    - lra.
    - lra.
    - lra.
    - unfold e0. lra.
    - exists x. split; [exact Hx|reflexivity].
    - split; [apply IZR_le; exact (proj1 Px)|]. apply Rle_trans with (IZR c); [apply IZR_le; exact (proj2 Px)|lra]. }
  lra.
Qed.
End Bound.
