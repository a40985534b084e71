(** Lemmas for the truncation of complex rows: the parts, the largest entry, the tolerance. *)
From Coq Require Import ZArith Reals List Bool Lia Lra Psatz.
From Flocq Require Import Core.
From Verif Require Import PyBase TruncModel TruncSpec TruncProofs TruncFloat TruncProps0 BtModel BtSpec BtProofs2 BtProofs3 BtProofs4 BtProofs5.
Import ListNotations.
Open Scope Z_scope.

Lemma float_word : forall val err v, Word 32 val -> IsFloat val v -> (Rabs v < 2 ^ 127)%R ->
  Word 32 (bit_truncate_float val err).
Proof.
  intros val err v Wv (V & HV & ->) H. apply (units_lt V 149 127) in H.
  destruct (units_exponent 23 8 val V ltac:(lia) ltac:(lia) HV) as [Hp Hs].
  change (2 ^ 8) with 256 in *. set (p := (val / 2 ^ 23) mod 256) in *.
  assert (Hp1 : p < 254).
  { destruct (Z.lt_ge_cases p 1); [lia|]. specialize (Hs ltac:(lia)).
    assert (23 + p - 1 < 276); [|lia]. apply pow_lt_inv; [lia|].
    eapply Z.le_lt_trans; [apply Hs|exact H]. }
  unfold bit_truncate_float.
  rewrite (fp_closed 32 23 8 149 shifts32 _ eq_refl ltac:(lia) ltac:(lia) smear32_half eq_refl val err Wv)
    by (change ((val / 2 ^ 23) mod 2 ^ 8) with p; change (2 ^ 8) with 256; lia).
  match goal with |- context [int_tolerance ?a ?b ?c ?d ?e err ?q] =>
    pose proof (int_tolerance_range a b c d e eq_refl ltac:(lia) ltac:(lia) err q) as IT;
    set (it := int_tolerance a b c d e err q) in * end.
  assert (Hf : 0 <= val mod 2 ^ 23 < 2 ^ 23) by (apply Z.mod_pos_bound; lia).
  destruct (trunc_man 32 23 8 shifts32 eq_refl ltac:(lia) ltac:(lia) smear32_half eq_refl (val mod 2 ^ 23 + 2 ^ 23) it) as [_ Hr];
    [change (23 + 1) with 24; lia|exact IT|].
  set (r := bit_truncate_w 32 shifts32 (val mod 2 ^ 23 + 2 ^ 23) it) in *.
  change ((val / 2 ^ 23) mod 2 ^ 8) with p. change (23 + 1) with 24 in *.
  apply (word_fields 32 23 8 eq_refl ltac:(lia) ltac:(lia)); change (2 ^ 8) with 256;
    destruct (Z.eqb_spec r 0); destruct (Z.eqb_spec r (2 ^ 24)); lia.
Qed.

(** Numerical facts *)
Lemma pow_inv_le : forall a b, (a <= b)%nat -> (/ 2 ^ b <= / 2 ^ a)%R.
Proof. intros a b H. apply Rinv_le_contravar; [apply pow2_R_pos|]. apply Rle_pow; [lra|exact H]. Qed.
Lemma pow_inv_pos : forall a, (0 < / 2 ^ a)%R.
Proof. intros a. apply Rinv_0_lt_compat, pow2_R_pos. Qed.
Lemma pow_inv_S : forall a, (/ 2 ^ a = 2 * / 2 ^ S a)%R.
Proof. intros a. rewrite <- half_inv. lra. Qed.

Lemma part_by : forall x tol v t, Word 64 x -> Word 32 tol -> IsDouble x v -> IsFloat tol t -> (0 <= t)%R ->
  (Rabs v < 2 ^ 126)%R -> ~ (/ 2 ^ 106 <= Rabs v < / 2 ^ 103)%R ->
  exists r, IsDouble (to64 (bit_truncate_float (to32 x) tol)) r /\ (Rabs (r - v) <= t + Rabs v * / 2 ^ 24 + / 2 ^ 150)%R.
Proof.
  intros x tol v t Wx Wt Hx Ht T0 Hs Hb.
  assert (B0 : (2 ^ 127 = 2 * 2 ^ 126)%R) by reflexivity.
  assert (B1 : (1 <= 2 ^ 126)%R) by (apply pow_R1_Rle; lra).
  pose proof (to32_round x v Wx Hx ltac:(lra)) as N. pose proof (rnd32_error v) as E.
  set (n := rnd32 v) in *.
  pose proof (pow_inv_pos 24). pose proof (pow_inv_pos 150).
  assert (K1 : (/ 2 ^ 24 <= / 4)%R) by (replace 4%R with (2 ^ 2)%R by lra; apply pow_inv_le; lia).
  assert (K2 : (/ 2 ^ 150 <= / 4)%R) by (replace 4%R with (2 ^ 2)%R by lra; apply pow_inv_le; lia).
  pose proof (Rabs_pos v). pose proof (Rabs_triang_inv n v). 
  assert (Hv : (Rabs v <= Rabs n + Rabs (n - v))%R).
  { replace v with (n - (n - v))%R at 1 by ring. eapply Rle_trans; [apply Rabs_triang|]. rewrite Rabs_Ropp. lra. }
  destruct (float_by (to32 x) tol n t (to32_word x) Wt N Ht T0) as (r & R1 & R2 & _).
  - nra.
  - intros [L1 L2].
    pose proof (pow_inv_S 105) as Q1. pose proof (pow_inv_S 104) as Q2. pose proof (pow_inv_S 103) as Q3.
    pose proof (pow_inv_le 110 150 ltac:(lia)). pose proof (pow_inv_pos 110).
    assert (Q4 : (/ 2 ^ 106 = 16 * / 2 ^ 110)%R).
    { rewrite (pow_inv_S 106), (pow_inv_S 107), (pow_inv_S 108), (pow_inv_S 109). lra. }
    destruct (Rlt_or_le (Rabs v) (/ 2 ^ 106)) as [C|C].
    + nra.
    + destruct (Rlt_or_le (Rabs v) (/ 2 ^ 103)) as [D|D]; [now apply Hb|]. nra.
  - exists r. split.
    + apply to64_exact; [|exact R1]. apply (float_word _ _ n); [apply to32_word|exact N|nra].
    + replace (r - v)%R with ((r - n) + (n - v))%R by ring. eapply Rle_trans; [apply Rabs_triang|]. lra.
Qed.

(** The largest entry *)
Lemma step_cases : forall m v,
  step m v = add64 (mul64 (fst v) (fst v)) (mul64 (snd v) (snd v)) \/ step m v = m.
Proof. intros m v. unfold step. cbv zeta. destruct (gt64 _ m); auto. Qed.
Lemma abs2_by : forall a b x y M, Word 64 a -> Word 64 b -> IsDouble a x -> IsDouble b y ->
  (0 <= M < 2 ^ 126)%R -> (x * x + y * y <= M * M)%R ->
  exists s, IsDouble (add64 (mul64 a a) (mul64 b b)) s
    /\ (0 <= s <= M * M * ((1 + / 2 ^ 53) * (1 + / 2 ^ 53)) + 4 * / 2 ^ 1075)%R.
Proof.
  intros a b x y M Wa Wb Ha Hb HM Hs.
  assert (X0 : (0 <= x * x)%R) by nra. assert (Y0 : (0 <= y * y)%R) by nra.
  assert (B : (2 ^ 1023 = 2 ^ 126 * 2 ^ 126 * 2 ^ 771)%R) by (rewrite <- !pow_add; reflexivity).
  assert (B1 : (4 <= 2 ^ 771)%R) by (replace 4%R with (2 ^ 2)%R by lra; apply Rle_pow; [lra|lia]).
  assert (B2 : (1 <= 2 ^ 126)%R) by (apply pow_R1_Rle; lra).
  assert (B3 : (M * M <= 2 ^ 126 * 2 ^ 126)%R) by nra.
  assert (B4 : (1 <= 2 ^ 126 * 2 ^ 126)%R) by nra.
  assert (B5 : (4 * (2 ^ 126 * 2 ^ 126) <= 2 ^ 1023)%R) by nra.
  pose proof (pow_inv_pos 53) as U0. pose proof (pow_inv_pos 1075) as E0.
  assert (U1 : (/ 2 ^ 53 <= / 4)%R) by (replace 4%R with (2 ^ 2)%R by lra; apply pow_inv_le; lia).
  assert (E1 : (/ 2 ^ 1075 <= / 4)%R) by (replace 4%R with (2 ^ 2)%R by lra; apply pow_inv_le; lia).
  set (u := (/ 2 ^ 53)%R) in *. set (e := (/ 2 ^ 1075)%R) in *. set (K := (2 ^ 126 * 2 ^ 126)%R) in *.
  assert (Px : IsDouble (mul64 a a) (rnd64 (x * x))).
  { apply mul64_round; try assumption. rewrite Rabs_right by lra. lra. }
  assert (Py : IsDouble (mul64 b b) (rnd64 (y * y))).
  { apply mul64_round; try assumption. rewrite Rabs_right by lra. lra. }
  pose proof (rnd64_error (x * x)) as Ex. pose proof (rnd64_error (y * y)) as Ey.
  pose proof (rnd64_nonneg _ X0) as Nx. pose proof (rnd64_nonneg _ Y0) as Ny.
  rewrite (Rabs_right (x * x)) in Ex by lra. rewrite (Rabs_right (y * y)) in Ey by lra.
  fold u in Ex, Ey. fold e in Ex, Ey.
  set (p := rnd64 (x * x)) in *. set (q := rnd64 (y * y)) in *.
  apply Rabs_le_inv in Ex. apply Rabs_le_inv in Ey.
  assert (T1 : ((x * x + y * y) * (1 + u) <= M * M * (1 + u))%R) by (apply Rmult_le_compat_r; lra).
  assert (S1 : (p + q <= M * M * (1 + u) + 2 * e)%R) by lra.
  assert (T2 : (M * M * (1 + u) <= K * (5 / 4))%R) by (apply Rmult_le_compat; try lra).
  assert (S2 : (p + q < 2 ^ 1023)%R) by lra.
  exists (rnd64 (p + q)). split.
  - apply add64_round; try assumption; try apply mul64_word. rewrite Rabs_right by lra. exact S2.
  - pose proof (rnd64_error (p + q)) as Es. rewrite (Rabs_right (p + q)) in Es by lra. fold u in Es. fold e in Es.
    apply Rabs_le_inv in Es. split; [apply rnd64_nonneg; lra|].
    assert (T3 : ((p + q) * (1 + u) <= (M * M * (1 + u) + 2 * e) * (1 + u))%R) by (apply Rmult_le_compat_r; lra).
    assert (T4 : (e * u <= e * / 4)%R) by (apply Rmult_le_compat_l; lra). lra.
Qed.

Lemma fold_inv : forall (P : Z -> Prop) (f : Z -> Z * Z -> Z) l m, P m ->
  (forall m v, In v l -> P m -> P (f m v)) -> P (fold_left f l m).
Proof.
  intros P f l. induction l as [|v l IH]; intros m H Hf; [exact H|]. cbn [fold_left].
  apply IH; [apply Hf; [now left|exact H]|]. intros m' v' I. apply Hf. now right.
Qed.
Definition Between (B : R) (w : Z) : Prop := Word 64 w /\ exists t, IsDouble w t /\ (0 <= t <= B)%R.
Lemma step_between : forall M B m v, B = (M * M * ((1 + / 2 ^ 53) * (1 + / 2 ^ 53)) + 4 * / 2 ^ 1075)%R ->
  (0 <= M < 2 ^ 126)%R -> Word 64 (fst v) -> Word 64 (snd v) ->
  (exists x y, IsDouble (fst v) x /\ IsDouble (snd v) y /\ (x * x + y * y <= M * M)%R) ->
  Between B m -> Between B (step m v).
Proof.
  intros M B m v HB HM W1 W2 (x & y & Hx & Hy & L) Hm.
  destruct (step_cases m v) as [E|E]; rewrite E; [|exact Hm].
  split; [apply add64_word|]. rewrite HB. exact (abs2_by _ _ x y M W1 W2 Hx Hy HM L).
Qed.
Lemma row_max_by : forall M row, (0 <= M < 2 ^ 126)%R -> Doubles row M ->
  exists m, IsDouble (row_max row) m /\ (0 <= m <= M * (1 + / 2 ^ 51) + / 2 ^ 534)%R.
Proof.
  intros M row HM HD. unfold row_max.
  pose proof (pow_inv_pos 53) as U0. pose proof (pow_inv_pos 1075) as E0.
  destruct (fold_inv (Between (M * M * ((1 + / 2 ^ 53) * (1 + / 2 ^ 53)) + 4 * / 2 ^ 1075)) step row 0) as (Wt & t & Ht & Bt).
  - split; [split; lia|]. exists 0%R. split; [exists 0; split; [reflexivity|lra]|]. nra.
  - intros m v Hv Hm. destruct (HD v Hv) as (W1 & W2 & X). exact (step_between M _ m v eq_refl HM W1 W2 X Hm).
  - exists (rnd64 (sqrt t)). split; [apply sqrt64_round; tauto|].
    pose proof (sqrt_pos t) as S0. split; [now apply rnd64_nonneg|].
    pose proof (rnd64_error (sqrt t)) as Es. rewrite (Rabs_right (sqrt t)) in Es by lra. apply Rabs_le_inv in Es.
    assert (S1 : (sqrt t <= M * (1 + / 2 ^ 53) + / 2 ^ 536)%R).
    { pose proof (pow_inv_pos 536) as Q0.
      assert (Q : (/ 2 ^ 536 * / 2 ^ 536 = / 2 ^ 1072)%R) by (rewrite <- Rinv_mult, <- pow_add; reflexivity).
      assert (Q1 : (/ 2 ^ 1072 = 8 * / 2 ^ 1075)%R) by (rewrite (pow_inv_S 1072), (pow_inv_S 1073), (pow_inv_S 1074); lra).
      rewrite <- (sqrt_Rsqr (M * (1 + / 2 ^ 53) + / 2 ^ 536)) by nra. apply sqrt_le_1_alt. unfold Rsqr. nra. }
    assert (U1 : (/ 2 ^ 51 = 4 * / 2 ^ 53)%R) by (rewrite (pow_inv_S 51), (pow_inv_S 52); lra).
    assert (U2 : (/ 2 ^ 53 <= / 4)%R) by (replace 4%R with (2 ^ 2)%R by lra; apply pow_inv_le; lia).
    assert (E2 : (/ 2 ^ 534 = 4 * / 2 ^ 536)%R) by (rewrite (pow_inv_S 534), (pow_inv_S 535); lra).
    pose proof (pow_inv_pos 536) as Q0.
    assert (E3 : (/ 2 ^ 1075 <= / 2 ^ 536)%R) by (apply pow_inv_le; lia).
    set (u := (/ 2 ^ 53)%R) in *. set (e := (/ 2 ^ 536)%R) in *. nra.
Qed.

(** The tolerance of line 197 *)
Lemma precision_by : forall cabs prec pmax mabs v p q c m,
  Word 32 prec -> Word 32 pmax -> Word 64 mabs -> Word 64 (cabs (fst v) (snd v)) ->
  IsFloat prec p -> IsFloat pmax q -> IsDouble mabs m -> IsDouble (cabs (fst v) (snd v)) c ->
  (0 <= p <= 1)%R -> (0 <= q <= 1)%R -> (0 <= c < 2 ^ 125)%R -> (0 <= m < 2 ^ 125)%R ->
  Word 32 (precision cabs prec pmax mabs v)
  /\ exists t, IsFloat (precision cabs prec pmax mabs v) t
     /\ (0 <= t <= Rmax (c * p) (q * m) * (1 + / 2 ^ 22) + / 2 ^ 148)%R.
Proof.
  intros cabs prec pmax mabs v p q c m Wp Wq Wm Wc Hp Hq Hm Hc Lp Lq Lc Lm.
  split; [apply to32_word|].
  assert (K : (2 ^ 127 = 4 * 2 ^ 125)%R) by (rewrite <- !tech_pow_Rmult; lra).
  assert (K' : (2 ^ 1023 = 2 ^ 125 * 2 ^ 898)%R) by (rewrite <- pow_add; reflexivity).
  assert (B0 : (4 <= 2 ^ 898)%R) by (replace 4%R with (2 ^ 2)%R by lra; apply Rle_pow; [lra|lia]).
  assert (B1 : (1 <= 2 ^ 125)%R) by (apply pow_R1_Rle; lra).
  pose proof (pow_inv_pos 24) as U0. pose proof (pow_inv_pos 150) as E0.
  assert (U1 : (/ 2 ^ 24 <= / 16)%R) by (replace 16%R with (2 ^ 4)%R by lra; apply pow_inv_le; lia).
  assert (E1 : (/ 2 ^ 150 <= / 16)%R) by (replace 16%R with (2 ^ 4)%R by lra; apply pow_inv_le; lia).
  assert (U2 : (/ 2 ^ 22 = 4 * / 2 ^ 24)%R) by (rewrite (pow_inv_S 22), (pow_inv_S 23); lra).
  assert (E2 : (/ 2 ^ 148 = 4 * / 2 ^ 150)%R) by (rewrite (pow_inv_S 148), (pow_inv_S 149); lra).
  assert (U3 : (/ 2 ^ 53 <= / 2 ^ 24)%R) by (apply pow_inv_le; lia).
  assert (E3 : (/ 2 ^ 1075 <= / 2 ^ 150)%R) by (apply pow_inv_le; lia).
  pose proof (pow_inv_pos 53) as U4. pose proof (pow_inv_pos 1075) as E4.
  set (u := (/ 2 ^ 24)%R) in *. set (e := (/ 2 ^ 150)%R) in *. set (H := (2 ^ 125)%R) in *.
  pose proof (to32_round _ c Wc Hc ltac:(rewrite Rabs_right by lra; lra)) as N1.
  pose proof (rnd32_error c) as F1. rewrite (Rabs_right c) in F1 by lra. fold u e in F1. apply Rabs_le_inv in F1.
  pose proof (rnd32_nonneg c ltac:(lra)) as G1. set (c1 := rnd32 c) in *.
  assert (C1 : (0 <= c1 * p)%R) by (apply Rmult_le_pos; lra).
  assert (C2 : (c1 * p <= (c * (1 + u) + e) * p)%R) by (apply Rmult_le_compat_r; lra).
  assert (C3 : (e * p <= e * 1)%R) by (apply Rmult_le_compat_l; lra).
  assert (C1' : (c1 * p <= c * p * (1 + u) + e)%R) by lra.
  assert (C4 : (0 <= c * p)%R) by (apply Rmult_le_pos; lra). assert (C5 : (c * p <= c * 1)%R) by (apply Rmult_le_compat_l; lra).
  assert (C0 : (0 <= c * p < H)%R) by lra.
  pose proof (mul32_round _ _ c1 p (to32_word _) Wp N1 Hp ltac:(rewrite Rabs_right by lra; nra)) as N2.
  pose proof (rnd32_error (c1 * p)) as F2. rewrite (Rabs_right (c1 * p)) in F2 by lra. fold u e in F2. apply Rabs_le_inv in F2.
  pose proof (rnd32_nonneg _ C1) as G2. set (a := rnd32 (c1 * p)) in *.
  pose proof (to64_exact _ a (mul32_word _ _) N2) as N3.
  pose proof (to64_exact _ q Wq Hq) as N4.
  assert (M1 : (0 <= q * m)%R) by (apply Rmult_le_pos; lra). assert (M2 : (q * m <= 1 * m)%R) by (apply Rmult_le_compat_r; lra).
  assert (M0 : (0 <= q * m < H)%R) by lra.
  pose proof (mul64_round _ _ q m (to64_word _) Wm N4 Hm ltac:(rewrite Rabs_right by lra; nra)) as N5.
  pose proof (rnd64_error (q * m)) as F3. rewrite (Rabs_right (q * m)) in F3 by lra. apply Rabs_le_inv in F3.
  pose proof (rnd64_nonneg (q * m) ltac:(lra)) as G3. set (b := rnd64 (q * m)) in *.
  unfold precision. rewrite (gt64_value _ _ b a) by (auto using to64_word, mul64_word).
  assert (A1 : (a <= c * p * ((1 + u) * (1 + u)) + (2 + u) * e)%R).
  { assert (T1 : (c1 * p * (1 + u) <= (c * p * (1 + u) + e) * (1 + u))%R) by (apply Rmult_le_compat_r; lra).
    lra. }
  assert (A2 : (b <= q * m * ((1 + u) * (1 + u)) + (2 + u) * e)%R).
  { assert (T1 : (q * m * / 2 ^ 53 <= q * m * u)%R) by (apply Rmult_le_compat_l; lra).
    assert (T2 : (0 <= q * m * u * (1 + u))%R) by (apply Rmult_le_pos; [apply Rmult_le_pos|]; lra).
    assert (T3 : (0 <= u * e)%R) by (apply Rmult_le_pos; lra). lra. }
  pose proof (Rmax_l (c * p) (q * m)) as X1. pose proof (Rmax_r (c * p) (q * m)) as X2.
  assert (X3 : (Rmax (c * p) (q * m) < H)%R) by (apply Rmax_lub_lt; lra).
  set (X := Rmax (c * p) (q * m)) in *.
  assert (Fin : forall w z, Word 64 w -> IsDouble w z -> (0 <= z <= X * ((1 + u) * (1 + u)) + (2 + u) * e)%R ->
    exists t, IsFloat (to32 w) t /\ (0 <= t <= X * (1 + / 2 ^ 22) + / 2 ^ 148)%R).
  { intros w z Ww Hw Bz.
    assert (V1 : ((1 + u) * (1 + u) <= 2)%R) by (clear - U0 U1; nra).
    assert (V3 : (u * e <= 1 * e)%R) by (apply Rmult_le_compat_r; lra).
    assert (V2 : (X * ((1 + u) * (1 + u)) <= X * 2)%R) by (apply Rmult_le_compat_l; lra).
    exists (rnd32 z). split; [apply to32_round; auto; rewrite Rabs_right by lra; lra|].
    split; [apply rnd32_nonneg; lra|].
    pose proof (rnd32_error z) as F4. rewrite (Rabs_right z) in F4 by lra. fold u e in F4. apply Rabs_le_inv in F4.
    rewrite U2, E2. 
    assert (Y : (z * (1 + u) <= (X * ((1 + u) * (1 + u)) + (2 + u) * e) * (1 + u))%R) by (apply Rmult_le_compat_r; lra).
    assert (Y0 : (e * (3 * u + u * u) <= e * 1)%R) by (apply Rmult_le_compat_l; [lra|clear - U0 U1; nra]).
    assert (Y1 : ((1 + u) * (1 + u) * (1 + u) <= 1 + 4 * u)%R) by (clear - U0 U1; nra).
    assert (Y2 : (X * ((1 + u) * (1 + u) * (1 + u)) <= X * (1 + 4 * u))%R) by (apply Rmult_le_compat_l; lra).
    lra. }
  assert (D0 : (0 <= (1 + u) * (1 + u))%R) by (clear - U0; nra).
  assert (D1 : (c * p * ((1 + u) * (1 + u)) <= X * ((1 + u) * (1 + u)))%R) by (apply Rmult_le_compat_r; lra).
  assert (D2 : (q * m * ((1 + u) * (1 + u)) <= X * ((1 + u) * (1 + u)))%R) by (apply Rmult_le_compat_r; lra).
  destruct (Rlt_bool a b); [apply (Fin _ b)|apply (Fin _ a)]; auto using mul64_word, to64_word; lra.
Qed.
