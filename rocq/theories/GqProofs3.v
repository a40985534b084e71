(** Proofs about the quickselect with doubles. *)
From Coq Require Import ZArith Reals List Bool Arith Permutation Lia Lra.
From Flocq Require Import Core IEEE754.BinarySingleNaN IEEE754.Binary IEEE754.Bits.
From Verif Require Import PyBase MedModel MedSpec MedProofs MedProofs2 MedProofs3 MedProofs4 QselModel QselProofs QselProofs2 TruncModel TruncSpec TruncProofs BtModel BtSpec BtProofs BtProofs2 BtProofs3 BtProofs4 BtProofs5 InvModel InvSpec InvProofs InvProps TfModel TfProofs GqModel GqSpec GqProofs GqProofs2.
Import ListNotations.
Open Scope Z_scope.

Local Instance q53 : Prec_gt_0 53 := eq_refl.

(** *** Comparisons *)
Lemma lt64_asymmetric : asymmetric lt64.
Proof.
  intros x y H. unfold lt64, b64_compare in *. rewrite Bcompare_swap.
  destruct (Bcompare 53 1024 (f64 x) (f64 y)) as [[]|]; cbn; congruence.
Qed.
Lemma eq64_value : forall a b x y, Word 64 a -> Word 64 b -> IsDouble a x -> IsDouble b y -> eq64 a b = Req_bool x y.
Proof.
  intros a b x y Wa Wb Ha Hb.
  destruct (IsDouble_B2R a x Wa Ha) as [Fa Ra]. destruct (IsDouble_B2R b y Wb Hb) as [Fb Rb].
  unfold eq64, b64_compare. rewrite Bcompare_correct by assumption. rewrite Ra, Rb.
  destruct (Rcompare_spec x y); [rewrite Req_bool_false by lra|rewrite Req_bool_true by lra|rewrite Req_bool_false by lra]; reflexivity.
Qed.
Lemma le64_value : forall a b x y, Word 64 a -> Word 64 b -> IsDouble a x -> IsDouble b y -> le64 a b = Rle_bool x y.
Proof.
  intros a b x y Wa Wb Ha Hb.
  destruct (IsDouble_B2R a x Wa Ha) as [Fa Ra]. destruct (IsDouble_B2R b y Wb Hb) as [Fb Rb].
  unfold le64, b64_compare. rewrite Bcompare_correct by assumption. rewrite Ra, Rb.
  destruct (Rcompare_spec x y); [rewrite Rle_bool_true by lra|rewrite Rle_bool_true by lra|rewrite Rle_bool_false by lra]; reflexivity.
Qed.
Lemma units_double : forall w u, Units w u -> Word 64 w /\ IsDouble w (IZR u / 2 ^ 1074).
Proof. intros w u [W H]. split; [exact W|]. now exists u. Qed.
Lemma lt64_units : forall a u b v, Units a u -> Units b v -> lt64 a b = (u <? v).
Proof.
  intros a u b v Ha Hb. destruct (units_double _ _ Ha) as [Wa Va]. destruct (units_double _ _ Hb) as [Wb Vb].
  rewrite (lt64_value a b _ _ Wa Wb Va Vb). pose proof (pow2_R_pos 1074) as P.
  assert (P' : (0 < / 2 ^ 1074)%R) by (apply Rinv_0_lt_compat; exact P). unfold Rdiv. generalize dependent (/ 2 ^ 1074)%R. intros r Hr.
  destruct (Z.ltb_spec u v) as [H|H].
  - apply Rlt_bool_true. apply Rmult_lt_compat_r; [exact Hr|]. now apply IZR_lt.
  - apply Rlt_bool_false. apply Rmult_le_compat_r; [lra|]. now apply IZR_le.
Qed.
Lemma zero_multiple : forall e, Multiple e 0 0.
Proof.
  intro e. split; [split; vm_compute; congruence|]. split; [lia|]. exists 0. split; [reflexivity|].
  unfold Rdiv. now rewrite !Rmult_0_l.
Qed.

(** *** Multiples of a power of two that are doubles *)
Lemma multiple_format : forall n e, -1074 <= e -> 0 <= n <= 2 ^ 53 ->
  rnd64 (IZR n * bpow radix2 e) = (IZR n * bpow radix2 e)%R.
Proof.
  intros n e He Hn. apply round_generic; [auto with typeclass_instances|]. apply generic_format_FLT.
  destruct (Z.eq_dec n (2 ^ 53)) as [->|K].
  - apply FLT_spec with (Float radix2 (2 ^ 52) (e + 1)); unfold F2R; cbn [Fnum Fexp].
    + rewrite bpow_plus. change (bpow radix2 1) with 2%R. change (2 ^ 53) with (2 ^ 52 * 2). rewrite mult_IZR. ring.
    + reflexivity.
    + lia.
  - apply FLT_spec with (Float radix2 n e); unfold F2R; cbn [Fnum Fexp]; [reflexivity| |lia].
    change (Zpower radix2 53) with (2 ^ 53). lia.
Qed.
Lemma multiple_small : forall n e, e <= 900 -> 0 <= n <= 2 ^ 54 -> (Rabs (IZR n * bpow radix2 e) < 2 ^ 1023)%R.
Proof.
  intros n e He Hn. rewrite Rabs_pos_eq by (apply Rmult_le_pos; [apply IZR_le; lia|apply bpow_ge_0]).
  apply Rle_lt_trans with (bpow radix2 54 * bpow radix2 900)%R.
  - apply Rmult_le_compat; [apply IZR_le; lia|apply bpow_ge_0| |now apply bpow_le].
    change (bpow radix2 54) with (IZR (2 ^ 54)). apply IZR_le. lia.
  - rewrite <- bpow_plus. rewrite <- bpow_nat. apply bpow_lt. reflexivity.
Qed.
Lemma half_multiple : forall n e, (IZR (2 * n) * bpow radix2 (e - 1) = IZR n * bpow radix2 e)%R.
Proof.
  intros n e. rewrite mult_IZR. replace e with (1 + (e - 1)) at 2 by ring. rewrite bpow_plus.
  change (bpow radix2 1) with 2%R. ring.
Qed.
Lemma half64_value : Word 64 half64 /\ IsDouble half64 (/ 2).
Proof.
  split; [split; vm_compute; congruence|]. exists (2 ^ 1073). split; [vm_compute; reflexivity|].
  change (2 ^ 1073) with (2 ^ Z.of_nat 1073). rewrite <- pow2_R. change 1074%nat with (Datatypes.S 1073). rewrite <- tech_pow_Rmult.
  field.
Qed.

Section Exact.
Context (e : Z) (He : -1073 <= e <= 900).

(** twice a sum of weights; the target *)
Definition RL (s z : Z) : Prop := 0 <= z /\ (z <= 2 ^ 54 -> exists n, z = 2 * n /\ Multiple e s n).
Definition RQ (s z : Z) : Prop := z <= 2 ^ 53 /\ Multiple (e - 1) s z.

Lemma RL_double : forall s z, RL s z -> z <= 2 ^ 54 -> Multiple (e - 1) s z.
Proof.
  intros s z [P H] L. destruct (H L) as (n & -> & W & Hn & V). split; [exact W|]. split; [lia|]. now rewrite half_multiple.
Qed.
Lemma compare_multiples : forall k s z s' z', Multiple k s z -> Multiple k s' z' ->
  eq64 s s' = (z =? z') /\ le64 s s' = (z <=? z') /\ lt64 s s' = (z <? z').
Proof.
  intros k s z s' z' (W & P & V) (W' & P' & V').
  rewrite (eq64_value _ _ _ _ W W' V V'), (le64_value _ _ _ _ W W' V V'), (lt64_value _ _ _ _ W W' V V').
  pose proof (bpow_gt_0 radix2 k) as B. set (b := bpow radix2 k) in *. clearbody b.
  split; [|split].
  - destruct (Z.eqb_spec z z') as [->|N]; [now apply Req_bool_true|]. apply Req_bool_false. intro H.
    apply N. apply eq_IZR. apply Rmult_eq_reg_r with b; [exact H|lra].
  - destruct (Z.leb_spec z z') as [H|H].
    + apply Rle_bool_true. apply Rmult_le_compat_r; [lra|now apply IZR_le].
    + apply Rle_bool_false. apply Rmult_lt_compat_r; [lra|now apply IZR_lt].
  - destruct (Z.ltb_spec z z') as [H|H].
    + apply Rlt_bool_true. apply Rmult_lt_compat_r; [lra|now apply IZR_lt].
    + apply Rlt_bool_false. apply Rmult_le_compat_r; [lra|now apply IZR_le].
Qed.
Lemma add_multiples : forall s z w n, Multiple e s z -> Multiple e w n -> z + n <= 2 ^ 53 -> Multiple e (add64 s w) (z + n).
Proof.
  intros s z w n (W & P & V) (W' & P' & V') L. split; [apply w64_f64|]. split; [lia|].
  assert (E : (IZR z * bpow radix2 e + IZR n * bpow radix2 e = IZR (z + n) * bpow radix2 e)%R) by (rewrite plus_IZR; ring).
  rewrite <- (multiple_format (z + n) e) by lia. rewrite <- E. apply add64_round; auto. rewrite E. apply multiple_small; lia.
Qed.
Lemma RL_add : forall s z w n, RL s z -> 0 <= n -> (n <= 2 ^ 53 -> Multiple e w n) -> RL (add64 s w) (z + 2 * n).
Proof.
  intros s z w n [P H] Pn Hw. split; [lia|]. intro L. destruct H as (k & -> & M); [lia|]. exists (k + n).
  split; [lia|]. apply add_multiples; [exact M|apply Hw; lia|lia].
Qed.
Lemma RQ_sub : forall s z s' z', RQ s z -> RL s' z' -> 0 <= z' <= 2 ^ 54 -> z' < z -> RQ (sub64 s s') (z - z').
Proof.
  intros s z s' z' [L (W & P & V)] H B Lt. destruct (RL_double _ _ H) as (W' & P' & V'); [lia|].
  split; [lia|]. split; [apply w64_f64|]. split; [lia|].
  assert (E : (IZR z * bpow radix2 (e - 1) - IZR z' * bpow radix2 (e - 1) = IZR (z - z') * bpow radix2 (e - 1))%R)
    by (rewrite minus_IZR; ring).
  rewrite <- (multiple_format (z - z') (e - 1)) by lia. rewrite <- E. apply sub64_round; auto.
  rewrite E. apply multiple_small; lia.
Qed.
Lemma half_target : forall s n, Multiple e s n -> n <= 2 ^ 53 -> RQ (mul64 s half64) n.
Proof.
  intros s n (W & P & V) L. split; [exact L|]. split; [apply w64_f64|]. split; [lia|].
  destruct half64_value as [Wh Vh].
  assert (E : (IZR n * bpow radix2 e * / 2 = IZR n * bpow radix2 (e - 1))%R).
  { replace e with (1 + (e - 1)) at 1 by ring. rewrite bpow_plus. change (bpow radix2 1) with 2%R. field. }
  rewrite <- (multiple_format n (e - 1)) by lia. rewrite <- E. apply mul64_round; auto. rewrite E. apply multiple_small; lia.
Qed.

(** Any kind of weight that turns into multiples of [2 ^ e] *)
Context (o : ops Z Z Z) (weight : Z -> Z -> Prop).
Context (Hpos : forall w n, weight w n -> 0 <= n).
Context (H1 : d_lt o = lt64) (H2 : s_zero o = 0) (H3 : s_sub o = sub64) (H4 : s_eq o = eq64) (H5 : s_le o = le64).
Context (H7 : s_mul o = mul64).
Context (Hwp : forall w n, weight w n -> w_pos o w = (0 <? n)) (Hwz : forall w n, weight w n -> w_zero o w = (n =? 0)).
Context (Hadd : forall s z w n, RL s z -> weight w n -> RL (s_add o s w) (z + 2 * n)).

Definition double_weight (w z : Z) : Prop := exists n, z = 2 * n /\ weight w n.

Lemma row_scale : forall l z, Row weight l z ->
  Forall2 (rx Units double_weight) l (scale 2 z).
Proof.
  intros l z H. unfold Row in H. induction H as [|x y l z [Hx Hw] H IH]; cbn; constructor; auto.
  split; [exact Hx|]. exists (snd y). auto.
Qed.
Lemma row_nonneg : forall l z, Row weight l z -> nonneg z.
Proof. intros l z H. induction H as [|x y l z [Hx Hw] H IH]; constructor; eauto. Qed.

Lemma quickselect_exact : forall l z qs m, Row weight l z -> l <> [] -> 0 < weight_total z <= 2 ^ 53 ->
  RQ qs (weight_total z) ->
  exists a b, gquickselect o l qs m = Ok a /\ answer_units Units a b /\
    quickselect_weight (scale 2 z) (weight_total z) m = Ok (fraction b).
Proof.
  intros l z qs m Hr Hne Hw Hq.
  pose proof (row_nonneg _ _ Hr) as Hn.
  assert (Ht : weight_total (scale 2 z) = 2 * weight_total z) by apply sum_weights_scale.
  assert (Sn : nonneg (scale 2 z)).
  { unfold nonneg, scale in *. apply Forall_forall. intros x Hx. apply in_map_iff in Hx as (y & <- & Hy).
    rewrite Forall_forall in Hn. specialize (Hn y Hy). cbn [snd fst]. cbn beta in Hn. lia. }
  pose proof (quickselect_sim o Units double_weight RL RQ (2 ^ 54)) as S.
  specialize (S ltac:(intros; rewrite H1; now apply lt64_units)).
  specialize (S ltac:(intros w k (n & -> & Hk); rewrite (Hwp _ _ Hk); destruct (Z.ltb_spec 0 n), (Z.ltb_spec 0 (2 * n)); lia)).
  specialize (S ltac:(intros w k (n & -> & Hk); rewrite (Hwz _ _ Hk); destruct (Z.eqb_spec n 0), (Z.eqb_spec (2 * n) 0); lia)).
  assert (S0 : RL (s_zero o) 0).
  { rewrite H2. split; [lia|]. intros _. exists 0. split; [lia|]. apply zero_multiple. }
  specialize (S S0).
  specialize (S ltac:(intros s k w n A (n' & -> & Hk); now apply Hadd)).
  specialize (S ltac:(intros s k s' k' [A A'] A2 A3; rewrite H4; apply (compare_multiples (e - 1)); [exact A'|apply RL_double; [exact A2|lia]])).
  specialize (S ltac:(intros s k s' k' [A A'] A2 A3; rewrite H5; apply (compare_multiples (e - 1)); [exact A'|apply RL_double; [exact A2|lia]])).
  specialize (S ltac:(intros; rewrite H3; now apply RQ_sub)).
  specialize (S l (scale 2 z) qs (weight_total z) m (row_scale _ _ Hr) Sn ltac:(lia) ltac:(lia) ltac:(right; lia) Hq).
  assert (L : exists ans, quickselect_weight (scale 2 z) (weight_total z) m = Ok ans).
  { destruct z as [|x [|y z]].
    - cbn in Hw. lia.
    - rewrite weight_total_cons, weight_total_nil, Z.add_0_r in *.
      unfold scale. cbn [map]. rewrite quickselect_one by lia.
      destruct (Z.eqb_spec (snd x) (2 * snd x)); [lia|]. eexists. reflexivity.
    - destruct (quickselect_ok (scale 2 (x :: y :: z)) (weight_total (x :: y :: z)) m) as (ans & E & _); auto; try lia.
      + unfold scale. rewrite map_length. cbn [length]. apply le_n_S, le_n_S, Nat.le_0_l.
      + exists ans. exact E. }
  destruct L as [ans L]. rewrite L in *.
  destruct (gquickselect o l qs m) as [a|]; [|contradiction]. cbn in S. destruct S as (b & Hb & <-).
  exists a, b. auto.
Qed.

Lemma total_exact : forall l z s t, Row weight l z -> RL s (2 * t) -> RL (fold_left (s_add o) (map snd l) s) (2 * (t + weight_total z)).
Proof.
  intros l z s t H. revert s t. induction H as [|x y l z [Hx Hw] H IH]; intros s t Hs.
  - cbn [map fold_left]. replace (weight_total _) with 0 by reflexivity. now rewrite Z.add_0_r.
  - cbn [map fold_left]. rewrite weight_total_cons. replace (2 * (t + (snd y + weight_total z))) with (2 * ((t + snd y) + weight_total z)) by ring.
    apply IH. replace (2 * (t + snd y)) with (2 * t + 2 * snd y) by ring. now apply Hadd.
Qed.

Lemma row_exact : forall l z m, Row weight l z -> l <> [] -> 0 < weight_total z <= 2 ^ 53 ->
  exists a, grow o l half64 m = Ok a /\ IsMedian z m a.
Proof.
  intros l z m Hr Hne Hw. unfold grow, gtotal.
  assert (HT : RL (fold_left (s_add o) (map snd l) (s_zero o)) (2 * (0 + weight_total z))).
  { apply total_exact; [exact Hr|]. rewrite H2. split; [lia|]. intros _. exists 0. split; [lia|]. apply zero_multiple. }
  rewrite Z.add_0_l in HT. set (wt := fold_left (s_add o) (map snd l) (s_zero o)) in *. clearbody wt.
  destruct HT as [_ HT]. destruct HT as (n & En & M); [lia|]. assert (n = weight_total z) by lia. subst n.
  rewrite H4, H2, H7. destruct (compare_multiples e wt _ 0 0 M (zero_multiple e)) as (Eq & _). rewrite Eq.
  destruct (Z.eqb_spec (weight_total z) 0); [lia|].
  destruct (quickselect_exact l z (mul64 wt half64) m Hr Hne Hw) as (a & b & E1 & E2 & E3); [apply half_target; [exact M|lia]|].
  exists a. split; [exact E1|]. exists b. split; [exact E2|].
  assert (Hz : z <> []) by (intros ->; cbn in Hw; lia).
  pose proof (quantile_ok z 1 2 m Hz (row_nonneg _ _ Hr) ltac:(lia) ltac:(lia)) as Q.
  replace ((length z =? 1)%nat && (1 =? 2))%bool with false in Q by (now rewrite andb_false_r).
  destruct Q as (ans & Q1 & Q2). specialize (Q2 ltac:(left; lia)).
  unfold quantile in Q1. cbn [Z.ltb Z.compare orb] in Q1. change ((1 <? 0) || (2 <? 1)) with false in Q1. cbv iota in Q1.
  rewrite row_weights_effective, fold_weights, Z.add_0_l, Z.mul_1_r in Q1.
  assert (Ee : effective z = z) by (unfold effective; destruct (Z.eqb_spec (weight_total z) 0); [lia|reflexivity]).
  rewrite Ee in *. change (map (fun x : Z * Z => (fst x, 2 * snd x)) z) with (scale 2 z) in Q1.
  rewrite E3 in Q1. injection Q1 as <-. rewrite Z.mul_1_l in Q2. exact Q2.
Qed.
End Exact.
