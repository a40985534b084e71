(** C364-C367: the quickselect with any arithmetic and with doubles. *)
From Coq Require Import ZArith Reals List Bool Arith Permutation Lia Lra.
From Flocq Require Import Core.Zaux Core.Raux IEEE754.Binary IEEE754.Bits.
From Verif Require Import PyBase MedModel MedSpec MedProofs MedProofs2 MedProofs4 QselModel TruncModel TruncSpec TruncProofs BtModel BtSpec BtProofs BtProofs2 BtProofs3 InvModel InvProofs InvProps TfModel TfProofs GqModel GqSpec GqProofs GqProofs2 GqProofs3.
Import ListNotations.
Open Scope Z_scope.

(** ** C364: with two elements or more, nothing outside is read and the loops end, whatever the
    arithmetic on weights does and for any comparison of data that is asymmetric *)
Theorem C364_any_arithmetic : forall D W S (o : ops D W S) (l : list (D * W)) q m,
  asymmetric (d_lt o) -> (2 <= length l)%nat ->
  (s_lt o q (s_zero o) || s_lt o (s_nat o 1) q = true -> gquantile o l q m = Err ValueError) /\
  (s_lt o q (s_zero o) || s_lt o (s_nat o 1) q = false -> exists a, gquantile o l q m = Ok a /\ of_data l a).
Proof.
  intros D W S o l q m Has Hl. unfold gquantile. destruct (_ || _); split; try discriminate; auto.
  intros _. now apply grow_ok.
Qed.
Print Assumptions C364_any_arithmetic.

(** Doubles: any data and weights whatsoever, infinities and NaN included. *)
Theorem C364_doubles : forall (l : list (Z * Z)) m, (2 <= length l)%nat ->
  exists a, double_median l m = Ok a /\ of_data l a.
Proof.
  intros l m Hl. destruct (C364_any_arithmetic _ _ _ double_ops l half64 m lt64_asymmetric Hl) as [_ H].
  apply H. vm_compute. reflexivity.
Qed.
Print Assumptions C364_doubles.

(** One element: exactly when the target is below the weight. *)
Theorem C364_one : forall D W S (o : ops D W S) x qs m, asymmetric (d_lt o) ->
  (exists a, gquickselect o [x] qs m = Ok a) <->
  s_eq o qs (s_add o (s_zero o) (snd x)) = false /\ s_le o qs (s_add o (s_zero o) (snd x)) = true.
Proof. intros D W S o x qs m Has. now apply gone_ok. Qed.
Print Assumptions C364_one.

(** The instance with exact sums is the model of C48-C49. *)
Theorem C364_exact_instance : forall l qs m, nonneg l -> 0 <= qs <= weight_total l ->
  (2 <= length l)%nat \/ qs < weight_total l ->
  match gquickselect exact_ops l qs m with
  | Ok a => quickselect_weight l qs m = Ok (fraction a)
  | Err x => quickselect_weight l qs m = Err x
  end.
Proof.
  intros l qs m Hn Hq Hs.
  assert (R : Forall2 (rx (@eq Z) (@eq Z)) l l) by (clear; induction l; constructor; auto; split; reflexivity).
  pose proof (quickselect_sim exact_ops (@eq Z) (@eq Z) (@eq Z) (@eq Z) (weight_total l)) as S.
  assert (G := S ltac:(now intros; subst) ltac:(now intros; subst) ltac:(now intros; subst) eq_refl
    ltac:(now intros; subst) ltac:(now intros; subst) ltac:(now intros; subst) ltac:(now intros; subst)
    l l qs qs m R Hn ltac:(lia) Hq Hs eq_refl). clear S.
  destruct (gquickselect exact_ops l qs m) as [a|x], (quickselect_weight l qs m) as [b|y]; cbn in G; try contradiction.
  - f_equal. symmetry. now apply arel_fraction.
  - now subst.
Qed.
Print Assumptions C364_exact_instance.

Definition inf64 : Z := 2047 * 2 ^ 52.
Definition nan64 : Z := 2047 * 2 ^ 52 + 2 ^ 51.
Definition two53 : Z := of_int (2 ^ 53).

(** The value 2 with weight NaN, the value NaN with weight 1, the value 1 with an infinite weight. *)
Example C364_example :
  double_median [(of_int 2, nan64); (nan64, one64); (one64, inf64)] MSplit = Ok (One (of_int 2)) /\
  double_median [(of_int 2, one64); (nan64, one64); (one64, one64)] MSplit = Ok (One one64) /\
  double_median [(of_int 3, one64); (of_int 2, of_int 2); (one64, one64)] MSplit = Ok (One (of_int 2)).
Proof. repeat split; vm_compute; reflexivity. Qed.

(** ** C365: one element reads outside the array for weights that are not finite, and, for other
    quantiles than one half, for tiny ones *)
Theorem C365_one_element_refuted : exists d, Units d (2 ^ 1074) /\
  double_median [(d, inf64)] MSplit = Err IndexError /\
  double_median [(d, nan64)] MSplit = Err IndexError /\
  gquantile double_ops [(d, 1)] (1022 * 2 ^ 52 + 2 ^ 51) MSplit = Err IndexError.
Proof.
  exists one64. split; [split; [split; vm_compute; congruence|vm_compute; reflexivity]|].
  repeat split; vm_compute; reflexivity.
Qed.
Print Assumptions C365_one_element_refuted.

(** ** C366: sums of weights that are multiples of one power of two are exact *)
Lemma median_of_weights : forall e (o : ops Z Z Z) weight l z m,
  -1073 <= e <= 900 -> l <> [] -> Row weight l z -> weight_total z <= 2 ^ 53 -> Z.of_nat (length l) <= 2 ^ 53 ->
  (forall w n, weight w n -> 0 <= n) ->
  d_lt o = lt64 -> s_zero o = 0 -> s_sub o = sub64 -> s_eq o = eq64 -> s_le o = le64 -> s_mul o = mul64 ->
  s_lt o = lt64 -> s_nat o = (fun n => of_int (Z.of_nat n)) ->
  (forall w n, weight w n -> w_pos o w = (0 <? n)) -> (forall w n, weight w n -> w_zero o w = (n =? 0)) ->
  (forall s z w n, RL e s z -> weight w n -> RL e (s_add o s w) (z + 2 * n)) ->
  w_pos o (w_one o) = true -> w_zero o (w_one o) = false ->
  (forall s z, RL 0 s z -> RL 0 (s_add o s (w_one o)) (z + 2)) ->
  exists a, gquantile o l half64 m = Ok a /\ IsMedian z m a.
Proof.
  intros e o weight l z m He Hne Hr Hw Hlen Hpos H1 H2 H3 H4 H5 H7 H8 H9 Hwp Hwz Hadd Hp1 Hz1 Hadd1.
  unfold gquantile. rewrite H8, H2, H9. change (lt64 half64 0 || lt64 (of_int (Z.of_nat 1)) half64) with false. cbv iota.
  pose proof (row_nonneg weight Hpos _ _ Hr) as Hn.
  destruct (Z.eq_dec (weight_total z) 0) as [E0|E0].
  - (* no weight at all *)
    assert (HT : RL e (fold_left (s_add o) (map snd l) (s_zero o)) (2 * (0 + weight_total z))).
    { apply (total_exact e o weight Hadd); [exact Hr|]. rewrite H2. split; [lia|]. intros _. exists 0. split; [lia|]. apply zero_multiple. }
    unfold grow, gtotal. set (wt := fold_left (s_add o) (map snd l) (s_zero o)) in *. clearbody wt.
    rewrite Z.add_0_l, E0 in HT. destruct HT as [_ HT]. destruct HT as (n & En & M); [lia|]. assert (n = 0) by lia. subst n.
    rewrite H4, H2. destruct (compare_multiples e wt 0 0 0 M (zero_multiple e)) as (Eq & _). rewrite Eq. cbn [Z.eqb].
    assert (Hll : length l = length z) by (clear - Hr; induction Hr; cbn; auto).
    set (ones := fun x : Z * Z => (fst x, w_one o)).
    set (z1 := map (fun x : Z * Z => (fst x, 1)) z).
    assert (Ht1 : weight_total z1 = Z.of_nat (length l)).
    { rewrite Hll. unfold z1. apply weight_total_ones. }
    assert (Hr1 : Row (fun w n => w = w_one o /\ n = 1) (map ones l) z1).
    { unfold z1, Row, ones. clear - Hr. unfold Row in Hr. induction Hr as [|x y l z [Hx Hw] H IH]; cbn; constructor; auto. }
    assert (K1 : forall w n, w = w_one o /\ n = 1 -> 0 <= n) by (intros w n [-> ->]; lia).
    assert (K2 : forall w n, w = w_one o /\ n = 1 -> w_pos o w = (0 <? n)) by (intros w n [-> ->]; exact Hp1).
    assert (K3 : forall w n, w = w_one o /\ n = 1 -> w_zero o w = (n =? 0)) by (intros w n [-> ->]; exact Hz1).
    assert (K4 : forall s z w n, RL 0 s z -> w = w_one o /\ n = 1 -> RL 0 (s_add o s w) (z + 2 * n))
      by (intros s k w n Hs [-> ->]; now apply Hadd1).
    assert (K5 : map ones l <> []) by (destruct l; [congruence|discriminate]).
    assert (K6 : 0 < weight_total z1 <= 2 ^ 53) by (rewrite Ht1; split; [destruct l; [congruence|cbn [length]; lia]|exact Hlen]).
    assert (K7 : RQ 0 (mul64 (of_int (Z.of_nat (length l))) half64) (weight_total z1)).
    { rewrite Ht1. apply half_target; [lia| |exact Hlen]. split; [apply of_int_word|]. split; [lia|].
      cbn [bpow]. rewrite Rmult_1_r. apply of_int_exact. lia. }
    destruct (quickselect_exact 0 ltac:(lia) o (fun w n => w = w_one o /\ n = 1) K1 H1 H2 H3 H4 H5 K2 K3 K4
      (map ones l) z1 _ m Hr1 K5 K6 K7) as (a & b & E1 & E2 & E3).
    { rewrite H9, H7. exists a. split; [exact E1|]. exists b. split; [exact E2|].
      assert (Hz : z1 <> []) by (intro K; rewrite K in Ht1; cbn in Ht1; destruct l; [congruence|cbn [length] in Ht1; lia]).
      assert (Hn1 : nonneg z1).
      { unfold nonneg, z1. apply Forall_forall. intros x Hx. apply in_map_iff in Hx as (y & <- & _). cbn. lia. }
      pose proof (quantile_ok z1 1 2 m Hz Hn1 ltac:(lia) ltac:(lia)) as Q.
      change (1 =? 2) with false in Q. rewrite andb_false_r in Q.
      cbv iota in Q. destruct Q as (ans & Q1 & Q2). specialize (Q2 ltac:(left; lia)).
      unfold quantile in Q1. change ((1 <? 0) || (2 <? 1)) with false in Q1. cbv iota in Q1.
      rewrite row_weights_effective, fold_weights, Z.add_0_l, Z.mul_1_r in Q1.
      assert (Ee : effective z1 = z1).
      { unfold effective. destruct (Z.eqb_spec (weight_total z1) 0) as [K|K]; [|reflexivity].
        unfold z1. rewrite map_map. reflexivity. }
      assert (Ez : effective z = z1) by (unfold effective, z1; rewrite E0; reflexivity).
      rewrite Ee in *. change (map (fun x : Z * Z => (fst x, 2 * snd x)) z1) with (scale 2 z1) in Q1.
      rewrite E3 in Q1. injection Q1 as <-. rewrite Z.mul_1_l in Q2. rewrite Ez. exact Q2. }
  - assert (P : 0 < weight_total z).
    { pose proof (sum_weights_bounds (fun _ => true) z Hn) as B. fold (weight_total z) in B. lia. }
    apply (row_exact e ltac:(lia) o weight); auto.
Qed.

Theorem C366_exact_weights : forall e l z m, -1073 <= e <= 900 -> l <> [] ->
  Row (Multiple e) l z -> weight_total z <= 2 ^ 53 -> Z.of_nat (length l) <= 2 ^ 53 ->
  exists a, double_median l m = Ok a /\ IsMedian z m a.
Proof.
  intros e l z m He Hne Hr Hw Hlen.
  apply (median_of_weights e double_ops (Multiple e)); auto.
  - intros w n (_ & H & _). exact H.
  - intros w n H. exact (proj2 (proj2 (compare_multiples e 0 0 w n (zero_multiple e) H))).
  - intros w n H. exact (proj1 (compare_multiples e w n 0 0 H (zero_multiple e))).
  - intros s k w n Hs Hk. apply RL_add; auto. apply Hk.
  - intros s k Hs. apply (RL_add 0 ltac:(lia) s k one64 1); [exact Hs|lia|]. intros _.
    destruct one64_value as [W V]. split; [exact W|]. split; [lia|]. cbn [bpow]. now rewrite Rmult_1_r.
Qed.
Print Assumptions C366_exact_weights.

(** Integer weights (also counts and masks): sums up to 2^53 are exact. *)
Theorem C366_integer_weights : forall l z m, l <> [] ->
  Row (fun w n => w = n /\ 0 <= n) l z -> weight_total z <= 2 ^ 53 -> Z.of_nat (length l) <= 2 ^ 53 ->
  exists a, int_weight_median l m = Ok a /\ IsMedian z m a.
Proof.
  intros l z m Hne Hr Hw Hlen.
  assert (Hi : forall n, 0 <= n -> n <= 2 ^ 53 -> Multiple 0 (of_int n) n).
  { intros n H H'. split; [apply of_int_word|]. split; [exact H|]. cbn [bpow]. rewrite Rmult_1_r. apply of_int_exact. lia. }
  apply (median_of_weights 0 (int_weights lt64) (fun w n => w = n /\ 0 <= n)); try reflexivity; try assumption.
  - lia.
  - intros w n H. apply H.
  - intros w n H. now rewrite (proj1 H).
  - intros w n H. now rewrite (proj1 H).
  - intros s k w n Hs [-> Hk]. apply RL_add; [lia|exact Hs|exact Hk|]. intro L. now apply Hi.
  - intros s k Hs. apply (RL_add 0 ltac:(lia) s k (of_int 1) 1); [exact Hs|lia|]. intros _. apply Hi; lia.
Qed.
Print Assumptions C366_integer_weights.

(** Weights 3/4, 1/4 and 1/2: half of the weight ends with the value 1. *)
Example C366_example :
  double_median [(of_int 2, half64); (of_int 3, 1021 * 2 ^ 52); (one64, 1022 * 2 ^ 52 + 2 ^ 51)] MSplit = Ok (Mean one64 (of_int 2)) /\
  int_weight_median [(of_int 2, 2); (of_int 3, 1); (one64, 3)] MSplit = Ok (Mean one64 (of_int 2)) /\
  int_weight_median [(of_int 2, 0); (of_int 3, 0)] MLower = Ok (One (of_int 2)) /\
  Row (Multiple (-2)) [(one64, 1022 * 2 ^ 52 + 2 ^ 51)] [(2 ^ 1074, 3)].
Proof.
  split; [vm_compute; reflexivity|]. split; [vm_compute; reflexivity|]. split; [vm_compute; reflexivity|].
  constructor; [|constructor]. cbn [fst snd]. split; [split; [split; vm_compute; congruence|vm_compute; reflexivity]|].
  split; [split; vm_compute; congruence|]. split; [lia|]. exists (3 * 2 ^ 1072). split; [vm_compute; reflexivity|].
  rewrite mult_IZR. change (2 ^ 1072) with (2 ^ Z.of_nat 1072). rewrite <- pow2_R.
  change (bpow radix2 (-2)) with (/ 4)%R. change 1074%nat with (S (S 1072)). rewrite <- (tech_pow_Rmult 2 (S 1072)), <- (tech_pow_Rmult 2 1072). set (p := (2 ^ 1072)%R).
  assert (P : p <> 0%R) by apply Rgt_not_eq, pow2_R_pos. clearbody p. field. exact P.
Qed.

(** ** C367: beyond that the answer can be another one *)
Lemma units_fun : forall w u v, Units w u -> Units w v -> u = v.
Proof. intros w u v [_ A] [_ B]. congruence. Qed.

Lemma not_median : forall b, 0 < b ->
  ~ median_answer (effective [(b, 2 ^ 53); (2 * b, 1); (3 * b, 2 ^ 53)]) MSplit (fraction (Mean (2 * b) (3 * b))).
Proof.
  intros b Hb H. change (effective [(b, 2 ^ 53); (2 * b, 1); (3 * b, 2 ^ 53)]) with [(b, 2 ^ 53); (2 * b, 1); (3 * b, 2 ^ 53)] in H.
  unfold median_answer, quantile_answer, fraction in H.
  destruct H as [_ (lo & hi & [Hlo _] & [Hhi _] & E)].
  change (weight_total [(b, 2 ^ 53); (2 * b, 1); (3 * b, 2 ^ 53)]) with (2 ^ 54 + 1) in *.
  assert (G : forall v, quantile_value [(b, 2 ^ 53); (2 * b, 1); (3 * b, 2 ^ 53)] (2 ^ 54 + 1) 2 v -> v = 2 * b).
  { intros v ((w & Hin & _) & B1 & B2). unfold weight_below, weight_upto in *. cbn [sum_weights fst snd] in B1, B2.
    destruct Hin as [K|[K|[K|[]]]]; apply (f_equal fst) in K; cbn [fst] in K; subst v; [exfalso; revert B1 B2|reflexivity|exfalso; revert B1 B2].
    - destruct (Z.leb_spec b b); [|lia]. destruct (Z.leb_spec (2 * b) b); [lia|]. destruct (Z.leb_spec (3 * b) b); [lia|]. intros _. lia.
    - destruct (Z.ltb_spec b (3 * b)); [|lia]. destruct (Z.ltb_spec (2 * b) (3 * b)); [|lia]. destruct (Z.ltb_spec (3 * b) (3 * b)); [lia|]. intros B1 _. lia. }
  pose proof (G lo Hlo). pose proof (G hi Hhi). subst lo hi. lia.
Qed.

Lemma int_multiple : forall n, 0 <= n <= 2 ^ 53 -> Multiple 0 (of_int n) n.
Proof. intros n H. split; [apply of_int_word|]. split; [lia|]. cbn [bpow]. rewrite Rmult_1_r. apply of_int_exact. lia. Qed.

(** The values 1, 2 and 3 with the weights 2^53, 1 and 2^53: the value 2 is the median, the code
    answers 5/2 (for doubles and for integers). *)
Theorem C367_rounded_sums_refuted : exists l li z a,
  Row (Multiple 0) l z /\ Row (fun w n => w = n /\ 0 <= n) li z /\
  double_median l MSplit = Ok a /\ int_weight_median li MSplit = Ok a /\ ~ IsMedian z MSplit a.
Proof.
  exists [(one64, two53); (of_int 2, one64); (of_int 3, two53)], [(one64, 2 ^ 53); (of_int 2, 1); (of_int 3, 2 ^ 53)],
    [(2 ^ 1074, 2 ^ 53); (2 * 2 ^ 1074, 1); (3 * 2 ^ 1074, 2 ^ 53)], (Mean (of_int 2) (of_int 3)).
  assert (U1 : Units one64 (2 ^ 1074)) by (split; [split; vm_compute; congruence|vm_compute; reflexivity]).
  assert (U2 : Units (of_int 2) (2 * 2 ^ 1074)) by (split; [apply of_int_word|vm_compute; reflexivity]).
  assert (U3 : Units (of_int 3) (3 * 2 ^ 1074)) by (split; [apply of_int_word|vm_compute; reflexivity]).
  assert (W1 : Multiple 0 one64 1).
  { destruct one64_value as [W V]. split; [exact W|]. split; [lia|]. cbn [bpow]. now rewrite Rmult_1_r. }
  assert (W2 : Multiple 0 two53 (2 ^ 53)) by (apply int_multiple; lia).
  split; [repeat (constructor; [split; assumption|]); constructor|].
  split.
  { constructor; [split; [exact U1|split; [reflexivity|vm_compute; discriminate]]|].
    constructor; [split; [exact U2|split; [reflexivity|vm_compute; discriminate]]|].
    constructor; [split; [exact U3|split; [reflexivity|vm_compute; discriminate]]|constructor]. }
  split; [vm_compute; reflexivity|]. split; [vm_compute; reflexivity|].
  intros (b & Hb & Hm). destruct b as [u|u v]; [contradiction|]. destruct Hb as [Hu Hv].
  pose proof (units_fun _ _ _ Hu U2). pose proof (units_fun _ _ _ Hv U3). subst u v.
  revert Hm. apply not_median. reflexivity.
Qed.
Print Assumptions C367_rounded_sums_refuted.
