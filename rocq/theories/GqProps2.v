(** C368: the quickselect with doubles of any size, up to rounding. *)
From Coq Require Import ZArith Reals List Bool Arith Permutation Lia Lra.
From Flocq Require Import Core.Zaux Core.Raux IEEE754.Binary IEEE754.Bits.
From Verif Require Import PyBase MedModel MedSpec TruncModel TruncSpec BtModel BtSpec BtProofs3 InvModel InvProofs TfModel TfProofs GqModel GqSpec GqSpec2 GqProofs GqProofs2 GqProofs3 GqProofs5 GqProofs6 GqProofs7 GqProps.
Import ListNotations.
Open Scope R_scope.

(** Finite data and weights that are not negative, in units of the smallest positive double; a
    quantile [k] over [2 ^ 1074] in [0, 1]; at most [2 ^ 51] elements and a total below
    [2 ^ 1022].  Each element of the answer is an element of the row at which the cumulative weight
    passes the target, but for [10 n / 2 ^ 53] of the total weight (and half a unit). *)
Theorem C368_rounded_sums : forall l z q k m, Row Units l z -> nonneg z ->
  (2 <= length l)%nat -> (Z.of_nat (length l) <= 2 ^ 51)%Z -> (0 < weight_total z < 2 ^ 2096)%Z ->
  Units q k -> (0 <= k <= 2 ^ 1074)%Z ->
  let T := IZR (weight_total z) in
  exists a b, gquantile double_ops l q m = Ok a /\ answer_units Units a b /\
    forall v, In v (members b) ->
      In v (map fst z) /\
      NearQuantile z (IZR k / 2 ^ 1074 * T) (10 * INR (length l) * T / 2 ^ 53 + / 2) v.
Proof.
  intros l z q k m Hr Hn H2 Hlen HT Hq Hk T.
  destruct (row_values l z Hr Hn) as (Hg & Et & Eb & Eu).
  destruct (C364_any_arithmetic _ _ _ double_ops l q m lt64_asymmetric H2) as [_ H].
  assert (U1 : Units one64 (2 ^ 1074)) by (split; [split; vm_compute; congruence|vm_compute; reflexivity]).
  assert (E1 : of_int (Z.of_nat 1) = one64) by (vm_compute; reflexivity).
  assert (S0 : s_lt double_ops q (s_zero double_ops) || s_lt double_ops (s_nat double_ops 1) q = false).
  { cbn [s_lt double_ops s_zero s_nat]. rewrite E1. rewrite (lt64_units _ _ _ _ Hq zero_units), (lt64_units _ _ _ _ U1 Hq).
    apply orb_false_iff. split; apply Z.ltb_ge; apply Hk. }
  destruct (H S0) as (a & Ea & Da). unfold gquantile in Ea. rewrite S0 in Ea.
  assert (N : INR (length l) * eps <= / 4).
  { unfold eps. rewrite INR_IZR_INZ. apply Rmult_le_reg_r with (2 ^ 53); [apply pow2_R_pos|].
    rewrite Rmult_assoc, Rinv_l, Rmult_1_r by (apply Rgt_not_eq, pow2_R_pos).
    change 53%nat with (S (S 51)). rewrite <- (tech_pow_Rmult 2 (S 51)), <- (tech_pow_Rmult 2 51).
    rewrite (pow2_R 51). apply Rle_trans with (IZR (2 ^ 51)); [apply IZR_le; exact Hlen|].
    change (2 ^ Z.of_nat 51)%Z with (2 ^ 51)%Z. set (p := IZR (2 ^ 51)). lra. }
  assert (B : forall d, In d (elements a) ->
    below dvalue wvalue l (dvalue d) <= IZR k / unit_ * T + (10 * INR (length l) * eps * T + / 2) /\
    IZR k / unit_ * T <= upto dvalue wvalue l (dvalue d) + (10 * INR (length l) * eps * T + / 2)).
  { apply (quantile_near (length l) T N) with (q := q) (m := m); auto.
    - unfold T. apply IZR_lt. exact (proj1 HT).
    - unfold T. apply IZR_lt. exact (proj2 HT). }
  assert (V : forall d, In d (map fst l) -> Units d (dvalue d) /\ In (dvalue d) (map fst z)).
  { intros d Hd. clear - Hr Hd. unfold Row in Hr. induction Hr as [|x y l z [Hx Hw] H IH]; [contradiction|].
    destruct Hd as [<-|Hd]; [|destruct (IH Hd); split; auto; now right].
    rewrite (units_dvalue _ _ Hx). split; [exact Hx|now left]. }
  assert (Q : forall d, In d (elements a) -> In d (map fst l)).
  { intros d Hd. destruct a as [x|x y]; cbn [elements of_data] in *.
    - destruct Hd as [<-|[]]. exact Da.
    - destruct Hd as [<-|[<-|[]]]; apply Da. }
  assert (F : forall d, In d (elements a) -> In (dvalue d) (map fst z) /\
    NearQuantile z (IZR k / 2 ^ 1074 * T) (10 * INR (length l) * T / 2 ^ 53 + / 2) (dvalue d)).
  { intros d Hd. split; [apply V; auto|]. destruct (B d Hd) as [B1 B2]. rewrite Eb in B1. rewrite Eu in B2.
    unfold NearQuantile. fold unit_. unfold Rdiv at 2 4. fold eps.
    replace (10 * INR (length l) * T * eps) with (10 * INR (length l) * eps * T) by ring.
    split; [exact B1|]. clear - B2. lra. }
  exists a. unfold gquantile. rewrite S0.
  destruct a as [x|x y]; cbn [elements] in *.
  - exists (One (dvalue x)). split; [exact Ea|]. split; [apply V, Q; now left|].
    intros v [<-|[]]. apply F. now left.
  - exists (Mean (dvalue x) (dvalue y)). split; [exact Ea|].
    split; [split; apply V, Q; [now left|right; now left]|].
    intros v [<-|[<-|[]]]; apply F; [now left|right; now left].
Qed.
Print Assumptions C368_rounded_sums.

(** The row of C367, with the quantiles 1/2 (the value 3 is off by 1/2 of 2^54 + 1) and 1/4. *)
Example C368_example :
  Row Units [(one64, two53); (of_int 2, one64); (of_int 3, two53)]
    [(2 ^ 1074, 2 ^ 1127); (2 ^ 1075, 2 ^ 1074); (3 * 2 ^ 1074, 2 ^ 1127)]%Z /\
  gquantile double_ops [(one64, two53); (of_int 2, one64); (of_int 3, two53)] half64 MSplit = Ok (Mean (of_int 2) (of_int 3)) /\
  gquantile double_ops [(one64, two53); (of_int 2, one64); (of_int 3, two53)] (1021 * 2 ^ 52)%Z MSplit = Ok (One one64) /\
  (2 * weight_below [(2 ^ 1074, 2 ^ 1127); (2 ^ 1075, 2 ^ 1074); (3 * 2 ^ 1074, 2 ^ 1127)] (3 * 2 ^ 1074) =
    weight_total [(2 ^ 1074, 2 ^ 1127); (2 ^ 1075, 2 ^ 1074); (3 * 2 ^ 1074, 2 ^ 1127)] + 2 ^ 1074)%Z.
Proof.
  split; [|split; [vm_compute; reflexivity|split; vm_compute; reflexivity]].
  assert (A : forall w u, Word 64 w -> ieee_units 52 11 w = Some u -> Units w u) by (intros; now split).
  repeat (constructor; [split; cbn [fst snd]; (apply A; [split; vm_compute; congruence|vm_compute; reflexivity])|]). constructor.
Qed.
