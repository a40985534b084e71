From Coq Require Import String.
From Coq Require Import List Ascii Bool Arith ZArith QArith Qabs Lia Permutation.
From Verif Require Import PyBase PyStr MemModel MemProofs2 AttrModel GlobModel FlowProofs ProfModel ProfSpec.
Import ListNotations.
Open Scope list_scope.
Open Scope nat_scope.

(** * Names *)
Lemma digits_len : forall fuel n acc w, n < fuel -> n < 10 ^ S w -> length (digits fuel n acc) <= S w + length acc.
Proof.
  induction fuel as [|fuel IH]; intros n acc w H L; [lia|]. cbn [digits]. destruct (Nat.ltb_spec n 10) as [Q|Q]; [cbn; lia|].
  destruct w as [|w]; [cbn in L; lia|].
  assert (n / 10 < n) by (apply Nat.div_lt; lia).
  assert (n / 10 < 10 ^ S w) by (apply Nat.div_lt_upper_bound; [lia|]; exact L).
  pose proof (IH (n / 10) (ascii_of_nat (48 + n mod 10) :: acc) w ltac:(lia) ltac:(assumption)) as K. cbn [length] in K. lia.
Qed.
Definition Digit (c : ascii) : Prop := 48 <= nat_of_ascii c <= 57.
Lemma digit_of n : n < 10 -> Digit (ascii_of_nat (48 + n)).
Proof. intros H. unfold Digit. rewrite nat_ascii_embedding by lia. lia. Qed.
Lemma digits_Digit : forall fuel n acc, Forall Digit acc -> Forall Digit (digits fuel n acc).
Proof.
  induction fuel as [|fuel IH]; intros n acc H; cbn [digits]; [assumption|].
  assert (D: Forall Digit (ascii_of_nat (48 + n mod 10) :: acc)) by (constructor; auto; apply digit_of; apply Nat.mod_upper_bound; lia).
  destruct (n <? 10); auto.
Qed.
Lemma num_fold : forall s v, fold_left (fun v c => 10 * v + digit_val c) s v = v * 10 ^ length s + num_val s.
Proof.
  unfold num_val. induction s as [|c s IH]; intros v; cbn [fold_left length]; [cbn; lia|].
  rewrite (IH (10 * v + digit_val c)), (IH (10 * 0 + digit_val c)). cbn [Nat.pow]. lia.
Qed.
Lemma num_cons c s : num_val (c :: s) = digit_val c * 10 ^ length s + num_val s.
Proof. unfold num_val at 1. cbn [fold_left]. rewrite num_fold. lia. Qed.
Lemma num_lt s : Forall Digit s -> num_val s < 10 ^ length s.
Proof.
  induction 1 as [|c s D F IH]; [cbn; lia|]. rewrite num_cons. cbn [length Nat.pow]. unfold Digit in D. unfold digit_val. nia.
Qed.
Lemma num_order : forall a b, Forall Digit a -> Forall Digit b -> length a = length b -> num_val a < num_val b -> sleb a b = true /\ a <> b.
Proof.
  induction a as [|x a IH]; intros [|y b] Da Db L V; try discriminate; [cbn in V; lia|].
  inversion Da as [|? ? Dx Da']; inversion Db as [|? ? Dy Db']; subst. rewrite !num_cons in V. cbn in L. injection L as L. rewrite L in V.
  pose proof (num_lt a Da') as A. pose proof (num_lt b Db') as B. rewrite L in A. unfold Digit in *. unfold digit_val in V.
  cbn [sleb]. destruct (Nat.ltb_spec (nat_of_ascii x) (nat_of_ascii y)) as [C|C].
  - split; [reflexivity|]. intros E. inversion E; subst. lia.
  - destruct (Nat.ltb_spec (nat_of_ascii y) (nat_of_ascii x)) as [C'|C'].
    + exfalso. assert (nat_of_ascii x - 48 >= nat_of_ascii y - 48 + 1) by lia. nia.
    + assert (E: nat_of_ascii x = nat_of_ascii y) by lia. rewrite E in V. destruct (IH b Da' Db' L ltac:(lia)) as [I1 I2].
      split; auto. intros K. inversion K. contradiction.
Qed.
Lemma decimal_val n : num_val (decimal n) = n.
Proof. unfold num_val, decimal. rewrite digits_val by lia. reflexivity. Qed.
Lemma num_zeros k s : num_val (repeat (ch "0") k ++ s) = num_val s.
Proof. induction k as [|k IH]; [reflexivity|]. cbn [repeat List.app]. rewrite num_cons. change (digit_val (ch "0")) with 0. lia. Qed.
Lemma padded_val w n : num_val (padded w n) = n.
Proof. unfold padded. now rewrite num_zeros, decimal_val. Qed.
Lemma padded_Digit w n : Forall Digit (padded w n).
Proof.
  unfold padded. apply Forall_app. split.
  - apply Forall_forall. intros c H. apply repeat_spec in H. subst. unfold Digit. cbn. lia.
  - apply digits_Digit. constructor.
Qed.
Lemma padded_len w n : 0 < w -> n < 10 ^ w -> length (padded w n) = w.
Proof.
  intros W H. unfold padded. rewrite app_length, repeat_length. destruct w as [|w]; [lia|].
  pose proof (digits_len (S n) n [] w ltac:(lia) H) as K. fold (decimal n) in K. cbn [length] in K. lia.
Qed.
Lemma ilog10_ok : forall fuel n, n <= fuel -> n < 10 ^ (ilog10 fuel n + 1).
Proof.
  induction fuel as [|fuel IH]; intros n H; [assert (n = 0) by lia; subst; cbn; lia|]. cbn [ilog10]. destruct (Nat.ltb_spec n 10); [cbn; lia|].
  assert (n / 10 < n) by (apply Nat.div_lt; lia). pose proof (IH (n / 10) ltac:(lia)) as K.
  rewrite Nat.add_succ_l, Nat.pow_succ_r'. pose proof (Nat.div_mod n 10 ltac:(lia)). pose proof (Nat.mod_upper_bound n 10). lia.
Qed.
Lemma ilog10_least : forall fuel n, n <= fuel -> 0 < n -> 10 ^ ilog10 fuel n <= n.
Proof.
  induction fuel as [|fuel IH]; intros n H P; [lia|]. cbn [ilog10]. destruct (Nat.ltb_spec n 10); [cbn; lia|].
  assert (n / 10 < n) by (apply Nat.div_lt; lia). assert (0 < n / 10) by (apply Nat.div_str_pos; lia).
  pose proof (IH (n / 10) ltac:(lia) ltac:(assumption)) as K. rewrite Nat.pow_succ_r'. pose proof (Nat.div_mod n 10 ltac:(lia)). lia.
Qed.
Lemma sleb_prefix p a b : sleb (p ++ a) (p ++ b) = sleb a b.
Proof. induction p as [|c p IH]; [reflexivity|]. cbn [List.app sleb]. now rewrite Nat.ltb_irrefl. Qed.
Lemma sleb_suffix : forall a b x y, length a = length b -> sleb a b = true -> a <> b -> sleb (a ++ x) (b ++ y) = true.
Proof.
  induction a as [|c a IH]; intros [|d b] x y L H N; try discriminate; [contradiction|]. cbn [List.app sleb] in *.
  destruct (nat_of_ascii c <? nat_of_ascii d) eqn:E1; auto. destruct (nat_of_ascii d <? nat_of_ascii c) eqn:E2; auto.
  apply IH; auto. intros E. subst b. apply N. f_equal. apply Nat.ltb_ge in E1, E2.
  rewrite <- (ascii_nat_embedding c), <- (ascii_nat_embedding d). f_equal. lia.
Qed.

(** * Readings *)
Lemma subtract_get : forall a b k, map fst a = map fst b ->
  dget k (subtract a b) = match dget k a, dget k b with Some v, Some v0 => Some (v - v0)%Z | _, _ => None end.
Proof.
  unfold subtract. induction a as [|[n v] a IH]; intros [|[n' v'] b] k H; try discriminate; [reflexivity|]. cbn in H. injection H as <- H.
  cbn [combine map fst snd dget]. destruct (seqb k n); [reflexivity|]. now apply IH.
Qed.
Lemma dget_some : forall k (l : counters), In k (map fst l) -> exists v, dget k l = Some v.
Proof.
  induction l as [|[n v] l IH]; intros H; [destruct H|]. cbn [dget]. destruct (seqb k n) eqn:E; [eauto|]. destruct H as [H|H]; auto.
  cbn in H. subst. now rewrite seqb_refl in E.
Qed.
Lemma dget_none_same : forall k (a b : counters), map fst a = map fst b -> dget k a = None -> dget k b = None.
Proof.
  intros k a. induction a as [|[n v] a IH]; intros [|[n' v'] b] H K; try discriminate; auto. cbn in H. injection H as <- H.
  cbn [dget] in *. destruct (seqb k n); [discriminate|]. now apply IH.
Qed.

(** * Sums and rings of ranks *)
Lemma sends_recvs size s d i : s < size -> d < size -> i < size ->
  (nth i (sends size s) 0 = d <-> nth i (recvs size d) 0 = s).
Proof.
  intros S_ D I. unfold sends, recvs.
  rewrite (nth_indep (map _ _) 0 ((s + 0) mod size)) by now rewrite map_length, seq_length.
  rewrite (map_nth (fun i => (s + i) mod size)), seq_nth by assumption. cbn [Nat.add].
  set (f := fun i => Z.to_nat ((Z.of_nat d - Z.of_nat i) mod Z.of_nat size)).
  rewrite (nth_indep (map f _) 0 (f 0)) by now rewrite map_length, seq_length.
  rewrite map_nth, seq_nth by assumption. cbn [Nat.add]. unfold f.
  assert (A: (s + i) mod size = if s + i <? size then s + i else s + i - size).
  { destruct (Nat.ltb_spec (s + i) size); [now apply Nat.mod_small|]. replace (s + i) with (s + i - size + 1 * size) at 1 by lia.
    rewrite Nat.mod_add by lia. apply Nat.mod_small. lia. }
  assert (B: ((Z.of_nat d - Z.of_nat i) mod Z.of_nat size)%Z = if i <=? d then (Z.of_nat d - Z.of_nat i)%Z else (Z.of_nat d - Z.of_nat i + Z.of_nat size)%Z).
  { destruct (Nat.leb_spec i d); [apply Z.mod_small; lia|]. symmetry. apply (Z.mod_unique_pos _ _ (-1)); lia. }
  rewrite A, B. destruct (Nat.ltb_spec (s + i) size); destruct (Nat.leb_spec i d); lia.
Qed.
Lemma ring_perm (f : nat -> nat) size : (forall i, i < size -> f i < size) -> (forall i j, i < size -> j < size -> f i = f j -> i = j) ->
  Permutation (map f (seq 0 size)) (seq 0 size).
Proof.
  intros R J. apply NoDup_Permutation_bis.
  - assert (G: forall l, NoDup l -> (forall i, In i l -> i < size) -> NoDup (map f l)).
    { induction 1 as [|x l N _ IH]; intros H; cbn; constructor.
      - intros K. apply in_map_iff in K as (y & E & K). apply J in E; [subst; contradiction|apply H; now right|apply H; now left].
      - apply IH. intros; apply H; now right. }
    apply G; [apply seq_NoDup|]. intros i H. apply in_seq in H. lia.
  - now rewrite map_length.
  - intros x H. apply in_map_iff in H as (i & <- & H). apply in_seq in H. apply in_seq. specialize (R i). lia.
Qed.
Lemma sends_perm size s : s < size -> Permutation (sends size s) (seq 0 size).
Proof.
  intros H. apply ring_perm.
  - intros. apply Nat.mod_upper_bound. lia.
  - intros i j I J E. assert (A: forall i, i < size -> (s + i) mod size = if s + i <? size then s + i else s + i - size).
    { clear i j I J E. intros i I. destruct (Nat.ltb_spec (s + i) size); [now apply Nat.mod_small|].
      replace (s + i) with (s + i - size + 1 * size) at 1 by lia. rewrite Nat.mod_add by lia. apply Nat.mod_small. lia. }
    rewrite !A in E by assumption. destruct (Nat.ltb_spec (s + i) size); destruct (Nat.ltb_spec (s + j) size); lia.
Qed.
Lemma recvs_perm size d : d < size -> Permutation (recvs size d) (seq 0 size).
Proof.
  intros H. apply ring_perm.
  - intros i I. pose proof (Z.mod_pos_bound (Z.of_nat d - Z.of_nat i) (Z.of_nat size) ltac:(lia)). lia.
  - intros i j I J E.
    assert (B: forall i, i < size -> ((Z.of_nat d - Z.of_nat i) mod Z.of_nat size)%Z = if i <=? d then (Z.of_nat d - Z.of_nat i)%Z else (Z.of_nat d - Z.of_nat i + Z.of_nat size)%Z).
    { clear i j I J E. intros i I. destruct (Nat.leb_spec i d); [apply Z.mod_small; lia|]. symmetry. apply (Z.mod_unique_pos _ _ (-1)); lia. }
    rewrite !B in E by assumption. destruct (Nat.leb_spec i d); destruct (Nat.leb_spec j d); lia.
Qed.

(** * Waiting *)
Lemma waits_spec : forall fuel t timeout s0 arrived, (timeout - t <= Z.of_nat fuel)%Z ->
  (exists k, (t + 5 * Z.of_nat k < timeout)%Z /\ arrived (t + 5 * Z.of_nat k)%Z = true) /\ waits fuel t timeout s0 arrived = Some true \/
  (forall k, (t + 5 * Z.of_nat k < timeout)%Z -> arrived (t + 5 * Z.of_nat k)%Z = false) /\
    waits fuel t timeout s0 arrived = (if (t <? timeout)%Z then Some false else s0).
Proof.
  induction fuel as [|fuel IH]; intros t timeout s0 arrived H.
  - right. split; [intros k K; lia|]. cbn. destruct (Z.ltb_spec t timeout); [lia|reflexivity].
  - cbn [waits]. destruct (Z.ltb_spec t timeout) as [L|L].
    + destruct (arrived t) eqn:A.
      * left. split; auto. exists 0. replace (t + 5 * Z.of_nat 0)%Z with t by lia. auto.
      * destruct (IH (t + 5)%Z timeout (Some false) arrived ltac:(lia)) as [[(k & K1 & K2) E]|[N E]].
        -- left. split; auto. exists (S k). replace (t + 5 * Z.of_nat (S k))%Z with (t + 5 + 5 * Z.of_nat k)%Z by lia. auto.
        -- right. split.
           ++ intros [|k] K; [now replace (t + 5 * Z.of_nat 0)%Z with t by lia|].
              replace (t + 5 * Z.of_nat (S k))%Z with (t + 5 + 5 * Z.of_nat k)%Z in * by lia. auto.
           ++ rewrite E. destruct (t + 5 <? timeout)%Z; reflexivity.
    + right. split; [intros k K; lia|reflexivity].
Qed.

(** * Checksums *)
Lemma adler_sum : forall s a b, (0 <= a)%Z -> (a + Z.of_nat (list_sum (map nat_of_ascii s)) < 65521)%Z -> (0 <= b)%Z ->
  exists b', (0 <= b')%Z /\
    fold_left (fun '(a, b) c => let a := ((a + Z.of_nat (nat_of_ascii c)) mod 65521)%Z in (a, ((b + a) mod 65521)%Z)) s (a, b)
    = ((a + Z.of_nat (list_sum (map nat_of_ascii s)))%Z, b').
Proof.
  induction s as [|c s IH]; intros a b A S_ B.
  - exists b. split; auto. cbn. f_equal. lia.
  - assert (L: list_sum (map nat_of_ascii (c :: s)) = nat_of_ascii c + list_sum (map nat_of_ascii s)) by reflexivity.
    rewrite L in *. cbn [fold_left].
    assert (E: ((a + Z.of_nat (nat_of_ascii c)) mod 65521 = a + Z.of_nat (nat_of_ascii c))%Z) by (apply Z.mod_small; lia).
    cbv zeta. rewrite E.
    destruct (IH (a + Z.of_nat (nat_of_ascii c))%Z ((b + (a + Z.of_nat (nat_of_ascii c))) mod 65521)%Z) as (b' & B' & E'); [lia|lia|apply Z.mod_pos_bound; lia|].
    exists b'. split; auto. cbv zeta in E'. rewrite E'. f_equal. lia.
Qed.
