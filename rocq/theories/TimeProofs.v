(** Proofs about times. *)
From Coq Require Import List Ascii Bool ZArith QArith Lia.
From Verif Require Import PyBase PyStr TimeModel.
Import ListNotations.
Open Scope list_scope.
Open Scope Z_scope.

(** * The calendar *)
Definition months := [1; 2; 3; 4; 5; 6; 7; 8; 9; 10; 11; 12].
Definition zrange (a n : nat) : list Z := map Z.of_nat (List.seq a n).
Lemma in_zrange a n x : Z.of_nat a <= x < Z.of_nat (a + n) -> In x (zrange a n).
Proof. intros H. unfold zrange. apply in_map_iff. exists (Z.to_nat x). split; [lia|]. apply in_seq. lia. Qed.
Lemma md_table : forallb (fun leap => forallb (fun m => forallb (fun d =>
  if d <=? dim leap m then let n := days_before_month leap m + d - 1 in (0 <=? n) && (n <? (if leap then 366 else 365)) &&
    (if n =? 365 then leap && (m =? 12) && (d =? 31) else let '(m', d') := month_day leap n in (m' =? m) && (d' =? d)) else true) (zrange 1 31)) (zrange 1 12)) [true; false] = true.
Proof. vm_compute. reflexivity. Qed.
Lemma dim_le leap m : 1 <= m <= 12 -> 28 <= dim leap m <= 31.
Proof.
  intros H. assert (I : In m (zrange 1 12)) by (apply in_zrange; lia). cbn in I. destruct leap; repeat (destruct I as [<-|I]; [vm_compute; split; discriminate|]); destruct I.
Qed.
Lemma md leap m d : 1 <= m <= 12 -> 1 <= d <= dim leap m -> 0 <= days_before_month leap m + d - 1 < (if leap then 366 else 365) /\
  (days_before_month leap m + d - 1 = 365 -> leap = true /\ m = 12 /\ d = 31) /\
  (days_before_month leap m + d - 1 <> 365 -> month_day leap (days_before_month leap m + d - 1) = (m, d)).
Proof.
  intros A B. pose proof md_table as T. rewrite forallb_forall in T. specialize (T leap). assert (X : In leap [true; false]) by (destruct leap; cbn; auto). apply T in X. clear T.
  rewrite forallb_forall in X. specialize (X m (in_zrange 1 12 m ltac:(lia))). rewrite forallb_forall in X. pose proof (dim_le leap m A). specialize (X d (in_zrange 1 31 d ltac:(lia))).
  replace (d <=? dim leap m) with true in X by (symmetry; apply Z.leb_le; lia). cbv zeta in X. apply andb_true_iff in X as [X Y]. apply andb_true_iff in X as [X1 X2].
  apply Z.leb_le in X1. apply Z.ltb_lt in X2. split; [lia|]. split.
  - intros E. rewrite E in Y. replace (365 =? 365) with true in Y by reflexivity. apply andb_true_iff in Y as [Y Y3]. apply andb_true_iff in Y as [Y1 Y2]. apply Z.eqb_eq in Y2, Y3. auto.
  - intros E. apply Z.eqb_neq in E. rewrite E in Y. destruct (month_day leap _) as [m' d']. apply andb_true_iff in Y as [Y1 Y2]. apply Z.eqb_eq in Y1, Y2. now subst.
Qed.
Lemma year_parts y : 1 <= y -> exists a b c e, y - 1 = 400 * a + 100 * b + 4 * c + e /\ 0 <= a /\ 0 <= b <= 3 /\ 0 <= c <= 24 /\ 0 <= e <= 3.
Proof.
  intros H. exists ((y - 1) / 400), ((y - 1) mod 400 / 100), ((y - 1) mod 400 mod 100 / 4), ((y - 1) mod 400 mod 100 mod 4).
  pose proof (Z.div_mod (y - 1) 400). pose proof (Z.mod_pos_bound (y - 1) 400). set (r := (y - 1) mod 400) in *. pose proof (Z.div_mod r 100). pose proof (Z.mod_pos_bound r 100). set (q := r mod 100) in *.
  pose proof (Z.div_mod q 4). pose proof (Z.mod_pos_bound q 4). assert (0 <= (y - 1) / 400) by (apply Z.div_pos; lia). set (x := (y - 1) / 400) in *. set (u := r / 100) in *. set (v := q / 4) in *. set (w := q mod 4) in *. clearbody x r u q v w. lia.
Qed.
Lemma dby_parts y a b c e : y - 1 = 400 * a + 100 * b + 4 * c + e -> 0 <= b <= 3 -> 0 <= c <= 24 -> 0 <= e <= 3 ->
  days_before_year y = 146097 * a + 36524 * b + 1461 * c + 365 * e.
Proof.
  intros H B C E. unfold days_before_year. rewrite H. rewrite <- (Z.div_unique (400 * a + 100 * b + 4 * c + e) 4 (100 * a + 25 * b + c) e) by lia.
  rewrite <- (Z.div_unique (400 * a + 100 * b + 4 * c + e) 100 (4 * a + b) (4 * c + e)) by lia. rewrite <- (Z.div_unique (400 * a + 100 * b + 4 * c + e) 400 a (100 * b + 4 * c + e)) by lia. lia.
Qed.
Lemma leap_parts y a b c e : y - 1 = 400 * a + 100 * b + 4 * c + e -> 0 <= b <= 3 -> 0 <= c <= 24 -> 0 <= e <= 3 ->
  is_leap y = (e =? 3) && (negb (c =? 24) || (b =? 3)).
Proof.
  intros H B C E. unfold is_leap. destruct (Z.eqb_spec e 3) as [->|N].
  - replace (y mod 4 =? 0) with true by (symmetry; apply Z.eqb_eq; rewrite <- (Z.mod_unique y 4 (100 * a + 25 * b + c + 1) 0); lia). cbn [andb]. destruct (Z.eqb_spec c 24) as [->|M].
    + replace (y mod 100 =? 0) with true by (symmetry; apply Z.eqb_eq; rewrite <- (Z.mod_unique y 100 (4 * a + b + 1) 0); lia). cbn [negb orb]. destruct (Z.eqb_spec b 3) as [->|K].
      * apply Z.eqb_eq. rewrite <- (Z.mod_unique y 400 (a + 1) 0); lia.
      * apply Z.eqb_neq. rewrite <- (Z.mod_unique y 400 a (100 * b + 100)); lia.
    + cbn [negb orb]. replace (y mod 100 =? 0) with false; [reflexivity|]. symmetry. apply Z.eqb_neq. rewrite <- (Z.mod_unique y 100 (4 * a + b) (4 * c + 4)); lia.
  - cbn [andb]. replace (y mod 4 =? 0) with false; [reflexivity|]. symmetry. apply Z.eqb_neq. rewrite <- (Z.mod_unique y 4 (100 * a + 25 * b + c) (e + 1)); lia.
Qed.
Lemma ord_ymd y m d : 1 <= y -> 1 <= m <= 12 -> 1 <= d <= dim (is_leap y) m -> ord2ymd (ymd2ord y m d) = (y, m, d).
Proof.
  intros Y M D. destruct (year_parts y Y) as (a & b & c & e & H & A & B & C & E). destruct (md (is_leap y) m d M D) as (N & N1 & N2).
  unfold ymd2ord. rewrite (dby_parts y a b c e H B C E). pose proof (leap_parts y a b c e H B C E) as L. unfold ord2ymd.
  set (doy := days_before_month (is_leap y) m + d - 1) in *. replace (146097 * a + 36524 * b + 1461 * c + 365 * e + days_before_month (is_leap y) m + d - 1) with (146097 * a + 36524 * b + 1461 * c + 365 * e + doy) by (unfold doy; lia).
  clearbody doy. set (n := 146097 * a + 36524 * b + 1461 * c + 365 * e + doy).
  assert (LP : is_leap y = true -> e = 3 /\ (c <> 24 \/ b = 3)).
  { intros T. rewrite T in L. symmetry in L. apply andb_true_iff in L as [L1 L2]. apply Z.eqb_eq in L1. split; [exact L1|]. apply orb_true_iff in L2 as [L2|L2]; [left|right; now apply Z.eqb_eq]. apply negb_true_iff in L2. now apply Z.eqb_neq in L2. }
  assert (DB : doy < 366 /\ (doy = 365 -> e = 3 /\ (c <> 24 \/ b = 3))) by (destruct (is_leap y); split; try lia; intros; apply LP; auto).
  assert (M4 : n / 146097 = a /\ n mod 146097 = 36524 * b + 1461 * c + 365 * e + doy).
  { split; symmetry; [apply (Z.div_unique n 146097 a (36524 * b + 1461 * c + 365 * e + doy))|apply (Z.mod_unique n 146097 a)]; unfold n; lia. }
  destruct M4 as [-> ->]. clear n. destruct (Z.eq_dec doy 365) as [E5|E5].
  - destruct (N1 E5) as (LT & -> & ->). destruct (LP LT) as [-> L3]. rewrite E5. clear LP DB N N1 N2.
    destruct (Z.eq_dec c 24) as [->|C4].
    + assert (b = 3) by lia. subst b. replace ((36524 * 3 + 1461 * 24 + 365 * 3 + 365) / 36524) with 4 by reflexivity. replace ((36524 * 3 + 1461 * 24 + 365 * 3 + 365) mod 36524) with 0 by reflexivity. cbn [Z.div Z.modulo Z.eqb orb]. rewrite orb_true_r. f_equal. f_equal. change (0 / 1461) with 0. change (0 mod 1461) with 0. change (0 / 365) with 0. lia.
    + rewrite <- (Z.div_unique (36524 * b + 1461 * c + 365 * 3 + 365) 36524 b (1461 * c + 1460)) by lia. rewrite <- (Z.mod_unique (36524 * b + 1461 * c + 365 * 3 + 365) 36524 b (1461 * c + 1460)) by lia.
      rewrite <- (Z.div_unique (1461 * c + 1460) 1461 c 1460) by lia. rewrite <- (Z.mod_unique (1461 * c + 1460) 1461 c 1460) by lia. change (1460 / 365) with 4. change (4 =? 4) with true. cbn [orb]. f_equal. f_equal. lia.
  - assert (D5 : 0 <= doy < 365) by lia. specialize (N2 E5). clear N N1 DB LP.
    rewrite <- (Z.div_unique (36524 * b + 1461 * c + 365 * e + doy) 36524 b (1461 * c + 365 * e + doy)) by lia. rewrite <- (Z.mod_unique (36524 * b + 1461 * c + 365 * e + doy) 36524 b (1461 * c + 365 * e + doy)) by lia.
    rewrite <- (Z.div_unique (1461 * c + 365 * e + doy) 1461 c (365 * e + doy)) by lia. rewrite <- (Z.mod_unique (1461 * c + 365 * e + doy) 1461 c (365 * e + doy)) by lia.
    rewrite <- (Z.div_unique (365 * e + doy) 365 e doy) by lia. rewrite <- (Z.mod_unique (365 * e + doy) 365 e doy) by lia.
    replace (e =? 4) with false by (symmetry; apply Z.eqb_neq; lia). replace (b =? 4) with false by (symmetry; apply Z.eqb_neq; lia). cbn [orb]. rewrite <- L, N2. cbn [fst snd]. f_equal. f_equal. lia.
Qed.
Lemma md_surj_table : forallb (fun leap => forallb (fun n => existsb (fun m => let d := n - days_before_month leap m + 1 in (1 <=? d) && (d <=? dim leap m)) (zrange 1 12)) (zrange 0 (if leap then 366 else 365))) [true; false] = true.
Proof. vm_compute. reflexivity. Qed.
Lemma md_surj (leap : bool) n : 0 <= n < (if leap then 366 else 365) -> exists m d, 1 <= m <= 12 /\ 1 <= d <= dim leap m /\ days_before_month leap m + d - 1 = n.
Proof.
  intros H. pose proof md_surj_table as T. rewrite forallb_forall in T. specialize (T leap). assert (X : In leap [true; false]) by (destruct leap; cbn; auto). apply T in X. clear T.
  rewrite forallb_forall in X. specialize (X n). assert (I : In n (zrange 0 (if leap then 366 else 365))) by (apply in_zrange; destruct leap; cbn [Nat.add]; lia). apply X in I. apply existsb_exists in I as (m & I & K).
  apply andb_true_iff in K as [K1 K2]. apply Z.leb_le in K1, K2. exists m, (n - days_before_month leap m + 1). split; [|lia]. unfold zrange in I. apply in_map_iff in I as (k & <- & I). apply in_seq in I. lia.
Qed.
Lemma ymd_surj n : 1 <= n <= 3652059 -> exists y m d, 1 <= y <= 9999 /\ 1 <= m <= 12 /\ 1 <= d <= dim (is_leap y) m /\ ymd2ord y m d = n.
Proof.
  intros H. set (a := (n - 1) / 146097). set (r := (n - 1) mod 146097). set (b := Z.min 3 (r / 36524)). set (r1 := r - 36524 * b). set (c := r1 / 1461). set (r2 := r1 mod 1461). set (e := Z.min 3 (r2 / 365)). set (doy := r2 - 365 * e).
  pose proof (Z.div_mod (n - 1) 146097 ltac:(lia)) as D1. pose proof (Z.mod_pos_bound (n - 1) 146097 ltac:(lia)) as B1. fold a r in D1, B1.
  pose proof (Z.div_mod r 36524 ltac:(lia)) as D2. pose proof (Z.mod_pos_bound r 36524 ltac:(lia)) as B2. pose proof (Z.div_mod r1 1461 ltac:(lia)) as D3. pose proof (Z.mod_pos_bound r1 1461 ltac:(lia)) as B3. fold c r2 in D3, B3.
  pose proof (Z.div_mod r2 365 ltac:(lia)) as D4. pose proof (Z.mod_pos_bound r2 365 ltac:(lia)) as B4.
  assert (A0 : 0 <= a <= 24) by (set (x := a) in *; clearbody x r; lia).
  assert (Bb : 0 <= b <= 3) by (unfold b; set (x := r / 36524) in *; set (z := r mod 36524) in *; clearbody x z r; lia).
  assert (R1 : 0 <= r1 <= 36524 /\ (r1 = 36524 -> b = 3)) by (unfold r1, b; set (x := r / 36524) in *; set (z := r mod 36524) in *; clearbody x z r; lia).
  assert (Cc : 0 <= c <= 24) by (clearbody r1 c r2; lia).
  assert (Ee : 0 <= e <= 3 /\ 0 <= doy <= 365 /\ (doy = 365 -> e = 3 /\ r2 = 1460)) by (unfold doy, e; set (x := r2 / 365) in *; set (z := r2 mod 365) in *; clearbody x z r2; lia).
  destruct Ee as (Ee & Dd & D5). set (y := 400 * a + 100 * b + 4 * c + e + 1). assert (Y : y - 1 = 400 * a + 100 * b + 4 * c + e) by (unfold y; lia).
  pose proof (leap_parts y a b c e Y Bb Cc Ee) as L. pose proof (dby_parts y a b c e Y Bb Cc Ee) as DB.
  assert (N : 0 <= doy < (if is_leap y then 366 else 365)).
  { destruct (Z.eq_dec doy 365) as [X|X]; [|destruct (is_leap y); lia]. destruct (D5 X) as [E3 R2]. rewrite L, E3. cbn [Z.eqb andb]. destruct (Z.eqb_spec c 24) as [C4|C4].
    - replace (b =? 3) with true; [cbn; lia|]. symmetry. apply Z.eqb_eq. apply R1. lia.
    - cbn; lia. }
  destruct (md_surj (is_leap y) doy N) as (m & d & M & D & E). exists y, m, d.
  assert (NE : ymd2ord y m d = n) by (unfold ymd2ord; rewrite DB; unfold doy, r1 in *; lia).
  split; [|auto]. split; [unfold y; lia|]. destruct (Z.le_gt_cases y 9999) as [|G]; [assumption|]. exfalso. unfold ymd2ord in NE. rewrite DB in NE. assert (10000 <= y) by lia. unfold y in *. lia.
Qed.
Lemma ymd_range y m d : 1 <= y <= 9999 -> 1 <= m <= 12 -> 1 <= d <= dim (is_leap y) m -> 1 <= ymd2ord y m d <= 3652059.
Proof.
  intros Y M D. destruct (year_parts y ltac:(lia)) as (a & b & c & e & H & A & B & C & E). destruct (md (is_leap y) m d M D) as (N & _). unfold ymd2ord. rewrite (dby_parts y a b c e H B C E).
  assert (L : is_leap y = true -> e = 3) by (rewrite (leap_parts y a b c e H B C E); intros X; apply andb_true_iff in X as [X _]; now apply Z.eqb_eq).
  assert (LB : days_before_month (is_leap y) m + d - 1 < 366) by (destruct (is_leap y); lia). destruct (Z.eq_dec y 9999) as [->|].
  - change (is_leap 9999) with false in *. lia.
  - lia.
Qed.
