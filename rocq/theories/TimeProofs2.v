(** Proofs about times, continued. *)
From Coq Require Import List Ascii Bool ZArith QArith Qabs Lia Lqa.
From Verif Require Import PyBase PyStr TimeModel TimeSpec TimeProofs.
Import ListNotations.
Open Scope list_scope.
Open Scope Z_scope.

(** * The calendar of the specification *)
Lemma leap_spec y : is_leap y = true <-> leap_year y.
Proof.
  unfold is_leap, leap_year. rewrite andb_true_iff, orb_true_iff, negb_true_iff, !Z.eqb_eq, Z.eqb_neq, !Z.mod_divide by lia. tauto.
Qed.
Lemma length_spec y m n : month_length y m n <-> 1 <= m <= 12 /\ dim (is_leap y) m = n.
Proof.
  split.
  - intros [m' H|m' H|H|H].
    + cbn in H. destruct (is_leap y); repeat (destruct H as [<-|H]; [split; [lia|reflexivity]|]); destruct H.
    + cbn in H. destruct (is_leap y); repeat (destruct H as [<-|H]; [split; [lia|reflexivity]|]); destruct H.
    + apply leap_spec in H. rewrite H. split; [lia|reflexivity].
    + rewrite <- leap_spec in H. apply not_true_is_false in H. rewrite H. split; [lia|reflexivity].
  - intros [H <-]. assert (I : In m (zrange 1 12)) by (apply in_zrange; lia). cbn in I.
    destruct I as [<-|[<-|I]]; [apply ml_31; cbn; auto| |].
    + destruct (is_leap y) eqn:E; [apply ml_29; now apply leap_spec|apply ml_28; rewrite <- leap_spec; congruence].
    + repeat (destruct I as [<-|I]; [first [apply ml_31; cbn; tauto|apply ml_30; cbn; tauto]|]). destruct I.
Qed.
Lemma date_spec y m d : date_ok y m d <-> 1 <= y <= 9999 /\ 1 <= m <= 12 /\ 1 <= d <= dim (is_leap y) m.
Proof.
  unfold date_ok. split.
  - intros [A (n & B & C)]. apply length_spec in B as [B <-]. auto.
  - intros (A & B & C). split; [assumption|]. exists (dim (is_leap y) m). split; [|assumption]. now apply length_spec.
Qed.
Lemma valid_spec dt : valid dt = true <-> date_ok (yr dt) (mo dt) (dy dt) /\ time_ok (hh dt) (mi dt) (ss dt) (us dt).
Proof. rewrite date_spec. unfold valid, time_ok. rewrite !andb_true_iff, !Z.leb_le, !Z.ltb_lt. lia. Qed.
Lemma next_table : forallb (fun leap => forallb (fun m => (days_before_month leap (m + 1) =? days_before_month leap m + dim leap m)) (zrange 1 11)) [true; false] = true.
Proof. vm_compute. reflexivity. Qed.
Lemma next_spec y m d y' m' d' : 1 <= y -> next_day (y, m, d) (y', m', d') -> ymd2ord y' m' d' = ymd2ord y m d + 1.
Proof.
  intros Y H. inversion H as [? ? ? n L A B|? ? n L A|?]; subst; clear H.
  - unfold ymd2ord. lia.
  - apply length_spec in L as [M <-]. unfold ymd2ord. pose proof next_table as T. rewrite forallb_forall in T. specialize (T (is_leap y')). assert (X : In (is_leap y') [true; false]) by (destruct (is_leap y'); cbn; auto).
    apply T in X. rewrite forallb_forall in X. specialize (X m (in_zrange 1 11 m ltac:(lia))). apply Z.eqb_eq in X. lia.
  - destruct (year_parts y Y) as (a & b & c & e & H & A & B & C & E). unfold ymd2ord. rewrite (dby_parts y a b c e H B C E), (leap_parts y a b c e H B C E).
    replace (days_before_month (is_leap (y + 1)) 1) with 0 by (destruct (is_leap (y + 1)); reflexivity).
    destruct (Z.eq_dec e 3) as [->|N].
    + change (3 =? 3) with true. cbn [andb]. destruct (Z.eq_dec c 24) as [->|N].
      * destruct (Z.eq_dec b 3) as [->|N].
        -- rewrite (dby_parts (y + 1) (a + 1) 0 0 0) by lia. change (days_before_month (negb (24 =? 24) || (3 =? 3)) 12) with 335. lia.
        -- rewrite (dby_parts (y + 1) a (b + 1) 0 0) by lia. replace (b =? 3) with false by (symmetry; now apply Z.eqb_neq). change (days_before_month (negb (24 =? 24) || false) 12) with 334. lia.
      * rewrite (dby_parts (y + 1) a b (c + 1) 0) by lia. replace (c =? 24) with false by (symmetry; now apply Z.eqb_neq). change (days_before_month (negb false || (b =? 3)) 12) with 335. lia.
    + replace (e =? 3) with false by (symmetry; now apply Z.eqb_neq). cbn [andb]. rewrite (dby_parts (y + 1) a b c (e + 1)) by lia. change (days_before_month false 12) with 334. lia.
Qed.

(** * Rounding *)
Lemma round_int x n : (x == inject_Z n)%Q -> round_half_even x = n.
Proof.
  intros H. unfold Qeq in H. cbn in H. unfold round_half_even. rewrite <- (Z.div_unique (Qnum x) (Zpos (Qden x)) n 0) by lia. rewrite <- (Z.mod_unique (Qnum x) (Zpos (Qden x)) n 0) by lia.
  replace (2 * 0 <? Zpos (Qden x)) with true by (symmetry; apply Z.ltb_lt; lia). reflexivity.
Qed.
Lemma round_close x : (Qabs (x - inject_Z (round_half_even x)) <= 1 # 2)%Q.
Proof.
  assert (H : - Zpos (Qden x) <= 2 * (Qnum x - round_half_even x * Zpos (Qden x)) <= Zpos (Qden x)).
  { unfold round_half_even. pose proof (Z.div_mod (Qnum x) (Zpos (Qden x)) ltac:(lia)) as D. pose proof (Z.mod_pos_bound (Qnum x) (Zpos (Qden x)) ltac:(lia)) as B.
    set (n := Qnum x / Zpos (Qden x)) in *. set (r := Qnum x mod Zpos (Qden x)) in *. clearbody n r. rewrite D. destruct (Z.ltb_spec (2 * r) (Zpos (Qden x))); [lia|]. destruct (Z.ltb_spec (Zpos (Qden x)) (2 * r)); [lia|]. destruct (Z.even n); lia. }
  apply Qabs_Qle_condition. unfold Qle, Qminus, Qplus, Qopp, inject_Z. set (k := round_half_even x) in *. clearbody k. destruct x as [a b]. cbn [Qnum Qden] in *. rewrite !Pos.mul_1_r. lia.
Qed.

(** * Conversions *)
Definition with_tz (dt : datetime) (z : option Z) : datetime := Dt (yr dt) (mo dt) (dy dt) (hh dt) (mi dt) (ss dt) (us dt) z.
Lemma local_parts dt : valid dt = true -> let u := ((hh dt * 60 + mi dt) * 60 + ss dt) * 1000000 + us dt in
  local_us dt = ymd2ord (yr dt) (mo dt) (dy dt) * (86400 * 1000000) + u /\ 0 <= u < 86400 * 1000000 /\
  u / 3600000000 = hh dt /\ u / 60000000 mod 60 = mi dt /\ u / 1000000 mod 60 = ss dt /\ u mod 1000000 = us dt.
Proof.
  intros V. apply valid_spec in V as [_ (A & B & C & D)]. cbv zeta. split; [unfold local_us; lia|]. split; [lia|].
  split; [symmetry; apply (Z.div_unique _ _ _ ((mi dt * 60 + ss dt) * 1000000 + us dt)); lia|].
  rewrite <- (Z.div_unique (((hh dt * 60 + mi dt) * 60 + ss dt) * 1000000 + us dt) 60000000 (hh dt * 60 + mi dt) (ss dt * 1000000 + us dt)) by lia.
  rewrite <- (Z.div_unique (((hh dt * 60 + mi dt) * 60 + ss dt) * 1000000 + us dt) 1000000 ((hh dt * 60 + mi dt) * 60 + ss dt) (us dt)) by lia.
  split; [symmetry; apply (Z.mod_unique _ _ (hh dt)); lia|]. split; [symmetry; apply (Z.mod_unique _ _ (hh dt * 60 + mi dt)); lia|].
  symmetry. apply (Z.mod_unique _ _ ((hh dt * 60 + mi dt) * 60 + ss dt)); lia.
Qed.
Lemma from_us t dt : valid dt = true -> round_half_even (t * inject_Z 1000000) + epoch_us = local_us dt -> fromtimestamp t = Ok (with_tz dt (Some 0)).
Proof.
  intros V E. pose proof (local_parts dt V) as P. apply valid_spec in V as [V _]. apply date_spec in V as (Y & M & D). cbv zeta in P.
  set (u := ((hh dt * 60 + mi dt) * 60 + ss dt) * 1000000 + us dt) in *. destruct P as (P1 & P2 & P3 & P4 & P5 & P6). unfold fromtimestamp. rewrite E, P1.
  pose proof (ymd_range _ _ _ Y M D) as N. pose proof (ord_ymd _ _ _ (proj1 Y) M D) as O. set (n := ymd2ord (yr dt) (mo dt) (dy dt)) in *.
  rewrite <- (Z.div_unique (n * (86400 * 1000000) + u) (86400 * 1000000) n u) by lia. rewrite <- (Z.mod_unique (n * (86400 * 1000000) + u) (86400 * 1000000) n u) by lia.
  replace (n <? 1) with false by (symmetry; apply Z.ltb_ge; lia). replace (3652059 <? n) with false by (symmetry; apply Z.ltb_ge; lia). cbn [orb]. rewrite O, P3, P4, P5, P6. reflexivity.
Qed.
Lemma from_ok t : 1 <= (round_half_even (t * inject_Z 1000000) + epoch_us) / (86400 * 1000000) <= 3652059 ->
  exists dt, fromtimestamp t = Ok dt /\ valid dt = true /\ tz dt = Some 0 /\ local_us dt = round_half_even (t * inject_Z 1000000) + epoch_us.
Proof.
  intros H. set (v := round_half_even (t * inject_Z 1000000) + epoch_us) in *. destruct (ymd_surj _ H) as (y & m & d & Y & M & D & E).
  pose proof (Z.div_mod v (86400 * 1000000) ltac:(lia)) as D1. pose proof (Z.mod_pos_bound v (86400 * 1000000) ltac:(lia)) as B1. set (u := v mod (86400 * 1000000)) in *.
  set (dt := Dt y m d (u / 3600000000) (u / 60000000 mod 60) (u / 1000000 mod 60) (u mod 1000000) (Some 0)).
  assert (T : ((u / 3600000000 * 60 + u / 60000000 mod 60) * 60 + u / 1000000 mod 60) * 1000000 + u mod 1000000 = u).
  { replace 3600000000 with (1000000 * 60 * 60) by reflexivity. replace 60000000 with (1000000 * 60) by reflexivity. rewrite <- !Z.div_div by lia. set (s := u / 1000000). set (i := s / 60).
    pose proof (Z.div_mod u 1000000 ltac:(lia)). pose proof (Z.div_mod s 60 ltac:(lia)). pose proof (Z.div_mod i 60 ltac:(lia)). fold s in H0. fold i in H1. lia. }
  assert (V : valid dt = true).
  { apply valid_spec. split; [apply date_spec; auto|]. unfold dt, time_ok. cbn. split; [split; [apply Z.div_pos; lia|apply Z.div_lt_upper_bound; lia]|]. split; [apply Z.mod_pos_bound; lia|]. split; [apply Z.mod_pos_bound; lia|]. apply Z.mod_pos_bound; lia. }
  assert (L : local_us dt = v) by (unfold local_us, dt; cbn [yr mo dy hh mi ss us]; rewrite E; lia).
  exists dt. split; [|auto]. rewrite (from_us t dt V (eq_sym L)). reflexivity.
Qed.
Lemma from_err t : ~ 1 <= (round_half_even (t * inject_Z 1000000) + epoch_us) / (86400 * 1000000) <= 3652059 -> fromtimestamp t = Err ValueError.
Proof.
  intros H. unfold fromtimestamp. replace ((_ <? 1) || (3652059 <? _)) with true; [reflexivity|]. symmetry. apply orb_true_iff. rewrite !Z.ltb_lt. lia.
Qed.
Definition offset (dt : datetime) : Z := match tz dt with Some z => z | None => 0 end.
Definition instant (dt : datetime) : Z := local_us dt - epoch_us - offset dt * 1000000.
Lemma to_unix dt : datetime_to_unix dt = Ok (instant dt # 1000000).
Proof.
  unfold datetime_to_unix. assert (E : fromtimestamp 0 = Ok (Dt 1970 1 1 0 0 0 0 (Some 0))) by (vm_compute; reflexivity). rewrite E. cbn [rbind].
  unfold naive_datetime_to_utc, instant, offset, diff_seconds. change (local_us (Dt 1970 1 1 0 0 0 0 (Some 0))) with epoch_us.
  destruct dt as [y m d h i s u [z|]]; cbn [tz]; do 2 f_equal; unfold local_us; cbn [yr mo dy hh mi ss us]; change (ymd2ord 1970 1 1) with 719163; unfold epoch_us; lia.
Qed.
Lemma round_us n : round_half_even ((n # 1000000) * inject_Z 1000000) = n.
Proof. apply round_int. unfold Qeq, Qmult, inject_Z. cbn. lia. Qed.
