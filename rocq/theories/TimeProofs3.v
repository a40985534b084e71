(** Proofs about time strings. *)
From Coq Require Import List Ascii Bool ZArith QArith Lia.
From Verif Require Import PyBase PyStr TimeModel TimeSpec TimeProofs TimeProofs2.
Import ListNotations.
Open Scope list_scope.
Open Scope Z_scope.

Lemma dval_dchar n : 0 <= n <= 9 -> dval (dchar n) = Some n.
Proof. intros H. assert (I : In n (zrange 0 10)) by (apply in_zrange; lia). cbn in I. repeat (destruct I as [<-|I]; [reflexivity|]). destruct I. Qed.
Lemma code_dchar n : 0 <= n <= 9 -> nat_of_ascii (dchar n) = Z.to_nat (48 + n).
Proof. intros H. assert (I : In n (zrange 0 10)) by (apply in_zrange; lia). cbn in I. repeat (destruct I as [<-|I]; [reflexivity|]). destruct I. Qed.
Definition Head {A} (p : parser A) (s : str) (x : A * str) : Prop := exists l, p s = x :: l.
Lemma head_seq {A B} (p : parser A) (k : A -> parser B) s v r x : Head p s (v, r) -> Head (k v) r x -> Head (seq p k) s x.
Proof. intros (l & E) (l' & E'). unfold Head, seq. rewrite E. cbn [flat_map fst snd]. rewrite E'. eexists. reflexivity. Qed.
Ltac cases n lo len := let I := fresh in assert (I : In n (zrange lo len)) by (apply in_zrange; cbn [Nat.add]; lia); cbn in I; repeat (destruct I as [<-|I]; [eexists; cbn -[Z.eqb Z.leb]; reflexivity|]); destruct I.
Lemma head_m n r : 1 <= n <= 12 -> Head p_m (two_digits n ++ r) (n, r).
Proof. intros H. cases n 1%nat 12%nat. Qed.
Lemma head_d n r : 1 <= n <= 31 -> Head p_d (two_digits n ++ r) (n, r).
Proof. intros H. cases n 1%nat 31%nat. Qed.
Lemma head_H n r : 0 <= n < 24 -> Head p_H (two_digits n ++ r) (n, r).
Proof. intros H. cases n 0%nat 24%nat. Qed.
Lemma head_M n r : 0 <= n < 60 -> Head p_M (two_digits n ++ r) (n, r).
Proof. intros H. cases n 0%nat 60%nat. Qed.
Lemma head_S n r : 0 <= n < 60 -> Head p_S (two_digits n ++ r) (n, r).
Proof. intros H. cases n 0%nat 60%nat. Qed.
Lemma head_T r : Head p_T ("T"%char :: r) (tt, r).
Proof. eexists. reflexivity. Qed.
Lemma year4 y : 1000 <= y <= 9999 -> exists a b c d, y = 1000 * a + 100 * b + 10 * c + d /\ 1 <= a <= 9 /\ 0 <= b <= 9 /\ 0 <= c <= 9 /\ 0 <= d <= 9 /\ year_digits y = [dchar a; dchar b; dchar c; dchar d].
Proof.
  intros H. exists (y / 1000), (y / 100 mod 10), (y / 10 mod 10), (y mod 10). unfold year_digits.
  replace (1000 <=? y) with true by (symmetry; apply Z.leb_le; lia). replace (100 <=? y) with true by (symmetry; apply Z.leb_le; lia). replace (10 <=? y) with true by (symmetry; apply Z.leb_le; lia).
  replace 1000 with (10 * 10 * 10) by reflexivity. replace 100 with (10 * 10) by reflexivity. rewrite <- !Z.div_div by lia.
  pose proof (Z.div_mod y 10 ltac:(lia)). pose proof (Z.mod_pos_bound y 10 ltac:(lia)). set (u := y / 10) in *. pose proof (Z.div_mod u 10 ltac:(lia)). pose proof (Z.mod_pos_bound u 10 ltac:(lia)).
  set (v := u / 10) in *. pose proof (Z.div_mod v 10 ltac:(lia)). pose proof (Z.mod_pos_bound v 10 ltac:(lia)). set (w := v / 10) in *. set (d := y mod 10) in *. set (c := u mod 10) in *. set (b := v mod 10) in *. clearbody u v w d c b. repeat split; lia || reflexivity.
Qed.
Lemma head_Y y r : 1000 <= y <= 9999 -> Head p_Y (year_digits y ++ r) (y, r).
Proof.
  intros H. destruct (year4 y H) as (a & b & c & d & E & A & B & C & D & ->). cbn [app]. unfold p_Y. eapply head_seq.
  - eexists. unfold two. rewrite !dval_dchar by lia. reflexivity.
  - eapply head_seq; [eexists; unfold two; rewrite !dval_dchar by lia; reflexivity|]. exists []. do 2 f_equal. lia.
Qed.
Lemma dt_bounds dt : valid dt = true -> 1 <= yr dt <= 9999 /\ 1 <= mo dt <= 12 /\ 1 <= dy dt <= 31 /\ 0 <= hh dt < 24 /\ 0 <= mi dt < 60 /\ 0 <= ss dt < 60.
Proof.
  intros V. apply valid_spec in V as [V (A & B & C & D)]. apply date_spec in V as (Y & M & X). pose proof (dim_le (is_leap (yr dt)) (mo dt) M). lia.
Qed.
Lemma head_all dt r : valid dt = true -> 1000 <= yr dt ->
  Head p_all (year_digits (yr dt) ++ two_digits (mo dt) ++ two_digits (dy dt) ++ "T"%char :: two_digits (hh dt) ++ two_digits (mi dt) ++ two_digits (ss dt) ++ r)
    (Dt (yr dt) (mo dt) (dy dt) (hh dt) (mi dt) (ss dt) 0 None, r).
Proof.
  intros V Y. apply dt_bounds in V as (A & B & C & D & E & F). unfold p_all.
  eapply head_seq; [apply head_Y; lia|]. eapply head_seq; [apply head_m; lia|]. eapply head_seq; [apply head_d; lia|]. eapply head_seq; [apply head_T|].
  eapply head_seq; [apply head_H; lia|]. eapply head_seq; [apply head_M; lia|]. eapply head_seq; [apply head_S; lia|]. exists []. reflexivity.
Qed.
Lemma first15 dt : valid dt = true -> 1000 <= yr dt -> firstn 15 (datetime_to_timestr dt) =
  year_digits (yr dt) ++ two_digits (mo dt) ++ two_digits (dy dt) ++ "T"%char :: two_digits (hh dt) ++ two_digits (mi dt) ++ two_digits (ss dt) ++ [].
Proof.
  intros V Y. apply dt_bounds in V. destruct (year4 (yr dt) ltac:(lia)) as (a & b & c & d & _ & _ & _ & _ & _ & E). unfold datetime_to_timestr. rewrite E. reflexivity.
Qed.
Ltac pw := repeat match goal with |- context [10 ^ Z.of_nat ?k] => let v := eval vm_compute in (10 ^ Z.of_nat k) in change (10 ^ Z.of_nat k) with v end; lia.
Lemma decimal2 n : 0 <= n <= 99 -> Decimal 2 n (two_digits n).
Proof.
  intros H. pose proof (Z.div_mod n 10 ltac:(lia)). pose proof (Z.mod_pos_bound n 10 ltac:(lia)). cbn [Decimal two_digits]. set (a := n / 10) in *. set (b := n mod 10) in *. clearbody a b.
  exists a, b. split; [lia|]. split; [apply code_dchar; lia|]. split; [pw|]. exists b, 0. split; [lia|]. split; [apply code_dchar; lia|]. split; [pw|reflexivity].
Qed.
Lemma decimal4 y : 1000 <= y <= 9999 -> Decimal 4 y (year_digits y).
Proof.
  intros H. destruct (year4 y H) as (a & b & c & d & E & A & B & C & D & ->). cbn [Decimal].
  exists a, (100 * b + 10 * c + d). split; [lia|]. split; [apply code_dchar; lia|]. split; [pw|]. exists b, (10 * c + d). split; [lia|]. split; [apply code_dchar; lia|]. split; [pw|].
  exists c, d. split; [lia|]. split; [apply code_dchar; lia|]. split; [pw|]. exists d, 0. split; [lia|]. split; [apply code_dchar; lia|]. split; [pw|reflexivity].
Qed.
