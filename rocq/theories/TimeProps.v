(** C127 to C130: UNIX times, datetimes, time strings. *)
From Coq Require Import String.
From Coq Require Import List Ascii Bool ZArith QArith Qabs Lia Lqa.
From Verif Require Import PyBase PyStr TimeModel TimeSpec TimeProofs TimeProofs2 TimeProofs3.
Import ListNotations.
Open Scope list_scope.
Open Scope Z_scope.

Definition proper (dt : datetime) : Prop := date_ok (yr dt) (mo dt) (dy dt) /\ time_ok (hh dt) (mi dt) (ss dt) (us dt).
(** * C127 *)
(** The UNIX time is zero at the epoch .. *)
Theorem C127_epoch : datetime_to_unix (Dt 1970 1 1 0 0 0 0 None) = Ok (0 # 1000000) /\ datetime_to_unix (Dt 1970 1 1 0 0 0 0 (Some 0)) = Ok (0 # 1000000).
Proof. now rewrite !to_unix. Qed.
Print Assumptions C127_epoch.
(** .. a day later a day more .. *)
Theorem C127_next_day y m d y' m' d' h i s u z : 1 <= y -> next_day (y, m, d) (y', m', d') -> exists a b,
  datetime_to_unix (Dt y m d h i s u z) = Ok a /\ datetime_to_unix (Dt y' m' d' h i s u z) = Ok b /\ (b == a + 86400)%Q.
Proof.
  intros Y N. apply next_spec in N; [|assumption]. rewrite !to_unix. do 2 eexists. split; [reflexivity|]. split; [reflexivity|].
  unfold instant, local_us, offset. cbn [yr mo dy hh mi ss us tz]. rewrite N. set (n := ymd2ord y m d). set (o := match z with Some z => z | None => 0 end). unfold Qeq, Qplus. cbn [Qnum Qden]. lia.
Qed.
Print Assumptions C127_next_day.
(** .. and within a day the time of the day more, less the offset of the time zone; without time zone it is UTC. *)
Theorem C127_time_of_day y m d h i s u z : exists a b, datetime_to_unix (Dt y m d 0 0 0 0 None) = Ok a /\ datetime_to_unix (Dt y m d h i s u z) = Ok b /\
  (b == a + inject_Z (3600 * h + 60 * i + s) + (u # 1000000) - inject_Z (match z with Some o => o | None => 0 end))%Q.
Proof.
  rewrite !to_unix. do 2 eexists. split; [reflexivity|]. split; [reflexivity|].
  unfold instant, local_us, offset. cbn [yr mo dy hh mi ss us tz]. set (n := ymd2ord y m d). set (o := match z with Some z => z | None => 0 end). unfold Qeq, Qplus, Qminus, Qopp, Qplus, inject_Z. cbn [Qnum Qden]. lia.
Qed.
Print Assumptions C127_time_of_day.
(** Back again *)
Theorem C127_inverse dt : proper dt -> tz dt = None \/ tz dt = Some 0 ->
  exists t, datetime_to_unix dt = Ok t /\ unix_to_datetime t = Ok (Dt (yr dt) (mo dt) (dy dt) (hh dt) (mi dt) (ss dt) (us dt) (Some 0)).
Proof.
  intros P Z. apply valid_spec in P. rewrite to_unix. eexists. split; [reflexivity|]. unfold unix_to_datetime. rewrite (from_us _ dt P); [reflexivity|].
  rewrite round_us. unfold instant, offset. destruct Z as [-> | ->]; lia.
Qed.
Print Assumptions C127_inverse.
(** Every time from year 1 to the last microsecond of year 9999 is converted, to the nearest microsecond. *)
Theorem C127_nearest t : (-62135596800 <= t)%Q -> (t <= 253402300799999999 # 1000000)%Q ->
  exists dt q, unix_to_datetime t = Ok dt /\ proper dt /\ tz dt = Some 0 /\ datetime_to_unix dt = Ok q /\ (Qabs (t - q) <= 1 # 2000000)%Q.
Proof.
  intros A B. pose proof (round_close (t * inject_Z 1000000)) as R. set (n := round_half_even (t * inject_Z 1000000)) in *.
  assert (N : -62135596800000000 <= n <= 253402300799999999).
  { apply Qabs_Qle_condition in R as [R1 R2]. assert (X : (inject_Z n <= 253402300799999999 + (1 # 2))%Q) by (unfold inject_Z in *; lra). assert (Y : (-62135596800000000 - (1 # 2) <= inject_Z n)%Q) by (unfold inject_Z in *; lra).
    unfold Qle, Qminus, Qplus, Qopp, inject_Z in X, Y. cbn [Qnum Qden] in X, Y. lia. }
  destruct (from_ok t) as (dt & F & V & T & L).
  { fold n. unfold epoch_us. split; [apply Z.div_le_lower_bound; lia|]. apply Z.lt_succ_r. apply Z.div_lt_upper_bound; lia. }
  exists dt, (instant dt # 1000000). unfold unix_to_datetime. rewrite F. cbn [rbind]. split; [unfold naive_datetime_to_utc; rewrite T; reflexivity|]. split; [now apply valid_spec in V|]. split; [assumption|]. split; [apply to_unix|].
  assert (I : instant dt = n) by (unfold instant, offset; rewrite T, L; fold n; lia). rewrite I. apply Qabs_Qle_condition in R as [R1 R2]. apply Qabs_Qle_condition.
  assert (E : (n # 1000000 == inject_Z n * (1 # 1000000))%Q) by (unfold Qeq, Qmult, inject_Z; cbn [Qnum Qden]; lia). rewrite E. unfold inject_Z in *. split; lra.
Qed.
Print Assumptions C127_nearest.
Example C127_ex : datetime_to_unix (Dt 2024 3 1 12 30 15 250000 (Some (-18000))) = Ok (1709314215250000 # 1000000) /\
  unix_to_datetime (1709314215250000 # 1000000) = Ok (Dt 2024 3 1 17 30 15 250000 (Some 0)) /\ next_day (2024, 2, 28) (2024, 2, 29) /\ ~ next_day (2023, 2, 28) (2023, 2, 29).
Proof.
  split; [rewrite to_unix; reflexivity|]. split; [vm_compute; reflexivity|]. split.
  - apply (nd_day 2024 2 28 29); [|lia|lia]. apply length_spec. split; [lia|reflexivity].
  - intros H. inversion H as [? ? ? n L A B|? ? n L A|?]; subst. apply length_spec in L as [_ L]. vm_compute in L. subst. lia.
Qed.

(** * C128 *)
(** The text of a time after the year 1000 *)
Theorem C128_text dt : proper dt -> 1000 <= yr dt -> exists y m d h i s, datetime_to_timestr dt = y ++ m ++ d ++ s_ "T" ++ h ++ i ++ s ++ s_ "Z" /\
  Decimal 4 (yr dt) y /\ Decimal 2 (mo dt) m /\ Decimal 2 (dy dt) d /\ Decimal 2 (hh dt) h /\ Decimal 2 (mi dt) i /\ Decimal 2 (ss dt) s.
Proof.
  intros P Y. apply valid_spec in P. apply dt_bounds in P. do 6 eexists. split; [reflexivity|]. split; [apply decimal4; lia|]. repeat split; apply decimal2; lia.
Qed.
Print Assumptions C128_text.
(** Back again, without the part of the second and without time zone *)
Theorem C128_inverse dt : proper dt -> 1000 <= yr dt ->
  timestr_to_datetime (datetime_to_timestr dt) = Ok (Dt (yr dt) (mo dt) (dy dt) (hh dt) (mi dt) (ss dt) 0 None).
Proof.
  intros P Y. apply valid_spec in P. unfold timestr_to_datetime, strptime. rewrite first15 by assumption. destruct (head_all dt [] P Y) as (l & ->).
  replace (valid (Dt (yr dt) (mo dt) (dy dt) (hh dt) (mi dt) (ss dt) 0 None)) with true; [reflexivity|]. symmetry. apply valid_spec. apply valid_spec in P as [P1 (P2 & P3 & P4 & P5)]. split; [assumption|]. unfold time_ok. cbn. lia.
Qed.
Print Assumptions C128_inverse.
(** For a datetime in UTC the instant is kept, to the second. *)
Theorem C128_instant dt : proper dt -> 1000 <= yr dt -> tz dt = None \/ tz dt = Some 0 -> exists dt' a b, timestr_to_datetime (datetime_to_timestr dt) = Ok dt' /\
  datetime_to_unix dt = Ok a /\ datetime_to_unix dt' = Ok b /\ (b <= a /\ a < b + 1)%Q.
Proof.
  intros P Y Z. do 3 eexists. split; [now apply C128_inverse|]. rewrite !to_unix. split; [reflexivity|]. split; [reflexivity|]. destruct P as [_ (_ & _ & _ & U)].
  unfold instant, offset, local_us. cbn [yr mo dy hh mi ss us tz]. set (n := ymd2ord _ _ _). destruct Z as [-> | ->]; unfold Qle, Qlt, Qplus; cbn [Qnum Qden]; lia.
Qed.
Print Assumptions C128_instant.
(** In other time zones it is not, although the text ends with Z .. *)
Theorem C128_zone_refuted : exists dt dt' a b, proper dt /\ timestr_to_datetime (datetime_to_timestr dt) = Ok dt' /\ datetime_to_unix dt = Ok a /\ datetime_to_unix dt' = Ok b /\ (b == a + 3600)%Q.
Proof.
  exists (Dt 2024 3 1 12 30 15 0 (Some 3600)), (Dt 2024 3 1 12 30 15 0 None). do 2 eexists. split; [apply valid_spec; reflexivity|]. split; [vm_compute; reflexivity|]. rewrite !to_unix. split; [reflexivity|]. split; [reflexivity|]. reflexivity.
Qed.
Print Assumptions C128_zone_refuted.
(** .. years before 1000 cannot be read back .. *)
Theorem C128_year_refuted : exists dt, proper dt /\ timestr_to_datetime (datetime_to_timestr dt) = Err ValueError.
Proof. exists (Dt 999 1 1 0 0 0 0 None). split; [apply valid_spec; reflexivity|vm_compute; reflexivity]. Qed.
Print Assumptions C128_year_refuted.
(** .. and other texts than YYYYMMDDTHHMMSS are accepted. *)
Theorem C128_format_refuted : exists s dt, length s = 10%nat /\ timestr_to_datetime s = Ok dt.
Proof. exists (s_ "202011T111"), (Dt 2020 1 1 1 1 1 0 None). split; [reflexivity|vm_compute; reflexivity]. Qed.
Print Assumptions C128_format_refuted.
Example C128_ex : datetime_to_timestr (Dt 2024 3 1 12 5 9 700 None) = s_ "20240301T120509Z" /\ timestr_to_datetime (s_ "20240301T120509.7abc") = Ok (Dt 2024 3 1 12 5 9 0 None) /\
  timestr_to_datetime (s_ "20240230T000000") = Err ValueError /\ timestr_to_datetime (s_ "20240301T000060") = Err ValueError.
Proof. repeat split; vm_compute; reflexivity. Qed.

(** * C129 *)
(** For whole microseconds, the time of the day is the remainder by the length of a day. *)
Theorem C129_remainder n : -62135596800000000 <= n <= 253402300799999999 -> exists q, time_of_day (TNum (n # 1000000)) = Ok q /\ (q == (n mod 86400000000) # 1000000)%Q.
Proof.
  intros N. unfold time_of_day, ensure_unix, ensure_unix_array. cbn [shape elems numeric mapM elem_number rbind].
  destruct (from_ok (n # 1000000)) as (dt & F & V & T & L).
  { rewrite round_us. unfold epoch_us. split; [apply Z.div_le_lower_bound; lia|]. apply Z.lt_succ_r. apply Z.div_lt_upper_bound; lia. }
  rewrite F. cbn [rbind]. unfold diff_seconds. rewrite T. cbn [tz]. eexists. split; [reflexivity|]. rewrite round_us in L.
  destruct (local_parts dt V) as (P1 & P2 & _). set (u := ((hh dt * 60 + mi dt) * 60 + ss dt) * 1000000 + us dt) in *. cbn [local_us yr mo dy hh mi ss us]. unfold local_us at 2. cbn [yr mo dy hh mi ss us].
  rewrite P1. set (o := ymd2ord _ _ _) in *. assert (E : n mod 86400000000 = u) by (symmetry; apply (Z.mod_unique _ _ (o - 719163)); unfold epoch_us in L; lia). rewrite E. unfold Qeq. cbn [Qnum Qden]. lia.
Qed.
Print Assumptions C129_remainder.
(** For datetimes, and for their texts, it is that of the instant in UTC. *)
Theorem C129_datetime dt q : datetime_to_unix dt = Ok q -> time_of_day (TDt dt) = time_of_day (TNum q).
Proof. intros H. unfold time_of_day, ensure_unix, ensure_unix_array. cbn [shape elems numeric mapM elem_number elem_to_unix rbind]. now rewrite H. Qed.
Print Assumptions C129_datetime.
Theorem C129_utc dt : proper dt -> tz dt = None \/ tz dt = Some 0 -> exists q, time_of_day (TDt dt) = Ok q /\ (q == inject_Z (3600 * hh dt + 60 * mi dt + ss dt) + (us dt # 1000000))%Q.
Proof.
  intros P Z. apply valid_spec in P. destruct (C129_remainder (instant dt)) as (q & T & Q).
  - pose proof (local_parts dt P) as (P1 & P2 & _). unfold instant. rewrite P1. apply valid_spec in P as [P _]. apply date_spec in P as (A & B & C). pose proof (ymd_range _ _ _ A B C). unfold epoch_us, offset. destruct Z as [-> | ->]; lia.
  - exists q. split; [rewrite (C129_datetime dt _ (to_unix dt)); exact T|]. rewrite Q. pose proof (local_parts dt P) as (P1 & P2 & _). unfold instant. rewrite P1.
    set (u := ((hh dt * 60 + mi dt) * 60 + ss dt) * 1000000 + us dt) in *. set (o := ymd2ord _ _ _). replace (offset dt) with 0 by (unfold offset; destruct Z as [-> | ->]; reflexivity).
    rewrite <- (Z.mod_unique (o * (86400 * 1000000) + u - epoch_us - 0 * 1000000) 86400000000 (o - 719163) u) by (unfold epoch_us; lia). unfold Qeq, Qplus, inject_Z, u. cbn [Qnum Qden]. lia.
Qed.
Print Assumptions C129_utc.
(** Each of several times, but not none at all *)
Theorem C129_array l r : time_of_day_array l = Ok r -> Forall2 (fun t q => time_of_day t = Ok q) l r.
Proof.
  unfold time_of_day_array. destruct l as [|t l]; [discriminate|]. generalize (t :: l). clear t l. intros l. revert r. induction l as [|t l IH]; intros r; cbn [mapM]; [intros H; injection H as <-; constructor|].
  destruct (time_of_day t) as [q|] eqn:E; [|discriminate]. cbn [rbind]. destruct (mapM time_of_day l) as [r'|]; [|discriminate]. cbn [rbind]. intros H. injection H as <-. constructor; auto.
Qed.
Print Assumptions C129_array.
Theorem C129_empty_refuted : exists l, (forall t, In t l -> exists q, time_of_day t = Ok q) /\ time_of_day_array l = Err ValueError.
Proof. exists []. split; [intros t []|]. reflexivity. Qed.
Print Assumptions C129_empty_refuted.
Example C129_ex : time_of_day_array [TNum (100000 # 1); TStr (s_ "20240301T000107Z")] = Ok [13600000000 # 1000000; 67000000 # 1000000].
Proof. vm_compute. reflexivity. Qed.

(** * C130 *)
Lemma mapM_ok {A B} (f : A -> res B) (g : A -> B) l : (forall x, In x l -> f x = Ok (g x)) -> mapM f l = Ok (map g l).
Proof. induction l as [|x l IH]; intros H; [reflexivity|]. cbn [mapM map]. rewrite H by now left. cbn [rbind]. rewrite IH by (intros y I; apply H; now right). reflexivity. Qed.
(** Numbers are kept, whatever the shape .. *)
Theorem C130_numbers l n s : n <> O -> ensure_unix (inr (TArr (n :: s) true (map TNum l))) = Ok (inr l).
Proof.
  intros N. unfold ensure_unix. cbn [shape]. destruct n as [|n]; [contradiction|]. unfold ensure_unix_array. cbn [shape elems numeric].
  assert (M : mapM elem_number (map TNum l) = Ok l) by (clear; induction l as [|x l IH]; [reflexivity|]; cbn [map mapM elem_number rbind]; rewrite IH; reflexivity).
  destruct s, l; cbn [map]; try (cbn [map] in M; rewrite M; reflexivity).
Qed.
Print Assumptions C130_numbers.
(** .. datetimes and their texts become UNIX times .. *)
Theorem C130_datetimes l n : n <> O -> length l = n -> exists qs, ensure_unix (inr (TArr [n] false (map TDt l))) = Ok (inr qs) /\ Forall2 (fun dt q => datetime_to_unix dt = Ok q) l qs.
Proof.
  intros N L. exists (map (fun dt => instant dt # 1000000) l). split.
  - unfold ensure_unix. cbn [shape]. destruct n as [|n]; [contradiction|]. unfold ensure_unix_array. cbn [shape elems]. destruct l as [|dt l]; [discriminate|]. cbn [map].
    change (TDt dt :: map TDt l) with (map TDt (dt :: l)). assert (M : forall k, mapM elem_to_unix (map TDt k) = Ok (map (fun dt => instant dt # 1000000) k)) by (clear; induction k as [|x k IH]; [reflexivity|]; cbn [map mapM elem_to_unix]; rewrite to_unix, IH; reflexivity). rewrite M. reflexivity.
  - clear. induction l; cbn [map]; constructor; auto. apply to_unix.
Qed.
Print Assumptions C130_datetimes.
Theorem C130_texts l n : n <> O -> length l = n -> Forall (fun dt => proper dt /\ 1000 <= yr dt /\ us dt = 0 /\ tz dt = None) l ->
  ensure_unix (inr (TArr [n] false (map (fun dt => TStr (datetime_to_timestr dt)) l))) = ensure_unix (inr (TArr [n] false (map TDt l))).
Proof.
  intros N L F. unfold ensure_unix. cbn [shape]. destruct n as [|n]; [contradiction|]. f_equal. unfold ensure_unix_array. cbn [shape elems]. destruct l as [|dt l]; [discriminate|]. cbn [map].
  change (TStr (datetime_to_timestr dt) :: map (fun dt => TStr (datetime_to_timestr dt)) l) with (map (fun dt => TStr (datetime_to_timestr dt)) (dt :: l)). change (TDt dt :: map TDt l) with (map TDt (dt :: l)).
  generalize dependent (dt :: l). clear dt l. intros l _ F. assert (M : mapM elem_to_datetime (map (fun dt => TStr (datetime_to_timestr dt)) l) = Ok (map TDt l)).
  { induction F as [|dt l (P & Y & U & Z) F IH]; [reflexivity|]. cbn [map mapM elem_to_datetime]. rewrite C128_inverse by assumption. cbn [rbind]. rewrite IH. cbn [rbind]. destruct dt. cbn in *. subst. reflexivity. }
  rewrite M. reflexivity.
Qed.
Print Assumptions C130_texts.
(** .. if all are of one kind .. *)
Theorem C130_mixed l x rest n : l <> [] -> Forall (fun dt => proper dt /\ 1000 <= yr dt /\ us dt = 0 /\ tz dt = None) l -> n <> O ->
  ((forall s, x <> TStr s) -> ensure_unix (inr (TArr [n] false (map (fun dt => TStr (datetime_to_timestr dt)) l ++ x :: rest))) = Err TypeError) /\
  ((forall dt, x <> TDt dt) -> ensure_unix (inr (TArr [n] false (map TDt l ++ x :: rest))) = Err AttributeError).
Proof.
  intros L F N. unfold ensure_unix. cbn [shape]. destruct n as [|n]; [contradiction|]. unfold ensure_unix_array. cbn [shape elems]. destruct l as [|dt l]; [contradiction|]. cbn [map app].
  change (TStr (datetime_to_timestr dt) :: map (fun dt => TStr (datetime_to_timestr dt)) l ++ x :: rest) with (map (fun dt => TStr (datetime_to_timestr dt)) (dt :: l) ++ x :: rest).
  change (TDt dt :: map TDt l ++ x :: rest) with (map TDt (dt :: l) ++ x :: rest). generalize dependent (dt :: l). clear dt l. intros l _ F. split; intros X.
  - assert (M : mapM elem_to_datetime (map (fun dt => TStr (datetime_to_timestr dt)) l ++ x :: rest) = Err TypeError).
    { induction F as [|dt l (P & Y & U & Z) F IH]; cbn [map app mapM elem_to_datetime].
      - destruct x; try reflexivity. destruct (X s). reflexivity.
      - rewrite C128_inverse by assumption. cbn [rbind]. rewrite IH. reflexivity. }
    rewrite M. reflexivity.
  - assert (M : mapM elem_to_unix (map TDt l ++ x :: rest) = Err AttributeError).
    { clear F. induction l as [|dt l IH]; cbn [map app mapM elem_to_unix].
      - destruct x; try reflexivity. destruct (X dt). reflexivity.
      - rewrite to_unix. cbn [rbind]. rewrite IH. reflexivity. }
    rewrite M. reflexivity.
Qed.
Print Assumptions C130_mixed.
(** .. one of them as well .. *)
Theorem C130_single q dt : ensure_unix (inl (TNum q)) = Ok (inl q) /\ exists t, datetime_to_unix dt = Ok t /\ ensure_unix (inl (TDt dt)) = Ok (inl t).
Proof. split; [reflexivity|]. eexists. split; [apply to_unix|]. unfold ensure_unix, ensure_unix_array. cbn [shape elems mapM elem_to_unix]. rewrite to_unix. reflexivity. Qed.
Print Assumptions C130_single.
(** .. but not datetimes in more than one dimension, nor arrays without dimension. *)
Theorem C130_shape_refuted : exists n m l, length l = (n * m)%nat /\ (n * m <> 0)%nat /\ ensure_unix (inr (TArr [n; m] false (map TDt l))) = Err TypeError.
Proof. exists 1%nat, 1%nat, [Dt 2024 3 1 0 0 0 0 None]. split; [reflexivity|]. split; [discriminate|reflexivity]. Qed.
Print Assumptions C130_shape_refuted.
Theorem C130_scalar_refuted : exists q, ensure_unix (inr (TArr [] true [TNum q])) = Err TypeError /\ ensure_unix (inl (TNum q)) = Ok (inl q).
Proof. exists 0%Q. split; reflexivity. Qed.
Print Assumptions C130_scalar_refuted.
Example C130_ex : ensure_unix (inr (TArr [2%nat] false [TStr (s_ "20240301T000000Z"); TStr (s_ "20240302T000000Z")])) = Ok (inr [1709251200000000 # 1000000; 1709337600000000 # 1000000]) /\
  ensure_unix (inl TObj) = Err TypeError.
Proof. split; vm_compute; reflexivity. Qed.
