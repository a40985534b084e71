(** C360-C363: times as doubles. *)
From Coq Require Import ZArith QArith Qreals Reals List Bool Lia Lra Psatz.
From Flocq Require Import Core IEEE754.BinarySingleNaN IEEE754.Binary IEEE754.Bits.
From Verif Require Import PyBase TimeModel TimeSpec TimeProofs TimeProofs2 TimeProps TruncModel TruncSpec BtModel BtSpec InvModel InvSpec InvProofs TfModel TfProofs TfProofs2.
Import ListNotations.
Open Scope Z_scope.

(** * C360 *)
(** Datetimes of the years 1698 to 2241 are recovered from their UNIX times .. *)
Theorem C360_inverse : forall dt, proper dt -> tz dt = None \/ tz dt = Some 0 -> 1698 <= yr dt <= 2241 ->
  exists w, datetime_to_unix64 dt = Ok w /\ unix_to_datetime64 w = Ok (Dt (yr dt) (mo dt) (dy dt) (hh dt) (mi dt) (ss dt) (us dt) (Some 0)).
Proof.
  intros dt P T Y. apply valid_spec in P. exists (total_seconds (instant dt)). split; [apply to_unix64|].
  unfold unix_to_datetime64. rewrite (from64 _ (instant dt) dt (back_exact _ (recent dt P T Y)) P); [reflexivity|].
  unfold instant, offset. destruct T as [-> | ->]; lia.
Qed.
Print Assumptions C360_inverse.
(** .. which are the doubles nearest to the exact ones. *)
Theorem C360_nearest : forall dt, proper dt -> tz dt = None \/ tz dt = Some 0 -> 1698 <= yr dt <= 2241 ->
  exists w q, datetime_to_unix64 dt = Ok w /\ datetime_to_unix dt = Ok q /\ NearestDouble (Q2R q) w.
Proof.
  intros dt P T Y. apply valid_spec in P. exists (total_seconds (instant dt)), (instant dt # 1000000).
  split; [apply to_unix64|]. split; [apply to_unix|]. apply nearest64; [apply total_word|]. apply total_exact.
  pose proof (recent dt P T Y). lia.
Qed.
Print Assumptions C360_nearest.
Example C360_example : datetime_to_unix64 (Dt 2024 3 1 17 30 15 250001 None) = Ok 4744956191444041732
  /\ unix_to_datetime64 4744956191444041732 = Ok (Dt 2024 3 1 17 30 15 250001 (Some 0))
  /\ proper (Dt 2024 3 1 17 30 15 250001 None).
Proof. split; [vm_compute; reflexivity|]. split; [vm_compute; reflexivity|]. apply valid_spec. reflexivity. Qed.

(** * C361: all datetimes: refuted, since doubles are too far apart from 2242 on .. *)
Theorem C361_refuted : exists dt w dt', proper dt /\ tz dt = Some 0 /\ yr dt = 2242 /\ datetime_to_unix64 dt = Ok w
  /\ unix_to_datetime64 w = Ok dt' /\ us dt = 1 /\ us dt' = 2.
Proof.
  exists (Dt 2242 3 16 12 56 32 1 (Some 0)), 4755801206503243777, (Dt 2242 3 16 12 56 32 2 (Some 0)).
  split; [apply valid_spec; reflexivity|]. repeat split; vm_compute; reflexivity.
Qed.
Print Assumptions C361_refuted.
(** .. and the last one is after the year 9999. *)
Theorem C361_last_refuted : exists dt w, proper dt /\ tz dt = Some 0 /\ datetime_to_unix64 dt = Ok w /\ unix_to_datetime64 w = Err ValueError.
Proof.
  exists (Dt 9999 12 31 23 59 59 999999 (Some 0)). eexists. split; [apply valid_spec; reflexivity|]. split; [reflexivity|].
  split; [vm_compute; reflexivity|vm_compute; reflexivity].
Qed.
Print Assumptions C361_last_refuted.
(** They are moved by at most 15 microseconds. *)
Theorem C361_close_partial : forall dt, proper dt -> tz dt = None \/ tz dt = Some 0 -> 2 <= yr dt <= 9998 ->
  exists w dt' q q', datetime_to_unix64 dt = Ok w /\ unix_to_datetime64 w = Ok dt' /\ proper dt' /\ tz dt' = Some 0 /\
    datetime_to_unix dt = Ok q /\ datetime_to_unix dt' = Ok q' /\ (Rabs (Q2R q' - Q2R q) <= 15 / 1000000)%R.
Proof.
  intros dt P T Y. apply valid_spec in P. pose proof (instant_bounds dt 2 9998 P T Y) as B.
  change (days_before_year 2) with 365 in B. change (days_before_year 9998) with 3651329 in B. unfold epoch_us in B.
  destruct (back_close (instant dt)) as (r & E & C); [lia|].
  destruct (from64_ok _ r E) as (dt' & F & V & T' & I); [lia|].
  exists (total_seconds (instant dt)), dt', (instant dt # 1000000), (instant dt' # 1000000).
  split; [apply to_unix64|]. split; [unfold unix_to_datetime64; rewrite F; cbn [rbind]; unfold naive_datetime_to_utc; rewrite T'; reflexivity|].
  split; [now apply valid_spec|]. split; [exact T'|]. split; [apply to_unix|]. split; [apply to_unix|].
  rewrite I. unfold Q2R. cbn [Qnum Qden]. rewrite <- Rmult_minus_distr_r, <- minus_IZR, Rabs_mult, <- abs_IZR. rewrite (Rabs_pos_eq (/ 1000000)) by lra.
  unfold Rdiv. apply Rmult_le_compat_r; [lra|]. now apply IZR_le.
Qed.
Print Assumptions C361_close_partial.

(** * C362 *)
(** Every double from year 1 to year 9999 becomes a datetime at most a little more than half a microsecond away. *)
Theorem C362_close_partial : forall w d, Word 64 w -> IsDouble w d -> (-62135596800 <= d <= 253402300799)%R ->
  exists dt q, unix_to_datetime64 w = Ok dt /\ proper dt /\ tz dt = Some 0 /\ datetime_to_unix dt = Ok q /\
    (Rabs (Q2R q - d) <= (/ 2 + / 1000000) / 1000000)%R.
Proof.
  intros w d W H B. destruct (timestamp_close w d W H) as (r & E & C).
  - apply Rle_trans with 253402300799%R; [apply Rabs_le; lra|]. lra.
  - assert (N : -62135596800000000 <= r <= 253402300799999999).
    { apply Rabs_le_inv in C. split; apply Z.lt_succ_r; apply lt_IZR; unfold Z.succ; rewrite ?plus_IZR; lra. }
    destruct (from64_ok w r E N) as (dt & F & V & T & I). exists dt, (instant dt # 1000000).
    split; [unfold unix_to_datetime64; rewrite F; cbn [rbind]; unfold naive_datetime_to_utc; rewrite T; reflexivity|].
    split; [now apply valid_spec|]. split; [exact T|]. split; [apply to_unix|]. rewrite I. unfold Q2R. cbn [Qnum Qden].
    replace (IZR r * / 1000000 - d)%R with ((IZR r - d * 1000000) * / 1000000)%R by field. rewrite Rabs_mult, (Rabs_pos_eq (/ 1000000)) by lra.
    unfold Rdiv. apply Rmult_le_compat_r; lra.
Qed.
Print Assumptions C362_close_partial.
(** The nearest one: refuted by 2.5 microseconds, since the product of the fraction with a million is rounded first. *)
Theorem C362_refuted : exists w d dt q dt' q', Word 64 w /\ IsDouble w d /\ unix_to_datetime64 w = Ok dt /\ datetime_to_unix dt = Ok q /\
  proper dt' /\ datetime_to_unix dt' = Ok q' /\ (Rabs (Q2R q' - d) < Rabs (Q2R q - d))%R.
Proof.
  exists 4523013384356194545, (5902958103587057 / 2 ^ 71)%R, (Dt 1970 1 1 0 0 0 2 (Some 0)), (2 # 1000000), (Dt 1970 1 1 0 0 0 3 (Some 0)), (3 # 1000000).
  split; [split; vm_compute; congruence|]. split.
  { exists (5902958103587057 * 2 ^ 1003). split; [vm_compute; reflexivity|]. exact (scale_units 5902958103587057 1003 71). }
  split; [vm_compute; reflexivity|]. split; [vm_compute; reflexivity|]. split; [apply valid_spec; reflexivity|]. split; [vm_compute; reflexivity|].
  unfold Q2R. cbn [Qnum Qden]. rewrite (Rabs_pos_eq (3 * _ - _)) by lra. rewrite Rabs_minus_sym, Rabs_pos_eq by lra. lra.
Qed.
Print Assumptions C362_refuted.
(** What is not finite is refused. *)
Theorem C362_special : (forall w, is_nan 53 1024 (b64_of_bits (w mod 2 ^ 64)) = true -> unix_to_datetime64 w = Err ValueError) /\
  unix_to_datetime64 (2047 * 2 ^ 52) = Err OtherException /\ unix_to_datetime64 (2047 * 2 ^ 52 - 2 ^ 63) = Err OtherException.
Proof.
  split; [|split; vm_compute; reflexivity]. intros w N.
  assert (E : b64_of_bits (w mod 2 ^ 64) = f64 w) by reflexivity. rewrite E in N.
  unfold unix_to_datetime64, fromtimestamp64, timestamp_us. destruct (f64 w); try discriminate. reflexivity.
Qed.
Print Assumptions C362_special.
Example C362_example : unix_to_datetime64 4744956191444041732 = Ok (Dt 2024 3 1 17 30 15 250001 (Some 0)) /\ unix_to_datetime64 (-2 ^ 63) = Ok (Dt 1970 1 1 0 0 0 0 (Some 0)).
Proof. split; vm_compute; reflexivity. Qed.

(** * C363 *)
(** The time of the day of a double is the nearest double to that of its datetime .. *)
Theorem C363_number : forall w dt, unix_to_datetime64 w = Ok dt ->
  exists r, time_of_day64 w = Ok r /\ NearestDouble (IZR (3600 * hh dt + 60 * mi dt + ss dt) + IZR (us dt) / 1000000) r.
Proof.
  intros w dt E. unfold unix_to_datetime64 in E. destruct (fromtimestamp64 w) as [dt0|] eqn:F; [|discriminate]. cbn [rbind] in E. injection E as E.
  assert (G : valid dt0 = true /\ tz dt0 = Some 0).
  { unfold fromtimestamp64 in F. destruct (timestamp_us w) as [n|]; [|discriminate]. cbn [rbind] in F.
    assert (D : 1 <= (round_half_even ((n # 1000000) * inject_Z 1000000) + epoch_us) / (86400 * 1000000) <= 3652059 \/
      ~ 1 <= (round_half_even ((n # 1000000) * inject_Z 1000000) + epoch_us) / (86400 * 1000000) <= 3652059) by lia. destruct D as [D|D].
    - destruct (from_ok _ D) as (dt1 & F1 & V & T & _). rewrite F in F1. injection F1 as ->. now split.
    - rewrite (from_err _ D) in F. discriminate. }
  destruct G as [V T]. assert (E0 : dt0 = dt) by (unfold naive_datetime_to_utc in E; rewrite T in E; exact E). subst dt0.
  unfold time_of_day64. rewrite F. cbn [rbind]. unfold diff_us. cbn [tz]. rewrite T. cbn [rbind].
  set (n := local_us dt - 0 * 1000000 - (local_us (Dt (yr dt) (mo dt) (dy dt) 0 0 0 0 (Some 0)) - 0 * 1000000)).
  assert (N : n = (3600 * hh dt + 60 * mi dt + ss dt) * 1000000 + us dt) by (unfold n, local_us; cbn [yr mo dy hh mi ss us]; lia).
  exists (total_seconds n). split; [reflexivity|]. apply nearest64; [apply total_word|].
  apply valid_spec in V as [_ (A & B & C & D)].
  replace (IZR (3600 * hh dt + 60 * mi dt + ss dt) + IZR (us dt) / 1000000)%R with (IZR n / 1000000)%R.
  - apply total_exact. rewrite N. lia.
  - rewrite N, plus_IZR, mult_IZR. field.
Qed.
Print Assumptions C363_number.
(** .. and so for datetimes of the years 1698 to 2241. *)
Theorem C363_datetime : forall dt, proper dt -> tz dt = None \/ tz dt = Some 0 -> 1698 <= yr dt <= 2241 ->
  exists r, time_of_day_dt dt = Ok r /\ NearestDouble (IZR (3600 * hh dt + 60 * mi dt + ss dt) + IZR (us dt) / 1000000) r.
Proof.
  intros dt P T Y. destruct (C360_inverse dt P T Y) as (w & E & F). destruct (C363_number w _ F) as (r & R & N). cbn [hh mi ss us] in N.
  exists r. split; [|exact N]. unfold time_of_day_dt. rewrite E. exact R.
Qed.
Print Assumptions C363_datetime.
Example C363_example : time_of_day64 4744956191444041732 = Ok 4678893563596118239 /\ time_of_day_dt (Dt 2024 3 1 0 0 1 0 None) = Ok one64.
Proof. split; vm_compute; reflexivity. Qed.
