(** Skyfield's data, times and directions: theorems.  Model: SkyModel.v; specification: SkySpec.v, TimeSpec.v. *)
From Coq Require Import String.
From Coq Require Import List Ascii Bool Arith ZArith QArith Qabs Reals Lia Lqa.
From Verif Require Import PyBase PyStr TimeModel TimeSpec TimeProofs TimeProofs2 SkyModel SkySpec SkyProofs.
Import ListNotations.
Open Scope list_scope.
Open Scope nat_scope.

(** C313: whatever the loader and the network answer, and whatever was used before, the timescale is loaded at most
    once with success: later uses give the same object and ask nothing; *)
Theorem C313_once : forall O (env : nat -> call -> answer O) name us pre mid post o cs r cs' kind,
  kind = UTimescale \/ kind = UEphemeris ->
  uses O env (fresh O name) us = pre ++ (kind, OGot o, cs) :: mid ++ (kind, r, cs') :: post ->
  r = OGot o /\ cs' = [].
Proof.
  intros O env name us pre mid post o cs r cs' kind K H.
  assert (H' : uses O env (fresh O name) us = (pre ++ (kind, OGot o, cs) :: mid) ++ (kind, r, cs') :: post)
    by (rewrite H, <- app_assoc; reflexivity).
  assert (I : In (kind, OGot o, cs) (pre ++ (kind, OGot o, cs) :: mid)) by (apply in_or_app; right; left; reflexivity).
  destruct K as [->| ->].
  - refine (proj1 (uses_first O env UTimescale (ts_cache O) (fun _ => CTimescale) (fun _ => _)
      (timescale_own O env) (timescale_others O env) ltac:(intros []; [left|right|right]; congruence) us (fresh O name) _ _ _ _ eq_refl H') o cs I).
  - refine (proj1 (uses_first O env UEphemeris (eph_cache O) CLoad (fun n => [CDownload (mirror_url ++ n)])
      (ephemeris_own O env) (ephemeris_others O env) ltac:(intros []; [right|left|right]; congruence) us (fresh O name) _ _ _ _ eq_refl H') o cs I).
Qed.
Print Assumptions C313_once.
(** until then every use tries the official source, then, if that failed with an [OSError], all files of the mirror in
    order and the official way again; the outcome is that of the last call. *)
Theorem C313_timescale : forall O (env : nat -> call -> answer O) name us pre r cs post,
  uses O env (fresh O name) us = pre ++ (UTimescale, r, cs) :: post ->
  (forall o cs0, ~ In (UTimescale, OGot o, cs0) pre) ->
  exists a, tries call O fail OSErr CTimescale
              [CDownload (list_ascii_of_string "https://bao.chimenet.ca/skyfield/Leap_Second.dat");
               CDownload (list_ascii_of_string "https://bao.chimenet.ca/skyfield/finals2000A.all")] (seen cs) a /\
            match a with Got _ _ o => r = OGot o | Not _ _ f => r = OFailed f end.
Proof.
  intros O env name us pre r cs post H N.
  destruct (proj2 (uses_first O env UTimescale (ts_cache O) (fun _ => CTimescale) (fun _ => _)
      (timescale_own O env) (timescale_others O env) ltac:(intros []; [left|right|right]; congruence) us (fresh O name) _ _ _ _ eq_refl H) N)
    as [a [T A]].
  exists a. split; [exact T|]. destruct r, a; simpl in A; try contradiction; congruence.
Qed.
Print Assumptions C313_timescale.
Theorem C313_ephemeris : forall O (env : nat -> call -> answer O) name us pre r cs post,
  uses O env (fresh O name) us = pre ++ (UEphemeris, r, cs) :: post ->
  (forall o cs0, ~ In (UEphemeris, OGot o, cs0) pre) ->
  exists a, tries call O fail OSErr (CLoad name)
              [CDownload (list_ascii_of_string "https://bao.chimenet.ca/skyfield/" ++ name)] (seen cs) a /\
            match a with Got _ _ o => r = OGot o | Not _ _ f => r = OFailed f end.
Proof.
  intros O env name us pre r cs post H N.
  destruct (proj2 (uses_first O env UEphemeris (eph_cache O) CLoad (fun n => [CDownload (mirror_url ++ n)])
      (ephemeris_own O env) (ephemeris_others O env) ltac:(intros []; [right|left|right]; congruence) us (fresh O name) _ _ _ _ eq_refl H) N)
    as [a [T A]].
  exists a. split; [exact T|]. destruct r, a; simpl in A; try contradiction; congruence.
Qed.
Print Assumptions C313_ephemeris.
(** [reload] fetches both files from the official sources, up to the first failure. *)
Theorem C313_reload : forall O (env : nat -> call -> answer O) name us r cs,
  In (UReload, r, cs) (uses O env (fresh O name) us) ->
  let files := [CDownload (list_ascii_of_string "finals2000A.all"); CDownload name] in
  (r = ODone /\ map fst cs = files /\ all_got call O fail (seen cs)) \/
  (exists xs u f ys, cs = xs ++ [(CDownload u, Fails f)] /\ r = OFailed f /\ all_got call O fail (seen xs) /\
     map fst xs ++ CDownload u :: ys = files).
Proof. intros O env name us r cs H. apply (reload_uses O env us (fresh O name) r cs H). Qed.
Print Assumptions C313_reload.
(** The directory: the argument, else the environment's, else the package's. *)
Theorem C313_path : forall path environ here,
  (forall p, path = Some p -> data_path path environ here = p) /\
  (forall p, path = None -> environ = Some p -> data_path path environ here = p) /\
  (path = None -> environ = None -> data_path path environ here = here ++ list_ascii_of_string "/_skyfield_data/").
Proof. intros path environ here. repeat split; intros; subst; reflexivity. Qed.
Print Assumptions C313_path.

(** The official source is down at first, the mirror lacks one file the first time. *)
Definition ex_env (n : nat) (c : call) : answer nat :=
  match n with 0 => Fails OSErr | 1 => Gives 0 | 2 => Fails OSErr | 3 => Fails OSErr | _ => Gives n end.
Example C313_ex :
  map (fun x => (fst x, length (snd x))) (uses nat ex_env (fresh nat (list_ascii_of_string "de421.bsp")) [UTimescale; UTimescale; UEphemeris; UTimescale; UReload; UEphemeris])
  = [((UTimescale, OFailed OSErr), 3); ((UTimescale, OGot 6), 4); ((UEphemeris, OGot 7), 1);
     ((UTimescale, OGot 6), 0); ((UReload, ODone), 2); ((UEphemeris, OGot 7), 0)].
Proof. vm_compute. reflexivity. Qed.

(** C314: "after a successful [reload] the data used are those reloaded": what was loaded before stays in use. *)
Definition reloaded {O} (l : list (use * outcome O * list (call * answer O))) : Prop :=
  forall pre cs kind r cs' post, kind = UTimescale \/ kind = UEphemeris ->
    l = pre ++ (UReload, ODone, cs) :: (kind, r, cs') :: post -> cs' <> [].
Theorem C314_reload_refuted : exists (env : nat -> call -> answer nat) name us, ~ reloaded (uses nat env (fresh nat name) us).
Proof.
  exists (fun n _ => Gives n), (list_ascii_of_string "de421.bsp"), [UTimescale; UReload; UTimescale]. intros H.
  refine (H [(UTimescale, OGot 0, [(CTimescale, Gives 0)])] _ UTimescale (OGot 0) [] [] (or_introl eq_refl) _ eq_refl).
  vm_compute. reflexivity.
Qed.
Print Assumptions C314_reload_refuted.
(** Data not loaded before the [reload] are loaded after it. *)
Theorem C314_first : forall O (env : nat -> call -> answer O) name us pre cs kind r cs' post,
  kind = UTimescale \/ kind = UEphemeris ->
  uses O env (fresh O name) us = pre ++ (UReload, ODone, cs) :: (kind, r, cs') :: post ->
  (forall o cs0, ~ In (kind, OGot o, cs0) pre) -> cs' <> [].
Proof.
  intros O env name us pre cs kind r cs' post K H N E. subst cs'.
  assert (H' : uses O env (fresh O name) us = (pre ++ [(UReload, ODone, cs)]) ++ (kind, r, []) :: post)
    by (rewrite H, <- app_assoc; reflexivity).
  assert (N' : forall o cs0, ~ In (kind, OGot o, cs0) (pre ++ [(UReload, ODone, cs)])).
  { intros o cs0 I. apply in_app_or in I. destruct I as [I|[I|[]]]; [exact (N o cs0 I)|].
    inversion I. }
  destruct K as [->| ->].
  - destruct (C313_timescale _ _ _ _ _ _ _ _ H' N') as [a [T _]]. inversion T.
  - destruct (C313_ephemeris _ _ _ _ _ _ _ _ H' N') as [a [T _]]. inversion T.
Qed.
Print Assumptions C314_first.

(** C315: a UNIX time becomes its date and the seconds since midnight: the same instant. *)
Lemma floorQ_bounds : forall q, (inject_Z (floorQ q) <= q)%Q /\ (q < inject_Z (floorQ q) + 1)%Q.
Proof.
  intros [n d]. unfold floorQ, inject_Z, Qle, Qlt, Qplus. simpl.
  pose proof (Z.div_mod n (Z.pos d) ltac:(discriminate)). pose proof (Z.mod_pos_bound n (Z.pos d) ltac:(reflexivity)). nia.
Qed.
Theorem C315_instant : forall t, (-62135596800 <= t)%Q -> (t < 253402300800)%Q ->
  exists y m d s a, unix_to_skyfield_time t = (y, m, d, s) /\ date_ok y m d /\ (0 <= s < 86400)%Q /\
    datetime_to_unix (Dt y m d 0 0 0 0 (Some 0%Z)) = Ok a /\ (t == a + s)%Q.
Proof.
  intros t A B. unfold unix_to_skyfield_time. destruct (floorQ_bounds (t / 86400)) as [L U].
  set (n := floorQ (t / 86400)) in *.
  assert (L' : (inject_Z n * 86400 <= t)%Q).
  { setoid_replace t with ((t / 86400) * 86400)%Q by field. apply Qmult_le_compat_r; [exact L|discriminate]. }
  assert (U' : (t < inject_Z n * 86400 + 86400)%Q).
  { setoid_replace t with ((t / 86400) * 86400)%Q by field.
    setoid_replace (inject_Z n * 86400 + 86400)%Q with ((inject_Z n + 1) * 86400)%Q by ring.
    apply Qmult_lt_compat_r; [reflexivity|exact U]. }
  assert (N : (1 <= 719163 + n <= 3652059)%Z).
  { assert (X : (-62135596800 < inject_Z n * 86400 + 86400)%Q) by (eapply Qle_lt_trans; eassumption).
    assert (Y : (inject_Z n * 86400 < 253402300800)%Q) by (eapply Qle_lt_trans; eassumption).
    unfold Qlt, Qplus, Qmult, inject_Z in X, Y. simpl in X, Y. lia. }
  destruct (ymd_surj _ N) as [y [m [d [Y [M [D E]]]]]].
  exists y, m, d, (t - inject_Z n * 86400)%Q, (instant (Dt y m d 0 0 0 0 (Some 0%Z)) # 1000000).
  split; [rewrite <- E, ord_ymd by lia; reflexivity|].
  split; [apply date_spec; auto|]. split; [split; lra|]. split; [apply to_unix|].
  assert (I : (instant (Dt y m d 0 0 0 0 (Some 0%Z)) # 1000000 == inject_Z n * 86400)%Q).
  { unfold instant, offset, local_us, epoch_us. cbn [yr mo dy hh mi ss us tz]. rewrite E. unfold Qeq, Qmult, inject_Z. cbn [Qnum Qden]. lia. }
  rewrite I. ring.
Qed.
Print Assumptions C315_instant.
(** There and back: as far off as Skyfield's datetimes are, at most. *)
Theorem C315_back : forall utc_datetime eps,
  (forall y m d s, date_ok y m d -> (0 <= s < 86400)%Q -> exists a q,
     datetime_to_unix (Dt y m d 0 0 0 0 (Some 0%Z)) = Ok a /\
     datetime_to_unix (utc_datetime (y, m, d, s)) = Ok q /\ (Qabs (q - (a + s)) <= eps)%Q) ->
  forall t, (-62135596800 <= t)%Q -> (t < 253402300800)%Q ->
  exists q, skyfield_time_to_unix utc_datetime (unix_to_skyfield_time t) = Ok q /\ (Qabs (q - t) <= eps)%Q.
Proof.
  intros utc eps H t A B. destruct (C315_instant t A B) as [y [m [d [s [a [E [D [S [M I]]]]]]]]].
  destruct (H y m d s D S) as [a' [q [M' [Q R]]]]. rewrite M in M'. inversion M'; subst a'.
  exists q. rewrite E. split; [exact Q|]. rewrite I. exact R.
Qed.
Print Assumptions C315_back.
Example C315_ex : unix_to_skyfield_time (-1 # 2) = (1969%Z, 12%Z, 31%Z, ((-1 # 2) - -1 * 86400)%Q) /\
  fst (unix_to_skyfield_time 1709227815) = (2024%Z, 2%Z, 29%Z) /\ (snd (unix_to_skyfield_time 1709227815) == 63015)%Q.
Proof. split; [vm_compute; reflexivity|]. split; vm_compute; reflexivity. Qed.
(** Datetimes to the millisecond, as Skyfield gives them on days without leap second *)
Definition utc_ms (st : Z * Z * Z * Q) : datetime :=
  let '(y, m, d, s) := st in
  let ms := floorQ (s * 1000 + (1 # 2)) in
  match datetime_to_unix (Dt y m d 0 0 0 0 (Some 0%Z)) with
  | Ok a => match unix_to_datetime (a + (ms # 1000)) with Ok dt => dt | Err _ => Dt 0 0 0 0 0 0 0 None end
  | Err _ => Dt 0 0 0 0 0 0 0 None
  end.
Example C315_back_ex : exists q, skyfield_time_to_unix utc_ms (unix_to_skyfield_time (1709227815 + (2504 # 10000))) = Ok q /\
  (q == 1709227815 + (250 # 1000))%Q.
Proof. eexists. split; [vm_compute; reflexivity|]. vm_compute. reflexivity. Qed.

(** C316: the direction whose right ascension [transit_RA] gives is on the meridian and on the equator, at every
    latitude: nothing of it points east or to the pole. *)
Open Scope R_scope.
Theorem C316_direction : forall latitude,
  let '(az, alt) := transit_direction latitude in
  let lat := rad latitude in
  east (rad az) (rad alt) = 0 /\ polar lat (rad az) (rad alt) = 0 /\ meridian lat (rad az) (rad alt) = 1.
Proof.
  intros latitude. unfold transit_direction, east, polar, meridian, north, up. cbv zeta.
  assert (E1 : rad 180 = PI) by (unfold rad; field). rewrite E1, sin_PI, cos_PI.
  assert (E2 : rad (90 - latitude) = PI / 2 - rad latitude) by (unfold rad; field).
  rewrite E2, cos_shift, sin_shift. pose proof (sin2_cos2 (rad latitude)) as P. unfold Rsqr in P.
  split; [ring|]. split; [ring|]. rewrite <- P. ring.
Qed.
Print Assumptions C316_direction.
(** At latitude 90 it is the horizon in the south, at the equator the zenith. *)
Example C316_ex : transit_direction 90 = (180, 0) /\ transit_direction 0 = (180, 90) /\
  polar (rad 90) (rad 180) (rad 0) = 0 /\ polar (rad 90) (rad 180) (rad 90) = 1.
Proof.
  unfold transit_direction. split; [f_equal; ring|]. split; [f_equal; ring|].
  unfold polar, north, up. assert (E : rad 90 = PI / 2) by (unfold rad; field). rewrite E, cos_PI2, sin_PI2.
  assert (Z0 : rad 0 = 0) by (unfold rad; field). rewrite Z0, sin_0. split; ring.
Qed.
