(** Lemmas about the partitioning model. *)
From Coq Require Import List Arith Lia Bool Permutation Sorted.
From Verif Require Import PyBase PartModel PartSpec.
Import ListNotations.

(** *** Closed form of the split *)


Arguments part_of : simpl never.
Arguments start_of : simpl never.

Lemma start_of_S : forall n m i, start_of n m (S i) = start_of n m i + part_of n m i.
Proof.
  intros. unfold start_of, part_of. destruct (Nat.ltb_spec i (n mod m)); lia.
Qed.

Lemma start_of_0 : forall n m, start_of n m 0 = 0.
Proof. reflexivity. Qed.

Lemma start_of_m : forall n m, m <> 0 -> start_of n m m = n.
Proof.
  intros n m Hm. unfold start_of.
  pose proof (Nat.mod_upper_bound n m Hm).
  pose proof (Nat.div_mod n m Hm). rewrite Nat.min_r by lia. lia.
Qed.

Lemma start_of_mono : forall n m i j, i <= j -> start_of n m i <= start_of n m j.
Proof.
  intros n m i j H. induction H; auto. rewrite start_of_S. lia.
Qed.

Lemma sum_parts : forall n m k j,
  list_sum (firstn k (map (part_of n m) (seq j k))) =
  start_of n m (j + k) - start_of n m j.
Proof.
  intros n m k. induction k as [|k IH]; intros j.
  - simpl. rewrite Nat.add_0_r. lia.
  - cbn [seq map firstn]. rewrite list_sum_cons, IH.
    replace (j + S k) with (S j + k) by lia.
    pose proof (start_of_mono n m (S j) (S j + k) ltac:(lia)).
    rewrite (start_of_S n m j) in *. lia.
Qed.

Lemma firstn_map_seq : forall (f : nat -> nat) k m, k <= m ->
  firstn k (map f (seq 0 m)) = map f (seq 0 k).
Proof.
  intros f k m H. rewrite firstn_map. f_equal.
  replace m with (k + (m - k)) by lia. rewrite seq_app.
  rewrite firstn_app, seq_length, Nat.sub_diag. simpl.
  rewrite app_nil_r. rewrite firstn_all2; auto. now rewrite seq_length.
Qed.

Lemma cumsum_parts : forall n m,
  cumsum (0 :: map (part_of n m) (seq 0 m)) = map (start_of n m) (seq 0 (S m)).
Proof.
  intros n m.
  assert (E : forall l acc, cumsum_from acc l =
     map (fun k => acc + list_sum (firstn (S k) l)) (seq 0 (length l))).
  { induction l as [|x l IH]; intros acc; simpl length; auto.
    cbn [cumsum_from seq map].
    rewrite <- seq_shift, map_map. f_equal.
    - simpl. lia.
    - rewrite IH. apply map_ext. intros k.
      change (firstn (S (S k)) (x :: l)) with (x :: firstn (S k) l).
      rewrite list_sum_cons. lia. }
  unfold cumsum. rewrite E. cbn [length]. rewrite map_length, seq_length.
  apply map_ext_in. intros k Hk. rewrite in_seq in Hk.
  cbn [firstn]. rewrite list_sum_cons.
  rewrite firstn_map_seq by lia.
  pose proof (sum_parts n m k 0) as HS.
  rewrite firstn_all2 in HS by (rewrite map_length, seq_length; lia).
  rewrite HS, start_of_0. simpl. lia.
Qed.

Lemma seq_last_cut : forall m, firstn m (seq 0 (S m)) = seq 0 m.
Proof.
  intros. rewrite seq_S. rewrite firstn_app, seq_length, Nat.sub_diag. simpl.
  rewrite app_nil_r. apply firstn_all2. now rewrite seq_length.
Qed.

Lemma split_m_closed : forall n m, m <> 0 ->
  split_m n m = Ok (map (part_of n m) (seq 0 m), map (start_of n m) (seq 0 m),
                    map (start_of n m) (seq 1 m)).
Proof.
  intros n m Hm. unfold split_m.
  destruct (Nat.eqb_spec m 0); [lia|].
  assert (E : map (fun i => n / m * 1 + (if i <? n mod m then 1 else 0)) (seq 0 m)
              = map (part_of n m) (seq 0 m)).
  { apply map_ext. intros i. unfold part_of. lia. }
  rewrite E, cumsum_parts. do 2 f_equal.
  - f_equal. rewrite firstn_map. now rewrite seq_last_cut.
  - unfold lslice. replace (m + 1 - 1) with m by lia.
    cbn [seq map skipn]. rewrite firstn_all2; auto.
    now rewrite map_length, seq_length.
Qed.

Lemma num_lst_parts : forall N n, n <> 0 ->
  repeat (N / n + 1) (N mod n) ++ repeat (N / n) (n - N mod n) =
  map (part_of N n) (seq 0 n).
Proof.
  intros N n Hn. pose proof (Nat.mod_upper_bound N n Hn) as Hr.
  assert (Es : seq 0 n = seq 0 (N mod n) ++ seq (N mod n) (n - N mod n)).
  { rewrite <- seq_app. f_equal. lia. }
  rewrite Es, map_app. f_equal.
  - assert (E : forall k j, j + k <= N mod n ->
       repeat (N / n + 1) k = map (part_of N n) (seq j k)).
    { induction k as [|k IH]; intros j Hj; simpl; auto. f_equal.
      - unfold part_of. destruct (Nat.ltb_spec j (N mod n)); lia.
      - apply IH. lia. }
    apply E. lia.
  - assert (E : forall k j, N mod n <= j ->
       repeat (N / n) k = map (part_of N n) (seq j k)).
    { induction k as [|k IH]; intros j Hj; simpl; auto. f_equal.
      - unfold part_of. destruct (Nat.ltb_spec j (N mod n)); lia.
      - apply IH. lia. }
    apply E. lia.
Qed.

Lemma nth_error_map_seq : forall A (f : nat -> A) a m i, i < m ->
  nth_error (map f (seq a m)) i = Some (f (a + i)).
Proof.
  intros. rewrite nth_error_map', nth_error_seq.
  destruct (Nat.ltb_spec i m); [auto|lia].
Qed.

Lemma nth_error_map_seq_inv : forall A (f : nat -> A) a m i x,
  nth_error (map f (seq a m)) i = Some x -> i < m /\ x = f (a + i).
Proof.
  intros A f a m i x H. rewrite nth_error_map', nth_error_seq in H.
  destruct (Nat.ltb_spec i m); [|discriminate]. inversion H. auto.
Qed.

Lemma partition_bounds_closed : forall N n i, n <> 0 -> i < n ->
  partition_bounds N n i = Ok (start_of N n i, start_of N n (S i)).
Proof.
  intros N n i Hn Hi. unfold partition_bounds.
  destruct (Nat.eqb_spec n 0); [lia|].
  rewrite num_lst_parts, cumsum_parts by auto.
  rewrite !nth_error_map_seq by lia. simpl. now rewrite Nat.add_1_r.
Qed.

Lemma part_of_even : forall n m i j, i <= j ->
  part_of n m j <= part_of n m i <= part_of n m j + 1.
Proof.
  intros. unfold part_of.
  destruct (Nat.ltb_spec i (n mod m)), (Nat.ltb_spec j (n mod m)); lia.
Qed.

Lemma split_m_even : forall n m, m <> 0 ->
  exists part start stop, split_m n m = Ok (part, start, stop)
    /\ EvenSplit n m part start stop.
Proof.
  intros n m Hm. do 3 eexists. split; [now apply split_m_closed|].
  constructor; try (rewrite map_length, seq_length; reflexivity).
  - intros s H. apply nth_error_map_seq_inv in H as [_ ->]. apply start_of_0.
  - intros e H. apply nth_error_map_seq_inv in H as [_ ->].
    replace (1 + (m - 1)) with m by lia. now apply start_of_m.
  - intros i e s H1 H2. apply nth_error_map_seq_inv in H1 as [_ ->].
    apply nth_error_map_seq_inv in H2 as [_ ->]. reflexivity.
  - intros i p s e H1 H2 H3.
    apply nth_error_map_seq_inv in H1 as [_ ->].
    apply nth_error_map_seq_inv in H2 as [_ ->].
    apply nth_error_map_seq_inv in H3 as [_ ->].
    simpl. rewrite start_of_S. lia.
  - intros i j p q Hij H1 H2.
    apply nth_error_map_seq_inv in H1 as [_ ->].
    apply nth_error_map_seq_inv in H2 as [_ ->]. now apply part_of_even.
Qed.

(** Which interval contains [x]. *)
Lemma owner_exists : forall n m k x, x < start_of n m k ->
  exists i, i < k /\ start_of n m i <= x < start_of n m (S i).
Proof.
  intros n m k. induction k as [|k IH]; intros x H.
  - rewrite start_of_0 in H. lia.
  - destruct (le_lt_dec (start_of n m k) x).
    + exists k. lia.
    + destruct (IH x l) as [i [? ?]]. exists i. lia.
Qed.

Lemma owner_unique : forall n m i j x,
  start_of n m i <= x < start_of n m (S i) ->
  start_of n m j <= x < start_of n m (S j) -> i = j.
Proof.
  intros n m i j x Hi Hj.
  destruct (lt_eq_lt_dec i j) as [[H|H]|H]; auto.
  - pose proof (start_of_mono n m (S i) j H). lia.
  - pose proof (start_of_mono n m (S j) i H). lia.
Qed.

Lemma split_owned_once : forall n m, m <> 0 ->
  exists part start stop, split_m n m = Ok (part, start, stop)
    /\ OwnedOnce n start stop.
Proof.
  intros n m Hm. do 3 eexists. split; [now apply split_m_closed|].
  intros x Hx. rewrite <- (start_of_m n m Hm) in Hx.
  destruct (owner_exists _ _ _ _ Hx) as [i [Hi Hb]].
  exists i. split.
  - exists (start_of n m i), (start_of n m (S i)).
    rewrite !nth_error_map_seq by lia. auto.
  - intros j s e H1 H2 H.
    apply nth_error_map_seq_inv in H1 as [_ ->].
    apply nth_error_map_seq_inv in H2 as [_ ->]. simpl in H.
    eapply owner_unique; eauto.
Qed.

(** *** partition_list *)

Lemma con_piece : forall A perm (l : list A) i n, n <> 0 -> i < n ->
  partition_list perm l i n Con =
  Ok (lslice (start_of (length l) n i) (start_of (length l) n (S i)) l).
Proof.
  intros. unfold partition_list. now rewrite partition_bounds_closed.
Qed.

Lemma concat_slices : forall A (l : list A) n k,
  concat (map (fun i => lslice (start_of (length l) n i) (start_of (length l) n (S i)) l)
              (seq 0 k)) = lslice 0 (start_of (length l) n k) l.
Proof.
  intros A l n k. induction k as [|k IH].
  - simpl. rewrite start_of_0. now rewrite lslice_empty.
  - rewrite seq_S, map_app, concat_app, IH. simpl. rewrite app_nil_r.
    apply lslice_app; [lia|]. apply start_of_mono. lia.
Qed.

Lemma con_concat : forall A perm (l : list A) n, n <> 0 ->
  rsequence (map (fun i => partition_list perm l i n Con) (seq 0 n)) =
  Ok (map (fun i => lslice (start_of (length l) n i) (start_of (length l) n (S i)) l)
          (seq 0 n)).
Proof.
  intros A perm l n Hn.
  assert (E : forall js, (forall j, In j js -> j < n) ->
    rsequence (map (fun i => partition_list perm l i n Con) js) =
    Ok (map (fun i => lslice (start_of (length l) n i) (start_of (length l) n (S i)) l) js)).
  { induction js as [|j js IH]; intros H; cbn [map rsequence]; auto.
    rewrite con_piece by (auto; apply H; now left).
    rewrite IH by (intros; apply H; now right). reflexivity. }
  apply E. intros j Hj. apply in_seq in Hj. lia.
Qed.

Lemma con_pieces_concat : forall A perm (l : list A) n, n <> 0 ->
  exists ps, rsequence (map (fun i => partition_list perm l i n Con) (seq 0 n)) = Ok ps
             /\ concat ps = l.
Proof.
  intros. eexists. split; [now apply con_concat|].
  rewrite concat_slices, start_of_m by auto. apply lslice_full. lia.
Qed.

(** Picking at in-range positions is a map. *)
Lemma nth_error_pick : forall A (l : list A) idx k,
  (forall i, In i idx -> i < length l) ->
  nth_error (pick l idx) k =
  match nth_error idx k with Some i => nth_error l i | None => None end.
Proof.
  intros A l idx. induction idx as [|i idx IH]; intros k H; simpl.
  - now destruct k.
  - destruct (nth_error l i) eqn:E.
    2:{ apply nth_error_None in E. specialize (H i (or_introl eq_refl)). lia. }
    destruct k as [|k]; simpl; auto. apply IH. intros; apply H; now right.
Qed.

Lemma nrange_in : forall a b s x, s <> 0 -> In x (nrange a b s) <->
  (a <= x < b /\ (x - a) mod s = 0).
Proof.
  intros a b s x Hs. unfold nrange, range_count. rewrite in_map_iff.
  destruct (Nat.ltb_spec a b).
  - split.
    + intros [k [<- Hk]]. apply in_seq in Hk. destruct Hk as [_ Hk]. simpl in Hk.
      assert (k * s < b - a).
      { assert (S k <= (b - a + (s - 1)) / s) as H1 by lia.
        apply Nat.mul_le_mono_r with (p := s) in H1.
        pose proof (Nat.mul_div_le (b - a + (s - 1)) s Hs). lia. }
      split; [lia|]. replace (a + k * s - a) with (k * s) by lia. now apply Nat.mod_mul.
    + intros [Hx Hm]. exists ((x - a) / s).
      pose proof (Nat.div_mod (x - a) s Hs). rewrite Hm in H0.
      split; [lia|]. apply in_seq. split; [lia|]. simpl.
      apply Nat.lt_le_trans with (m := S ((x - a) / s)); [lia|].
      apply Nat.div_le_lower_bound; auto. lia.
  - split.
    + intros [k [_ Hk]]. apply in_seq in Hk. simpl in Hk. lia.
    + intros [? ?]. lia.
Qed.

Lemma nth_error_nrange : forall a b s k, s <> 0 ->
  nth_error (nrange a b s) k = if a + k * s <? b then Some (a + k * s) else None.
Proof.
  intros a b s k Hs. unfold nrange. rewrite nth_error_map', nth_error_seq.
  unfold range_count.
  destruct (Nat.ltb_spec a b).
  - destruct (Nat.ltb_spec k ((b - a + (s - 1)) / s)) as [Hk|Hk].
    + assert (k * s < b - a).
      { assert (S k <= (b - a + (s - 1)) / s) as H1 by lia.
        apply Nat.mul_le_mono_r with (p := s) in H1.
        pose proof (Nat.mul_div_le (b - a + (s - 1)) s Hs). lia. }
      destruct (Nat.ltb_spec (a + k * s) b); [auto|lia].
    + destruct (Nat.ltb_spec (a + k * s) b); auto. exfalso.
      assert (S k <= (b - a + (s - 1)) / s); [|lia].
      apply Nat.div_le_lower_bound; auto. lia.
  - destruct (Nat.ltb_spec k 0); [lia|].
    destruct (Nat.ltb_spec (a + k * s) b); [lia|auto].
Qed.

Lemma alt_piece : forall A perm (l : list A) i n, n <> 0 -> i < n ->
  exists p, partition_list perm l i n Alt = Ok p
    /\ forall k, nth_error p k = nth_error l (i + k * n).
Proof.
  intros A perm l i n Hn Hi. eexists. split.
  - unfold partition_list. rewrite partition_bounds_closed by auto. reflexivity.
  - intros k. rewrite nth_error_pick.
    + rewrite nth_error_nrange by auto.
      destruct (Nat.ltb_spec (i + k * n) (length l)); auto.
      symmetry. apply nth_error_None. lia.
    + intros j Hj. apply nrange_in in Hj; auto. lia.
Qed.

(** The alternating piece as a filter on positions. *)
Lemma position_split : forall n x, n <> 0 ->
  exists i k, i < n /\ x = i + k * n /\
    forall i' k', i' < n -> x = i' + k' * n -> i' = i /\ k' = k.
Proof.
  intros n x Hn. exists (x mod n), (x / n).
  pose proof (Nat.div_mod x n Hn). pose proof (Nat.mod_upper_bound x n Hn).
  repeat split; try lia.
  - subst x. rewrite Nat.mod_add, Nat.mod_small; auto.
  - subst x. rewrite Nat.div_add, Nat.div_small; auto.
Qed.

(** *** Permutation facts for the pieces *)

Lemma filter_split_perm : forall A (key : A -> nat) n (l : list A),
  (forall x, In x l -> key x < n) ->
  Permutation (concat (map (fun i => filter (fun x => key x =? i) l) (seq 0 n))) l.
Proof.
  intros A key n l. induction l as [|x l IH]; intros H.
  - simpl. induction (seq 0 n); simpl; auto.
  - assert (Hx : key x < n) by (apply H; now left).
    specialize (IH ltac:(intros; apply H; now right)).
    replace n with (key x + S (n - key x - 1)) by lia.
    replace n with (key x + S (n - key x - 1)) in IH by lia.
    rewrite seq_app in *. cbn [seq] in *.
    rewrite map_app, concat_app in *. cbn [map concat] in *.
    assert (E : forall js, ~ In (key x) js ->
      map (fun i => filter (fun y => key y =? i) (x :: l)) js =
      map (fun i => filter (fun y => key y =? i) l) js).
    { intros js Hj. apply map_ext_in. intros j Hin. simpl.
      destruct (Nat.eqb_spec (key x) j); auto. subst. contradiction. }
    rewrite !E.
    2:{ rewrite in_seq. lia. }
    2:{ rewrite in_seq. lia. }
    simpl. rewrite Nat.eqb_refl. simpl.
    rewrite <- Permutation_middle. apply perm_skip. exact IH.
Qed.

Lemma filter_enumerate_nth : forall A (l : list A) n i s k, n <> 0 -> i < n ->
  s mod n = 0 ->
  nth_error (filter (fun p => fst p mod n =? i) (combine (seq s (length l)) l)) k =
  match nth_error l (i + k * n) with
  | Some x => Some (s + i + k * n, x) | None => None end.
Proof.
  (* generalised over the phase of the first position *)
  assert (G : forall A (l : list A) n i s d k, n <> 0 -> i < n ->
    (d < n) -> (s + d) mod n = i ->
    (forall e, e < d -> (s + e) mod n <> i) ->
    nth_error (filter (fun p => fst p mod n =? i) (combine (seq s (length l)) l)) k =
    match nth_error l (d + k * n) with
    | Some x => Some (s + d + k * n, x) | None => None end).
  { intros A l. induction l as [|x l IH]; intros n i s d k Hn Hi Hd Hm Hmin.
    - simpl. rewrite !(proj2 (nth_error_None [] _)); simpl; auto; lia.
    - cbn [length seq combine filter fst].
      destruct (Nat.eqb_spec (s mod n) i) as [E|E].
      + assert (d = 0).
        { destruct d; auto. exfalso. apply (Hmin 0); [lia|]. now rewrite Nat.add_0_r. }
        subst d. destruct k as [|k].
        * simpl. rewrite !Nat.add_0_r. reflexivity.
        * cbn [nth_error]. rewrite (IH n i (S s) (n - 1) k); auto; try lia.
          -- replace (0 + S k * n) with (S (n - 1 + k * n)) by nia.
             cbn [nth_error]. destruct (nth_error l (n - 1 + k * n)); auto.
             do 2 f_equal. nia.
          -- replace (S s + (n - 1)) with (s + 1 * n) by nia.
             rewrite Nat.mod_add by auto. exact E.
          -- intros e He Hbad. rewrite <- E in Hbad.
             assert (Hd1 : (S e) mod n = 0).
             { replace (S s + e) with (s + S e) in Hbad by lia.
               pose proof (Nat.div_mod (s + S e) n Hn) as D1.
               pose proof (Nat.div_mod s n Hn) as D2. rewrite Hbad in D1.
               assert (S e = n * ((s + S e) / n - s / n)) by nia.
               rewrite H. rewrite Nat.mul_comm. now apply Nat.mod_mul. }
             rewrite Nat.mod_small in Hd1 by lia. lia.
      + assert (d <> 0).
        { intros ->. rewrite Nat.add_0_r in Hm. contradiction. }
        rewrite (IH n i (S s) (d - 1) k); auto; try lia.
        * replace (d + k * n) with (S (d - 1 + k * n)) by lia. cbn [nth_error].
          destruct (nth_error l (d - 1 + k * n)); auto. do 2 f_equal. lia.
        * replace (S s + (d - 1)) with (s + d) by lia. auto.
        * intros e He. replace (S s + e) with (s + S e) by lia. apply Hmin. lia. }
  intros A l n i s k Hn Hi Hs. rewrite (G A l n i s i k); auto.
  - pose proof (Nat.div_mod s n Hn). rewrite Hs, Nat.add_0_r in H. rewrite H.
    rewrite Nat.add_comm, Nat.mul_comm, Nat.mod_add; auto. now apply Nat.mod_small.
  - intros e He Hbad. pose proof (Nat.div_mod s n Hn). rewrite Hs, Nat.add_0_r in H.
    rewrite H, Nat.add_comm, Nat.mul_comm, Nat.mod_add in Hbad; auto.
    rewrite Nat.mod_small in Hbad; lia.
Qed.

Lemma alt_piece_filter : forall A perm (l : list A) i n, n <> 0 -> i < n ->
  partition_list perm l i n Alt =
  Ok (map snd (filter (fun p => fst p mod n =? i) (enumerate l))).
Proof.
  intros A perm l i n Hn Hi.
  destruct (alt_piece A perm l i n Hn Hi) as [p [E H]]. rewrite E. f_equal.
  apply nth_error_ext. intros k. rewrite H, nth_error_map'. unfold enumerate.
  rewrite filter_enumerate_nth by (auto; apply Nat.mod_0_l; auto).
  now destruct (nth_error l (i + k * n)).
Qed.

Lemma rsequence_map_ok : forall A B (f : A -> res B) (g : A -> B) js,
  (forall j, In j js -> f j = Ok (g j)) -> rsequence (map f js) = Ok (map g js).
Proof.
  induction js as [|j js IH]; intros H; cbn [map rsequence]; auto.
  rewrite H by now left. rewrite IH; auto. intros; apply H; now right.
Qed.

Lemma alt_pieces_perm : forall A perm (l : list A) n, n <> 0 ->
  exists ps, rsequence (map (fun i => partition_list perm l i n Alt) (seq 0 n)) = Ok ps
             /\ Permutation (concat ps) l.
Proof.
  intros A perm l n Hn. eexists. split.
  - apply rsequence_map_ok. intros j Hj. apply in_seq in Hj.
    apply alt_piece_filter; lia.
  - rewrite <- (map_map (fun i => filter (fun p => fst p mod n =? i) (enumerate l)) (map snd)).
    rewrite <- concat_map.
    eapply perm_trans.
    + apply Permutation_map.
      apply (filter_split_perm _ (fun p : nat * A => fst p mod n)).
      intros x _. now apply Nat.mod_upper_bound.
    + rewrite map_snd_enumerate. reflexivity.
Qed.

Lemma con_pieces_perm : forall A perm (l : list A) n, n <> 0 ->
  exists ps, rsequence (map (fun i => partition_list perm l i n Con) (seq 0 n)) = Ok ps
             /\ Permutation (concat ps) l.
Proof.
  intros. destruct (con_pieces_concat A perm l n H) as [ps [E1 E2]].
  exists ps. split; auto. now rewrite E2.
Qed.

(** *** parallel_map *)

Lemma sort_enumerated : forall B (l : list B) (fl : list (nat * B)),
  Permutation fl (enumerate l) ->
  py_sorted (fun a b => fst a <=? fst b) fl = enumerate l.
Proof.
  intros B l fl P.
  assert (Nd : NoDup (map fst (enumerate l)))
    by (rewrite map_fst_enumerate; apply seq_NoDup).
  assert (S1 : StronglySorted (fun a b : nat * B => fst a < fst b) (enumerate l)).
  { unfold enumerate. clear. generalize 0.
    induction l as [|x l IH]; intros s; simpl; [constructor|]. constructor; auto.
    rewrite Forall_forall. intros [k y] H. apply in_combine_l in H.
    apply in_seq in H. simpl. lia. }
  apply (strictly_sorted_unique _ fst); auto.
  - apply NoDup_nodup_keys.
    + assert (S2 := py_sorted_sorted (fun a b : nat * B => fst a <=? fst b)
         ltac:(intros x y; cbv beta; rewrite !Nat.leb_le; lia)
         ltac:(intros x y z; cbv beta; rewrite !Nat.leb_le; lia) fl).
      revert S2. generalize (py_sorted (fun a b : nat * B => fst a <=? fst b) fl).
      induction l0; intros H; constructor; inversion H; subst; auto.
      rewrite Forall_forall in *. intros x Hx. apply Nat.leb_le. auto.
    + eapply Permutation_NoDup; [|exact Nd].
      apply Permutation_map. eapply perm_trans; [apply Permutation_sym, P|].
      apply py_sorted_perm.
  - eapply perm_trans; [apply Permutation_sym, py_sorted_perm|]. exact P.
Qed.

Lemma enumerate_map : forall A B (f : A -> B) l,
  map (fun p => (fst p, f (snd p))) (enumerate l) = enumerate (map f l).
Proof.
  intros. unfold enumerate. rewrite map_length. generalize 0.
  induction l as [|x l IH]; intros s; simpl; auto. f_equal. apply IH.
Qed.

Lemma rsequence_map_g : forall A B C (f : A -> res B) (g : B -> C) l ps,
  rsequence (map f l) = Ok ps ->
  rsequence (map (fun j => match f j with Ok x => Ok (g x) | Err e => Err e end) l)
  = Ok (map g ps).
Proof.
  intros A B C f g l. induction l as [|j l IH]; intros ps H; cbn [map rsequence] in *.
  - inversion H. reflexivity.
  - destruct (f j); [|discriminate].
    destruct (rsequence (map f l)) eqn:E; [|discriminate].
    inversion H; subst. rewrite (IH a0); auto.
Qed.

Lemma parallel_map_general : forall A B (f : A -> B) (l : list A) root m perms size rank,
  1 <= size ->
  (size <= 1 \/ exists ps,
    rsequence (map (fun r => partition_list_mpi (perms r) (enumerate l) m r size) (seq 0 size))
      = Ok ps /\ Permutation (concat ps) (enumerate l)) ->
  parallel_map f l root m perms size rank =
  Ok (if size <=? 1 then Some (map f l)
      else match root with
           | None => Some (map f l)
           | Some rt => if rank =? rt then Some (map f l) else None
           end).
Proof.
  intros A B f l root m perms size rank Hs H. unfold parallel_map.
  destruct (Nat.leb_spec size 1); auto.
  destruct H as [H|[ps [E P]]]; [lia|].
  rewrite (rsequence_map_g _ _ _ _ (map (fun p => (fst p, f (snd p)))) _ ps E).
  assert (R : map snd (py_sorted (fun a b : nat * B => fst a <=? fst b)
     (concat (map (map (fun p => (fst p, f (snd p)))) ps))) = map f l).
  { rewrite <- concat_map.
    rewrite (sort_enumerated B (map f l)).
    - apply map_snd_enumerate.
    - rewrite <- enumerate_map. now apply Permutation_map. }
  destruct root as [rt|].
  - destruct (rank =? rt); auto. now rewrite R.
  - now rewrite R.
Qed.

Lemma parallel_map_con_alt : forall A B (f : A -> B) (l : list A) root m perms size rank,
  1 <= size -> (m = Con \/ m = Alt) ->
  parallel_map f l root m perms size rank =
  Ok (if size <=? 1 then Some (map f l)
      else match root with
           | None => Some (map f l)
           | Some rt => if rank =? rt then Some (map f l) else None
           end).
Proof.
  intros A B f l root m perms size rank Hs Hm. apply parallel_map_general; auto.
  right. destruct Hm as [-> | ->].
  - destruct (con_pieces_perm _ [] (enumerate l) size ltac:(lia)) as [ps [E P]].
    exists ps. split; auto.
  - destruct (alt_pieces_perm _ [] (enumerate l) size ltac:(lia)) as [ps [E P]].
    exists ps. split; auto.
Qed.

(** With one common permutation the random method also works. *)
Lemma pick_perm : forall A (l : list A) perm,
  Permutation perm (seq 0 (length l)) -> Permutation (pick l perm) l.
Proof.
  intros A l perm P.
  assert (E : pick l (seq 0 (length l)) = l).
  { apply nth_error_ext. intros k. rewrite nth_error_pick.
    - rewrite nth_error_seq. destruct (Nat.ltb_spec k (length l)); auto.
      symmetry. now apply nth_error_None.
    - intros i Hi. apply in_seq in Hi. lia. }
  rewrite <- E at 2. unfold pick. now apply Permutation_flat_map.
Qed.

Lemma pick_app : forall A (l : list A) p q, pick l (p ++ q) = pick l p ++ pick l q.
Proof. intros. unfold pick. apply flat_map_app. Qed.

Lemma pick_concat : forall A (l : list A) ps, pick l (concat ps) = concat (map (pick l) ps).
Proof.
  intros A l ps. induction ps as [|p ps IH]; simpl; auto. now rewrite pick_app, IH.
Qed.

Lemma rand_pieces_perm : forall A perm (l : list A) n, n <> 0 ->
  Permutation perm (seq 0 (length l)) ->
  exists ps, rsequence (map (fun i => partition_list perm l i n Rand) (seq 0 n)) = Ok ps
             /\ Permutation (concat ps) l.
Proof.
  intros A perm l n Hn P. eexists. split.
  - apply rsequence_map_ok with
      (g := fun i => pick l (lslice (start_of (length l) n i) (start_of (length l) n (S i)) perm)).
    intros j Hj. apply in_seq in Hj.
    unfold partition_list. now rewrite partition_bounds_closed by lia.
  - rewrite <- map_map with (f := fun i => lslice (start_of (length l) n i) (start_of (length l) n (S i)) perm).
    rewrite <- pick_concat.
    assert (Hl : length perm = length l).
    { apply Permutation_length in P. now rewrite seq_length in P. }
    rewrite <- Hl. rewrite concat_slices, start_of_m by auto.
    rewrite lslice_full by lia. now apply pick_perm.
Qed.

Lemma parallel_map_rand_shared : forall A B (f : A -> B) (l : list A) root perm size rank,
  1 <= size -> Permutation perm (seq 0 (length l)) ->
  parallel_map f l root Rand (fun _ => perm) size rank =
  Ok (if size <=? 1 then Some (map f l)
      else match root with
           | None => Some (map f l)
           | Some rt => if rank =? rt then Some (map f l) else None
           end).
Proof.
  intros A B f l root perm size rank Hs P. apply parallel_map_general; auto.
  right. destruct (rand_pieces_perm _ perm (enumerate l) size ltac:(lia)) as [ps [E Q]].
  - now rewrite length_enumerate.
  - exists ps. split; auto.
Qed.

(** *** unique_ordered *)

Section UniqueProofs.
  Context {A : Type} (eqb : A -> A -> bool).
  Hypothesis eqb_spec : forall x y, eqb x y = true <-> x = y.

  Lemma existsb_eqb : forall x l, existsb (eqb x) l = true <-> In x l.
  Proof.
    intros x l. rewrite existsb_exists. split.
    - intros [y [H E]]. apply eqb_spec in E. now subst.
    - intros H. exists x. split; auto. now apply eqb_spec.
  Qed.

  (** Positions kept by the loop. *)
  Lemma unique_loop_positions : forall x seen s,
    exists pos,
      StronglySorted lt pos
      /\ (forall k, In k pos <-> exists j a, k = s + j /\ nth_error x j = Some a
            /\ ~ In a seen /\ forall i, i < j -> nth_error x i <> Some a)
      /\ length (unique_loop eqb seen x) = length pos
      /\ forall i k, nth_error pos i = Some k ->
           nth_error (unique_loop eqb seen x) i = nth_error x (k - s).
  Proof.
    induction x as [|a x IH]; intros seen s.
    - exists []. simpl. repeat split; try constructor.
      + intros [].
      + intros [j [b [_ [H _]]]]. destruct j; discriminate.
      + intros i k H. destruct i; discriminate.
    - cbn [unique_loop]. destruct (existsb (eqb a) seen) eqn:E.
      + apply existsb_eqb in E.
        destruct (IH seen (S s)) as [pos [S1 [S2 [S3 S4]]]].
        exists pos. repeat split; auto.
        * intros H. apply S2 in H as [j [b [-> [Hb [Hn Hf]]]]].
          exists (S j), b. repeat split; auto; try lia.
          intros i Hi. destruct i as [|i]; simpl.
          -- intros Eq. inversion Eq; subst. contradiction.
          -- apply Hf. lia.
        * intros [j [b [-> [Hb [Hn Hf]]]]]. destruct j as [|j].
          -- simpl in Hb. inversion Hb; subst. contradiction.
          -- apply S2. exists j, b. repeat split; auto; try lia.
             intros i Hi. apply (Hf (S i)). lia.
        * intros i k H. rewrite (S4 i k H).
          assert (In k pos) by (eapply nth_error_In; eauto).
          apply S2 in H0 as [j [b [-> _]]].
          replace (S s + j - S s) with j by lia.
          replace (S s + j - s) with (S j) by lia. reflexivity.
      + assert (Hna : ~ In a seen).
        { intros H. apply existsb_eqb in H. congruence. }
        destruct (IH (a :: seen) (S s)) as [pos [S1 [S2 [S3 S4]]]].
        exists (s :: pos). repeat split.
        * constructor; auto. rewrite Forall_forall. intros k Hk.
          apply S2 in Hk as [j [b [-> _]]]. lia.
        * intros [<-|H].
          -- exists 0, a. repeat split; auto; try lia.
          -- apply S2 in H as [j [b [-> [Hb [Hn Hf]]]]].
             exists (S j), b. repeat split; auto; try lia.
             ++ intros Hin. apply Hn. now right.
             ++ intros i Hi. destruct i as [|i]; simpl.
                ** intros Eq. inversion Eq; subst. apply Hn. now left.
                ** apply Hf. lia.
        * intros [j [b [Hk [Hb [Hn Hf]]]]]. destruct j as [|j].
          -- left. lia.
          -- right. apply S2. exists j, b. cbn [nth_error] in Hb.
             split; [lia|]. split; [exact Hb|]. split.
             ++ intros [->|Hin]; [|contradiction]. apply (Hf 0); [lia|reflexivity].
             ++ intros i Hi. apply (Hf (S i)). lia.
        * simpl. now rewrite S3.
        * intros i k H. destruct i as [|i]; simpl in H.
          -- inversion H; subst. now rewrite Nat.sub_diag.
          -- simpl nth_error at 1. rewrite (S4 i k H).
             assert (In k pos) by (eapply nth_error_In; eauto).
             apply S2 in H0 as [j [b [-> _]]].
             replace (S s + j - S s) with j by lia.
             replace (S s + j - s) with (S j) by lia. reflexivity.
  Qed.

  Lemma sorted_lt_nth : forall pos, StronglySorted lt pos ->
    forall i j a b, i < j -> nth_error pos i = Some a -> nth_error pos j = Some b -> a < b.
  Proof.
    induction 1 as [|x pos S1 IH F]; intros i j a b Hij Ha Hb.
    - destruct i; discriminate.
    - destruct j as [|j]; [lia|]. simpl in Hb. destruct i as [|i]; simpl in Ha.
      + inversion Ha; subst. rewrite Forall_forall in F. apply F.
        eapply nth_error_In; eauto.
      + apply (IH i j a b); auto; lia.
  Qed.

  Lemma unique_ordered_first : forall x, FirstOccurrences x (unique_ordered eqb x).
  Proof.
    intros x. destruct (unique_loop_positions x [] 0) as [pos [S1 [S2 [S3 S4]]]].
    exists pos. repeat split; auto.
    - apply sorted_lt_nth; auto.
    - intros H. apply S2 in H as [j [a [-> [Ha [_ Hf]]]]]. exists a. auto.
    - intros [a [Ha Hf]]. apply S2. exists k, a. repeat split; auto.
    - intros i k H. unfold unique_ordered. rewrite (S4 i k H). now rewrite Nat.sub_0_r.
  Qed.

  Lemma unique_loop_in : forall x seen a,
    In a (unique_loop eqb seen x) <-> In a x /\ ~ In a seen.
  Proof.
    induction x as [|b x IH]; intros seen a; cbn [unique_loop].
    - simpl. tauto.
    - destruct (existsb (eqb b) seen) eqn:E.
      + apply existsb_eqb in E. rewrite IH. simpl.
        split; [tauto|]. intros [[->|H] Hn]; [contradiction|tauto].
      + assert (~ In b seen) by (rewrite <- existsb_eqb; congruence).
        simpl. rewrite IH. simpl. split.
        * intros [<-|[H1 H2]]; [tauto|]. tauto.
        * intros [[<-|H1] H2]; [now left|].
          destruct (eqb a b) eqn:Eab.
          -- apply eqb_spec in Eab. now left.
          -- right. split; auto. intros [->|H3]; [|contradiction].
             assert (eqb a a = true) by now apply eqb_spec. congruence.
  Qed.

  Lemma unique_loop_nodup : forall x seen, NoDup (unique_loop eqb seen x).
  Proof.
    induction x as [|b x IH]; intros seen; cbn [unique_loop]; [constructor|].
    destruct (existsb (eqb b) seen); auto. constructor; auto.
    rewrite unique_loop_in. simpl. tauto.
  Qed.
End UniqueProofs.

(** *** transpose_blocks *)

Lemma set_rows_exact : forall A (done rest block : list A) a,
  a = length done -> length block <= length rest ->
  set_rows a block (done ++ rest) = (done ++ block) ++ skipn (length block) rest.
Proof.
  intros A done rest block a -> H. unfold set_rows.
  rewrite firstn_app, firstn_all, Nat.sub_diag. simpl. rewrite app_nil_r.
  rewrite skipn_app. rewrite skipn_all2 by lia. simpl.
  rewrite <- app_assoc. do 3 f_equal. lia.
Qed.

Lemma skipn_repeat : forall A (x : A) k n, skipn k (repeat x n) = repeat x (n - k).
Proof.
  induction k as [|k IH]; intros [|n]; simpl; auto.
Qed.

Lemma transpose_fold : forall A nr nm n (f : nat -> list A) sar k,
  n <> 0 ->
  k <= n ->
  (forall i, i < n -> length (f i) = part_of nr n i * nm) ->
  (forall i, i < n -> nth i sar 0 = start_of nr n i) ->
  fold_left (fun buf ir => set_rows (nth ir sar 0 * nm) (map Some (f ir)) buf)
    (seq 0 k) (repeat None (nr * nm)) =
  map Some (concat (map f (seq 0 k))) ++ repeat None (nr * nm - start_of nr n k * nm).
Proof.
  intros A nr nm n f sar k Hn. induction k as [|k IH]; intros Hk Hl Hs.
  - cbn [seq fold_left map concat app]. now rewrite start_of_0, Nat.mul_0_l, Nat.sub_0_r.
  - rewrite seq_S, fold_left_app, IH by (auto; lia). cbn [fold_left].
    rewrite Hs by lia.
    assert (Hlen : forall j, j <= n ->
      length (concat (map f (seq 0 j))) = start_of nr n j * nm).
    { induction j as [|j IHj]; intros Hj; [reflexivity|].
      rewrite seq_S, map_app, concat_app, app_length, IHj by lia.
      simpl. rewrite app_nil_r, Hl by lia. rewrite start_of_S. lia. }
    pose proof (start_of_mono nr n (S k) n Hk) as HM. rewrite start_of_m in HM by auto.
    rewrite start_of_S in HM.
    rewrite set_rows_exact.
    + rewrite map_app, concat_app. simpl. rewrite app_nil_r, map_app.
      f_equal. rewrite skipn_repeat, map_length, Hl by lia.
      f_equal. rewrite start_of_S. simpl (0 + k). nia.
    + rewrite map_length. symmetry. apply Hlen. lia.
    + rewrite map_length, Hl, repeat_length by lia. simpl (0 + k). nia.
Qed.

Lemma concat_nth_seq : forall A (l : list (list A)) n, length l = n ->
  concat (map (fun i => nth i l []) (seq 0 n)) = concat l.
Proof.
  intros A l n <-. f_equal. induction l as [|x l IH]; simpl; auto.
  f_equal. rewrite <- seq_shift, map_map. exact IH.
Qed.

Lemma lslice_firstn : forall A a b n (l : list A), b <= n ->
  lslice a b (firstn n l) = lslice a b l.
Proof.
  intros A a b n l H. apply nth_error_ext. intros k. rewrite !nth_error_lslice.
  destruct (Nat.ltb_spec (a + k) b); auto.
  revert n H k a H0. induction l as [|x l IH]; intros n H k a H0.
  - now rewrite firstn_nil.
  - destruct n as [|n]; [lia|]. simpl. destruct (a + k) eqn:E; auto. simpl.
    destruct a as [|a].
    + destruct k as [|k]; [lia|]. assert (k = n0) by lia. subst.
      assert (Hg : forall m p (q : list A), p < m -> nth_error (firstn m q) p = nth_error q p).
      { induction m; intros p q Hp; [lia|]. destruct q; destruct p; simpl; auto.
        apply IHm. lia. }
      apply Hg. lia.
    + assert (Hg : forall m p (q : list A), p < m -> nth_error (firstn m q) p = nth_error q p).
      { induction m; intros p q Hp; [lia|]. destruct q; destruct p; simpl; auto.
        apply IHm. lia. }
      apply Hg. lia.
Qed.

Lemma transpose_blocks_ok : forall A (locals : list (list (list A))) nr nc nm size rank,
  1 <= size -> rank < size -> length locals = size ->
  (forall i, i < size -> length (nth i locals []) = part_of nr size i * nm) ->
  transpose_blocks locals nr nc nm size rank =
  Ok (map Some (map (lslice (start_of nc size rank) (start_of nc size (S rank)))
                    (concat locals))).
Proof.
  intros A locals nr nc nm size rank Hs Hr Hlen Hl. unfold transpose_blocks.
  assert (Htot : length (concat locals) = nr * nm).
  { assert (G : forall k, k <= size ->
      length (concat (map (fun i => nth i locals []) (seq 0 k))) = start_of nr size k * nm).
    { induction k as [|k IH]; intros Hk; [reflexivity|].
      rewrite seq_S, map_app, concat_app, app_length, IH by lia.
      simpl. rewrite app_nil_r, Hl by lia. rewrite start_of_S. lia. }
    specialize (G size (le_n _)). rewrite concat_nth_seq in G by auto.
    rewrite G, start_of_m; lia. }
  destruct (Nat.leb_spec size 1).
  - assert (size = 1) by lia. subst size. assert (rank = 0) by lia. subst rank.
    rewrite H0 in *. destruct locals as [|r [|? ?]]; try discriminate.
    simpl concat in *. rewrite app_nil_r in *. cbn [nth] in *.
    rewrite Htot, Nat.eqb_refl. do 2 f_equal. apply map_ext. intros row.
    rewrite start_of_0, start_of_m by lia.
    unfold lslice. now rewrite Nat.sub_0_r.
  - unfold split_all. rewrite !split_m_closed by lia.
    set (trimmed := map (map (firstn nc)) locals).
    assert (Hn : forall i, nth i trimmed [] = map (firstn nc) (nth i locals [])).
    { intros i. unfold trimmed. now rewrite <- (map_nth (map (firstn nc))). }
    assert (Hpart : forall f a i, i < size -> nth i (map f (seq a size)) 0 = f (a + i)).
    { intros f a i Hi. apply nth_error_nth. now apply nth_error_map_seq. }
    replace (forallb _ (seq 0 size)) with true.
    2:{ symmetry. apply forallb_forall. intros i Hi. apply in_seq in Hi.
        rewrite Hn, map_length, Hl, Hpart by lia. simpl. apply Nat.eqb_refl. }
    f_equal.
    rewrite (transpose_fold _ nr nm size
       (fun ir => cols (nth rank (map (start_of nc size) (seq 0 size)) 0)
                       (nth rank (map (start_of nc size) (seq 1 size)) 0)
                       (nth ir trimmed [])) _ size); try lia.
    + rewrite start_of_m, Nat.sub_diag by lia. simpl repeat. rewrite app_nil_r.
      f_equal. rewrite !Hpart by lia. simpl (0 + rank). simpl (1 + rank).
      unfold cols.
      rewrite <- map_map with (f := fun i => nth i trimmed [])
         (g := map (lslice (start_of nc size rank) (start_of nc size (S rank)))).
      rewrite <- concat_map. rewrite concat_nth_seq by (unfold trimmed; now rewrite map_length).
      unfold trimmed. rewrite <- concat_map, map_map. apply map_ext. intros row.
      apply lslice_firstn. rewrite <- (start_of_m nc size) at 2 by lia.
      apply start_of_mono. lia.
    + intros i Hi. unfold cols. rewrite map_length, Hn, map_length. now apply Hl.
    + intros i Hi. now rewrite Hpart.
Qed.

(** Reassembling the column blocks of all ranks. *)
Lemma columns_reassemble : forall A (row : list A) nc n, n <> 0 ->
  concat (map (fun r => lslice (start_of nc n r) (start_of nc n (S r)) row) (seq 0 n))
  = firstn nc row.
Proof.
  intros A row nc n Hn.
  assert (G : forall k, concat (map (fun r => lslice (start_of nc n r) (start_of nc n (S r)) row)
     (seq 0 k)) = lslice 0 (start_of nc n k) row).
  { induction k as [|k IH].
    - simpl. rewrite start_of_0. now rewrite lslice_empty.
    - rewrite seq_S, map_app, concat_app, IH. simpl. rewrite app_nil_r.
      apply lslice_app; [lia|]. apply start_of_mono. lia. }
  rewrite G, start_of_m by auto. unfold lslice. now rewrite Nat.sub_0_r.
Qed.

Lemma transpose_tag_inj : forall size ir ic ir' ic', ic < size -> ic' < size ->
  transpose_tag size ir ic = transpose_tag size ir' ic' -> ir = ir' /\ ic = ic'.
Proof.
  unfold transpose_tag. intros size ir ic ir' ic' H H' E.
  apply (Nat.div_mod_unique size ir ir' ic ic'); lia.
Qed.
