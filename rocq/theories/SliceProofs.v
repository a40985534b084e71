(** Lemmas about slices. *)
From Coq Require Import List ZArith Bool Lia Permutation Sorted.
From Verif Require Import PyBase PartModel PartProofs PartProps0 SliceModel SliceSpec.
Import ListNotations.
Open Scope Z_scope.

Lemma sorted_lt_nodup : forall l : list nat, StronglySorted lt l -> NoDup l.
Proof.
  induction 1; constructor; auto. intros C. rewrite Forall_forall in H0.
  specialize (H0 _ C). lia.
Qed.

Lemma sorted_set_eq : forall l m : list nat, StronglySorted lt l -> StronglySorted lt m ->
  (forall x, In x l <-> In x m) -> l = m.
Proof.
  intros l m Hl Hm E. apply (strictly_sorted_unique nat (fun x => x)); auto.
  apply NoDup_Permutation; auto using sorted_lt_nodup.
Qed.

Lemma seq_sorted : forall n a, StronglySorted lt (seq a n).
Proof.
  induction n; intros a; cbn; constructor; auto. rewrite Forall_forall.
  intros x Hx. apply in_seq in Hx. lia.
Qed.

Lemma filter_sorted : forall (p : nat -> bool) l, StronglySorted lt l -> StronglySorted lt (filter p l).
Proof.
  induction 1; cbn; [constructor|]. destruct (p a); auto. constructor; auto.
  rewrite Forall_forall in *. intros x Hx. apply filter_In in Hx. apply H0. tauto.
Qed.

Lemma map_ap_sorted : forall a k n s, 0 <= a -> 0 < k ->
  StronglySorted lt (map Z.to_nat (map (fun i => a + Z.of_nat i * k) (seq s n))).
Proof.
  intros a k n. induction n; intros s Ha Hk; cbn; constructor; auto.
  rewrite Forall_forall. intros x Hx. rewrite map_map in Hx. apply in_map_iff in Hx as [y [<- Hy]].
  apply in_seq in Hy. apply Z2Nat.inj_lt; nia.
Qed.

Lemma indices_pos : forall s n, 0 <= n -> positive_step s ->
  slice_indices s n = Ok (py_bound n 0 (sl_start s), py_bound n n (sl_stop s), py_step (sl_step s)).
Proof.
  intros [a b k] n Hn Hp. unfold positive_step, py_step in *. cbn in *. unfold slice_indices. cbn.
  set (st := match k with Some k0 => k0 | None => 1 end) in *.
  replace (match k with None => 1 | Some k0 => k0 end) with st in * by (destruct k; auto).
  destruct (Z.eqb_spec st 0); [lia|]. destruct (Z.ltb_spec 0 st); [|lia].
  f_equal. f_equal. f_equal.
  - destruct a as [x|]; cbn; auto. destruct (Z.ltb_spec x 0); lia.
  - destruct b as [x|]; cbn; auto. destruct (Z.ltb_spec x 0); lia.
Qed.

Lemma py_bound_range : forall n d b, 0 <= n -> 0 <= d <= n -> 0 <= py_bound n d b <= n.
Proof. intros n d [x|] Hn Hd; cbn; lia. Qed.

Lemma positions_pos : forall s n, positive_step s ->
  exists ps, slice_positions s (Z.of_nat n) = Ok ps /\ map Z.to_nat ps = py_positions s n
    /\ Forall (fun p => 0 <= p < Z.of_nat n) ps.
Proof.
  intros s n Hp. unfold slice_positions. rewrite indices_pos by (auto; lia).
  pose proof (py_bound_range (Z.of_nat n) 0 (sl_start s) ltac:(lia) ltac:(lia)) as Ba.
  pose proof (py_bound_range (Z.of_nat n) (Z.of_nat n) (sl_stop s) ltac:(lia) ltac:(lia)) as Bb.
  unfold py_positions, py_selected.
  set (a := py_bound (Z.of_nat n) 0 (sl_start s)) in *.
  set (b := py_bound (Z.of_nat n) (Z.of_nat n) (sl_stop s)) in *.
  unfold positive_step in Hp. set (k := py_step (sl_step s)) in *.
  assert (C : forall i, (i < Z.to_nat (range_len a b k))%nat <-> a + Z.of_nat i * k < b).
  { intros i. unfold range_len. destruct (Z.ltb_spec 0 k); [|lia].
    destruct (Z.ltb_spec a b).
    - pose proof (Z.div_mod (b - a - 1) k ltac:(lia)). pose proof (Z.mod_pos_bound (b - a - 1) k Hp).
      assert (0 <= (b - a - 1) / k) by (apply Z.div_pos; lia). split; intros; nia.
    - split; intros; [lia|]. nia. }
  eexists. split; [reflexivity|]. split.
  - apply sorted_set_eq.
    + apply map_ap_sorted; lia.
    + apply filter_sorted, seq_sorted.
    + intros x. rewrite map_map, in_map_iff, filter_In, in_seq.
      rewrite !andb_true_iff, Z.leb_le, Z.ltb_lt, Z.eqb_eq. split.
      * intros [i [<- Hi]]. apply in_seq in Hi. assert (Hi2 : a + Z.of_nat i * k < b) by (apply C; lia).
        rewrite Z2Nat.id by nia. repeat split; try nia.
        rewrite <- (Z.mod_mul (Z.of_nat i) k) by lia. f_equal. lia.
      * intros [_ [[H1 H2] H3]]. apply Z.mod_divide in H3 as [q Hq]; [|lia].
        exists (Z.to_nat q). assert (0 <= q) by nia. rewrite Z2Nat.id by lia. split; [lia|].
        apply in_seq. split; [lia|]. cbn. apply C. rewrite Z2Nat.id by lia. lia.
  - rewrite Forall_forall. intros x Hx. apply in_map_iff in Hx as [i [<- Hi]].
    apply in_seq in Hi. assert (Hi2 : a + Z.of_nat i * k < b) by (apply C; lia). nia.
Qed.

Lemma pick_cons : forall A (l : list A) p ps,
  pick l (p :: ps) = match nth_error l p with Some x => [x] | None => [] end ++ pick l ps.
Proof. reflexivity. Qed.

(** Picking filtered positions. *)
Lemma pick_filter : forall A (P : nat -> bool) (l pre : list A),
  pick (pre ++ l) (filter P (seq (length pre) (length l))) =
  map snd (filter (fun e => P (fst e)) (combine (seq (length pre) (length l)) l)).
Proof.
  intros A P l. induction l as [|x l IH]; intros pre; [reflexivity|].
  cbn [length seq combine filter fst].
  assert (E : pre ++ x :: l = (pre ++ [x]) ++ l) by (rewrite <- app_assoc; reflexivity).
  specialize (IH (pre ++ [x])). rewrite app_length in IH. cbn [length] in IH.
  replace (length pre + 1)%nat with (S (length pre)) in IH by lia.
  destruct (P (length pre)).
  - cbn [map snd]. rewrite <- IH, <- E. cbn [pick flat_map].
    rewrite nth_error_app2, Nat.sub_diag by lia. reflexivity.
  - rewrite <- IH, <- E. reflexivity.
Qed.

Lemma pick_py_slice : forall A (l : list A) s,
  pick l (py_positions s (length l)) = py_slice l s.
Proof.
  intros A l s. unfold py_positions, py_slice, enumerate.
  pose proof (pick_filter A (fun x => py_selected s (Z.of_nat (length l)) (Z.of_nat x)) l []) as H.
  cbn [app length] in H. rewrite H. f_equal. apply filter_ext. now intros [i x].
Qed.

Lemma apply_slice_pos : forall A (l : list A) s, positive_step s -> apply_slice l s = Ok (py_slice l s).
Proof.
  intros A l s Hp. unfold apply_slice. destruct (positions_pos s (length l) Hp) as [ps [E1 [E2 _]]].
  rewrite E1. unfold zpick. now rewrite E2, pick_py_slice.
Qed.

Lemma length_py_slice : forall A (l : list A) s,
  length (py_slice l s) = length (py_positions s (length l)).
Proof.
  intros A l s. rewrite <- pick_py_slice.
  assert (H : forall i, In i (py_positions s (length l)) -> (i < length l)%nat).
  { intros i Hi. apply filter_In in Hi as [Hi _]. apply in_seq in Hi. lia. }
  revert H. generalize (py_positions s (length l)). intros ps. induction ps as [|p ps IH]; intros H; auto.
  cbn [pick flat_map]. fold (pick l ps). rewrite app_length, IH by (intros; apply H; now right).
  destruct (nth_error l p) eqn:E; auto. apply nth_error_None in E. specialize (H p (or_introl eq_refl)). lia.
Qed.

(** *** C14 *)
Lemma count_positions : forall s n, positive_step s ->
  length (py_positions s n) =
  Z.to_nat (range_len (py_bound (Z.of_nat n) 0 (sl_start s)) (py_bound (Z.of_nat n) (Z.of_nat n) (sl_stop s))
              (py_step (sl_step s))).
Proof.
  intros s n Hp. destruct (positions_pos s n Hp) as [ps [E1 [E2 _]]].
  rewrite <- E2, map_length. unfold slice_positions in E1. rewrite indices_pos in E1 by (auto; lia).
  injection E1 as <-. now rewrite map_length, seq_length.
Qed.

Lemma len_slice_iff : forall s n, positive_step s ->
  (len_slice (SelSlice s) (Z.of_nat n) = Ok (Z.of_nat (length (py_positions s n)))
   <-> py_bound (Z.of_nat n) 0 (sl_start s) - py_bound (Z.of_nat n) (Z.of_nat n) (sl_stop s)
       < py_step (sl_step s)).
Proof.
  intros s n Hp. rewrite count_positions by auto. unfold len_slice. rewrite indices_pos by (auto; lia).
  set (a := py_bound _ 0 _). set (b := py_bound _ _ (sl_stop s)). unfold positive_step in Hp.
  set (k := py_step _) in *. unfold range_len. destruct (Z.ltb_spec 0 k); [|lia].
  pose proof (Z.div_mod (b - a - 1) k ltac:(lia)). pose proof (Z.mod_pos_bound (b - a - 1) k Hp).
  destruct (Z.ltb_spec a b).
  - assert (0 <= (b - a - 1) / k) by (apply Z.div_pos; lia).
    split; [lia|]. intros _. f_equal. rewrite Z2Nat.id by lia. lia.
  - cbn [Z.to_nat Z.of_nat]. split; intros Q.
    + assert (Q2 : 1 + (b - a - 1) / k = 0) by congruence.
      assert (Q3 : (b - a - 1) / k = -1) by lia. rewrite Q3 in *. lia.
    + f_equal. assert ((b - a - 1) / k = -1); [|lia].
      symmetry. apply Z.div_unique with (r := b - a - 1 + k); lia.
Qed.

Lemma forward_short : forall s n, positive_step s -> forward s n ->
  py_bound n 0 (sl_start s) - py_bound n n (sl_stop s) < py_step (sl_step s).
Proof. unfold positive_step, forward. intros. lia. Qed.

Lemma len_slice_forward : forall s n, positive_step s -> forward s (Z.of_nat n) ->
  len_slice (SelSlice s) (Z.of_nat n) = Ok (Z.of_nat (length (py_positions s n))).
Proof. intros s n Hp Hf. apply len_slice_iff; auto. now apply forward_short. Qed.

Lemma len_slice_refuted : exists s n, positive_step s /\
  len_slice (SelSlice s) (Z.of_nat n) <> Ok (Z.of_nat (length (py_positions s n))).
Proof.
  exists (mkslice (Some 5) (Some 2) None), 10%nat. split; [reflexivity|]. vm_compute. discriminate.
Qed.

(** *** C15 *)
Definition sub_slice (a b : Z) := mkslice (Some a) (Some b) None.

Lemma pick_ext : forall A (l m : list A) (p q : list nat),
  (forall k, match nth_error p k with Some i => nth_error l i | None => None end
           = match nth_error q k with Some i => nth_error m i | None => None end) ->
  (forall i, In i p -> (i < length l)%nat) -> (forall i, In i q -> (i < length m)%nat) ->
  pick l p = pick m q.
Proof.
  intros A l m p q H Hp Hq. apply nth_error_ext. intros k. now rewrite !nth_error_pick.
Qed.

Lemma pick_lslice : forall A (l : list A) ps a b, (forall i, In i ps -> (i < length l)%nat) ->
  pick l (lslice a b ps) = lslice a b (pick l ps).
Proof.
  intros A l ps a b H. apply nth_error_ext. intros k.
  rewrite nth_error_pick, !nth_error_lslice, nth_error_pick; auto.
  - destruct (_ <? _)%nat; auto.
  - intros i Hi. apply H. unfold lslice in Hi. 
    rewrite <- (firstn_skipn a ps). apply in_or_app. right.
    rewrite <- (firstn_skipn (b - a) (skipn a ps)). apply in_or_app. now left.
Qed.

Lemma py_slice_lslice : forall A (l : list A) a b, 0 <= a -> 0 <= b ->
  py_slice l (sub_slice a b) = lslice (Z.to_nat a) (Z.to_nat b) l.
Proof.
  intros A l a b Ha Hb. rewrite <- pick_py_slice.
  assert (E : py_positions (sub_slice a b) (length l) =
              seq (Z.to_nat a) (Nat.min (Z.to_nat b) (length l) - Z.to_nat a)).
  { apply sorted_set_eq; [apply filter_sorted, seq_sorted|apply seq_sorted|].
    intros x. unfold py_positions. rewrite filter_In, !in_seq. unfold py_selected. cbn.
    destruct (Z.ltb_spec a 0); [lia|]. destruct (Z.ltb_spec b 0); [lia|].
    rewrite Z.mod_1_r, !andb_true_iff, Z.leb_le, Z.ltb_lt. cbn. lia. }
  rewrite E. apply nth_error_ext. intros k.
  rewrite nth_error_pick, nth_error_seq, nth_error_lslice.
  - destruct (Nat.ltb_spec k (Nat.min (Z.to_nat b) (length l) - Z.to_nat a));
      destruct (Nat.ltb_spec (Z.to_nat a + k) (Z.to_nat b)); auto; try lia.
    symmetry. apply nth_error_None. lia.
  - intros i Hi. apply in_seq in Hi. lia.
Qed.

Lemma lslice_map : forall A B (f : A -> B) a b l, lslice a b (map f l) = map f (lslice a b l).
Proof. intros. unfold lslice. now rewrite skipn_map, firstn_map. Qed.

Lemma reslice_spec : forall s n a b, positive_step s -> 0 <= a -> 0 <= b ->
  exists s', reslice (SelSlice s) (Z.of_nat n) (sub_slice a b) = Ok (SelSlice s')
    /\ positive_step s'
    /\ py_positions s' n = lslice (Z.to_nat a) (Z.to_nat b) (py_positions s n).
Proof.
  intros s n a b Hp Ha Hb. unfold reslice. cbn [sl_step sub_slice sl_start sl_stop].
  rewrite indices_pos by (auto; lia). eexists. split; [reflexivity|].
  split; [exact Hp|].
  pose proof (positions_pos s n Hp) as [ps [E1 [E2 _]]]. rewrite <- E2.
  unfold slice_positions in E1. rewrite indices_pos in E1 by (auto; lia). injection E1 as <-.
  pose proof (py_bound_range (Z.of_nat n) 0 (sl_start s) ltac:(lia) ltac:(lia)) as Ba.
  pose proof (py_bound_range (Z.of_nat n) (Z.of_nat n) (sl_stop s) ltac:(lia) ltac:(lia)) as Bb.
  set (i := py_bound (Z.of_nat n) 0 (sl_start s)) in *.
  set (j := py_bound (Z.of_nat n) (Z.of_nat n) (sl_stop s)) in *.
  unfold positive_step in Hp. set (k := py_step (sl_step s)) in *.
  set (c := Z.to_nat (range_len i j k)).
  assert (C : forall q, (q < c)%nat <-> i + Z.of_nat q * k < j).
  { intros q. unfold c, range_len. destruct (Z.ltb_spec 0 k); [|lia].
    destruct (Z.ltb_spec i j).
    - pose proof (Z.div_mod (j - i - 1) k ltac:(lia)). pose proof (Z.mod_pos_bound (j - i - 1) k Hp).
      assert (0 <= (j - i - 1) / k) by (apply Z.div_pos; lia). split; intros; nia.
    - split; intros; [lia|]. nia. }
  rewrite map_map, <- (map_map (fun x => i + Z.of_nat x * k) Z.to_nat) with (l := seq 0 c).
  rewrite map_map, lslice_map.
  apply sorted_set_eq.
  - apply filter_sorted, seq_sorted.
  - (* the image of a range of naturals *)
    assert (S0 : exists u v, lslice (Z.to_nat a) (Z.to_nat b) (seq 0 c) = seq u v).
    { exists (Z.to_nat a), (Nat.min (Z.to_nat b) c - Z.to_nat a)%nat.
      apply nth_error_ext. intros q. rewrite nth_error_lslice, !nth_error_seq.
      destruct (Nat.ltb_spec (Z.to_nat a + q) (Z.to_nat b)), (Nat.ltb_spec (Z.to_nat a + q) c),
        (Nat.ltb_spec q (Nat.min (Z.to_nat b) c - Z.to_nat a)); auto; lia. }
    destruct S0 as [u [v ->]]. rewrite <- map_map with (f := fun x => i + Z.of_nat x * k).
    apply map_ap_sorted; lia.
  - intros x. unfold py_positions. rewrite filter_In, in_seq, in_map_iff.
    unfold py_selected. cbn [sl_start sl_stop sl_step py_bound py_step].
    destruct (Z.ltb_spec (i + a * k) 0); [nia|].
    destruct (Z.ltb_spec (Z.min (i + b * k) j) 0); [nia|].
    rewrite !andb_true_iff, Z.leb_le, Z.ltb_lt, Z.eqb_eq.
    assert (L : forall q, In q (lslice (Z.to_nat a) (Z.to_nat b) (seq 0 c)) <->
                          (Z.to_nat a <= q < Z.to_nat b)%nat /\ (q < c)%nat).
    { intros q. split.
      - intros Hq. apply In_nth_error in Hq as [m Hm]. rewrite nth_error_lslice, nth_error_seq in Hm.
        destruct (Nat.ltb_spec (Z.to_nat a + m) (Z.to_nat b)); [|discriminate].
        destruct (Nat.ltb_spec (Z.to_nat a + m) c); [|discriminate]. injection Hm as <-. lia.
      - intros [H1 H2]. apply nth_error_In with (n := (q - Z.to_nat a)%nat).
        rewrite nth_error_lslice, nth_error_seq.
        destruct (Nat.ltb_spec (Z.to_nat a + (q - Z.to_nat a)) (Z.to_nat b)); [|lia].
        destruct (Nat.ltb_spec (Z.to_nat a + (q - Z.to_nat a)) c); [|lia]. f_equal. lia. }
    split.
    + intros [H1 [[H2 H3] H4]].
      assert (Hin : i + a * k <= Z.of_nat n \/ Z.of_nat n < i + a * k) by lia.
      destruct Hin as [Hin|Hin].
      2:{ lia. }
      rewrite Z.min_r, Z.max_r in H2, H4 by lia.
      apply Z.mod_divide in H4 as [q Hq]; [|lia].
      exists (Z.to_nat (q + a)). assert (0 <= q) by nia. rewrite Z2Nat.id by lia.
      split; [nia|]. apply L. rewrite C, Z2Nat.id by lia. split; nia.
    + intros [q [<- Hq]]. apply L in Hq as [Hq1 Hq2]. apply C in Hq2.
      assert (Q1 : a <= Z.of_nat q < b) by lia.
      assert (i + a * k <= i + Z.of_nat q * k) by nia.
      rewrite Z2Nat.id by nia. rewrite (Z.min_r (Z.of_nat n) (i + a * k)), Z.max_r by lia.
      split; [nia|]. split; [split|].
      * nia.
      * assert (i + Z.of_nat q * k < i + b * k) by nia. lia.
      * rewrite <- (Z.mod_mul (Z.of_nat q - a) k) by lia. f_equal. lia.
Qed.

Lemma reslice_slice : forall A (l : list A) s a b, positive_step s -> 0 <= a -> 0 <= b ->
  exists s', reslice (SelSlice s) (Z.of_nat (length l)) (sub_slice a b) = Ok s'
    /\ read_axis l s' = Ok (py_slice (py_slice l s) (sub_slice a b)).
Proof.
  intros A l s a b Hp Ha Hb. destruct (reslice_spec s (length l) a b Hp Ha Hb) as [s' [E1 [P1 E2]]].
  eexists. split; [exact E1|]. cbn [read_axis]. rewrite apply_slice_pos by auto. f_equal.
  rewrite py_slice_lslice by auto. rewrite <- !pick_py_slice, E2. apply pick_lslice.
  intros i Hi. apply filter_In in Hi as [Hi _]. apply in_seq in Hi. lia.
Qed.

Lemma reslice_list : forall A (l : list A) idx n a b,
  Forall (fun i => (i < length l)%nat) idx ->
  exists s', reslice (SelList idx) n (sub_slice a b) = Ok s'
    /\ read_axis l s' = Ok (py_slice (pick l idx) (sub_slice a b)).
Proof.
  intros A l idx n a b F. unfold reslice. cbn [sl_step sub_slice].
  change (mkslice (Some a) (Some b) None) with (sub_slice a b).
  rewrite apply_slice_pos by reflexivity. eexists. split; [reflexivity|].
  rewrite Forall_forall in F. cbn [read_axis].
  assert (I : forall i, In i (py_slice idx (sub_slice a b)) -> (i < length l)%nat).
  { intros i Hi. apply F. rewrite <- pick_py_slice in Hi. unfold pick in Hi.
    apply in_flat_map in Hi as [p [_ Hp]]. destruct (nth_error idx p) eqn:E; [|easy].
    destruct Hp as [<-|[]]. eapply nth_error_In; eauto. }
  assert (forallb (fun i => (i <? length l)%nat) (py_slice idx (sub_slice a b)) = true) as ->.
  { apply forallb_forall. intros i Hi. apply Nat.ltb_lt. auto. }
  f_equal. rewrite <- !pick_py_slice.
  assert (length (pick l idx) = length idx) as ->.
  { clear - F. induction idx as [|p ps IH]; auto. cbn [pick flat_map]. fold (pick l ps). rewrite app_length, IH by (intros; apply F; now right).
    destruct (nth_error l p) eqn:E; auto. apply nth_error_None in E. specialize (F p (or_introl eq_refl)). lia. }
  set (ps := py_positions _ _).
  assert (B : forall i, In i ps -> (i < length idx)%nat).
  { intros i Hi. apply filter_In in Hi as [Hi _]. apply in_seq in Hi. lia. }
  clearbody ps. clear I.
  induction ps as [|p ps IH]; [reflexivity|].
  rewrite !pick_cons, pick_app.
  rewrite IH by (intros; apply B; now right). f_equal.
  rewrite nth_error_pick by auto. specialize (B p (or_introl eq_refl)).
  destruct (nth_error idx p) eqn:E; [|apply nth_error_None in E; lia].
  cbn. now rewrite app_nil_r.
Qed.

Lemma reslice_step_rejected : forall s n a b k, 1 < k ->
  reslice s n (mkslice a b (Some k)) = Err ValueError.
Proof. intros. unfold reslice. cbn. apply Z.ltb_lt in H. now rewrite H. Qed.

Lemma reslice_refuted : exists (l : list nat) s a b s', positive_step s /\
  reslice (SelSlice s) (Z.of_nat (length l)) (sub_slice a b) = Ok s'
  /\ read_axis l s' <> Ok (py_slice (py_slice l s) (sub_slice a b)).
Proof.
  exists [10;11;12;13;14;15]%nat, (mkslice (Some 1) (Some 5) None), (-3), 4. eexists.
  split; [reflexivity|]. split; [reflexivity|]. vm_compute. discriminate.
Qed.
