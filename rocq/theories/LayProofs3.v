(** [allgather] and [gather_local]. *)
From Coq Require Import List Bool Arith ZArith Lia.
From Verif Require Import PyBase PartModel PartSpec PartProofs SliceModel RedModel RedSpec RedProofs ArrModel ArrSpec ArrProofs LayModel LaySpec LayProofs LayProofs2.
Import ListNotations.
Open Scope nat_scope.

Lemma f_strides_scale : forall b shape sd, map (fun s => Z.of_nat b * s)%Z (f_strides sd shape) = f_strides (b * sd) shape.
Proof. induction shape as [|d shape IH]; intros sd; [reflexivity|]. cbn [f_strides map]. f_equal; [lia|]. rewrite IH. f_equal. lia. Qed.
Lemma c_array_sound : forall b shape, 1 <= b -> Sound (c_array b shape).
Proof. intros b shape H. split; [exact H|]. unfold WellFormed, c_array. cbn. rewrite map_length. exact (new_view_wf false shape 0). Qed.
Lemma c_array_flag : forall b shape, c_flag (c_array b shape) = true.
Proof.
  intros b shape. unfold c_flag, c_array. cbn [a_view a_item v_shape v_strides]. apply orb_true_iff. right. unfold c_strides.
  rewrite map_rev, f_strides_scale, Nat.mul_1_r. rewrite combine_rev by (rewrite rev_length, f_strides_length, rev_length; reflexivity).
  rewrite rev_involutive. apply f_strides_contiguous.
Qed.

Section Bytes.
Context {B : Type}.
Lemma copied_elem : forall (m : mem B) a idx, 1 <= a_item a -> InShape idx (a_shape a) ->
  elem (copied m a) (c_array (a_item a) (a_shape a)) idx = elem m a idx.
Proof.
  intros m a idx H I. unfold elem. cbn [c_array a_item]. apply map_ext_in. intros k K. apply in_seq in K.
  rewrite (c_addr (c_array (a_item a) (a_shape a)) idx (c_array_sound _ _ H) (c_array_flag _ _) I). cbn [c_array a_view a_item v_off v_shape].
  unfold copied. replace (Z.to_nat (0 + Z.of_nat (a_item a * c_index (a_shape a) idx) + Z.of_nat k)) with (k + c_index (a_shape a) idx * a_item a) by lia.
  rewrite Nat.div_add, Nat.mod_add, Nat.div_small, Nat.mod_small by lia. cbn [plus]. now rewrite unravel_c_index.
Qed.
Theorem allgather_any : forall (G : list nat -> list B) gshape m k axis known (mm : nat -> mem B) (a : nat -> array),
  1 <= m -> Names (length gshape) axis k ->
  (forall q, q < m -> 1 <= a_item (a q) /\ IsShare G gshape m k q (value (mm q) (a q))) ->
  exists arr, allgather_mem known gshape m axis mm a = Ok arr /\ IsWhole G gshape arr.
Proof.
  intros G gshape m k axis known mm a M N S_. unfold allgather_mem.
  set (t := fun q => c_array (a_item (a q)) (a_shape (a q))).
  rewrite (rsequence_map_ok _ _ _ (fun q => map (fun j => copied (mm q) (a q) (v_off (a_view (t q)) + Z.of_nat j)%Z) (seq 0 (nbytes (t q))))).
  2:{ intros q Q. apply in_seq in Q. destruct (S_ q ltac:(lia)) as [I S1]. apply prep_c; [now apply c_array_sound|apply (share_shape _ _ _ _ _ _ _ (proj1 N) S1)|apply c_array_flag]. }
  cbn [rbind]. apply (allgather_whole _ G gshape m axis k); auto.
  intros q Q. destruct (S_ q Q) as [I S1]. apply (share_ext _ _ _ _ _ _ (value (mm q) (a q))); [auto|reflexivity|]. intros idx X. cbn in X. unfold received, value. cbn [elt]. f_equal.
  match goal with |- context [nth q (map ?f _) []] => rewrite (nth_indep _ [] (f 0)) by (rewrite map_length, seq_length; lia); rewrite (map_nth f), seq_nth by lia end.
  cbn [plus]. rewrite <- copied_elem by auto. fold (t q). exact (received_c (copied (mm q) (a q)) (t q) idx (c_array_sound _ _ I) (c_array_flag _ _) X).
Qed.

(** * [gather_local] *)
Lemma write_in : forall (m : mem B) z bs y d, (z <= y < z + Z.of_nat (length bs))%Z -> write_bytes m z bs y = nth (Z.to_nat (y - z)) bs d.
Proof.
  intros m z bs y d H. unfold write_bytes. replace ((z <=? y) && (y <? z + Z.of_nat (length bs)))%Z with true.
  - apply nth_indep. lia.
  - symmetry. apply andb_true_iff. rewrite Z.leb_le, Z.ltb_lt. lia.
Qed.
Lemma write_out : forall (m : mem B) z bs y, (y < z \/ z + Z.of_nat (length bs) <= y)%Z -> write_bytes m z bs y = m y.
Proof.
  intros m z bs y H. unfold write_bytes. destruct ((z <=? y) && (y <? z + Z.of_nat (length bs)))%Z eqn:E; [|reflexivity].
  apply andb_true_iff in E. rewrite Z.leb_le, Z.ltb_lt in E. lia.
Qed.
Lemma write_blocks : forall off b (J : nat -> nat) (bs : nat -> list B) ks (m : mem B), 1 <= b -> NoDup ks ->
  (forall i j, In i ks -> In j ks -> J i = J j -> i = j) -> (forall k, In k ks -> length (bs k) = b) ->
  let m' := fold_left (fun m k => write_bytes m (off + Z.of_nat (b * J k))%Z (bs k)) ks m in
  (forall k, In k ks -> map (fun t => m' (off + Z.of_nat (b * J k) + Z.of_nat t)%Z) (seq 0 b) = bs k)
  /\ (forall j t, (forall k, In k ks -> J k <> j) -> t < b -> m' (off + Z.of_nat (b * j) + Z.of_nat t)%Z = m (off + Z.of_nat (b * j) + Z.of_nat t)%Z).
Proof.
  intros off b J bs ks. induction ks as [|k ks IH]; intros m P N I L m'; [split; [intros k []|reflexivity]|].
  cbn [fold_left] in m'. inversion N as [|? ? N1 N2 E]. subst.
  destruct (IH (write_bytes m (off + Z.of_nat (b * J k))%Z (bs k)) P N2) as [A C].
  { intros i j X Y. apply I; now right. }
  { intros i X. apply L. now right. }
  fold m' in A, C.
  assert (O: forall j t, J k <> j -> t < b -> write_bytes m (off + Z.of_nat (b * J k))%Z (bs k) (off + Z.of_nat (b * j) + Z.of_nat t)%Z = m (off + Z.of_nat (b * j) + Z.of_nat t)%Z).
  { intros j t X Y. apply write_out. rewrite (L k) by now left. assert (J k < j \/ j < J k) as [Q|Q] by lia; [right|left]; nia. }
  split.
  - intros i [<-|X]; [|now apply A].
    assert (K: forall i, In i ks -> J i <> J k). { intros i X E. apply N1. rewrite (I k i); [exact X|now left|now right|now symmetry]. }
    assert (D: exists d, forall t, t < b -> m' (off + Z.of_nat (b * J k) + Z.of_nat t)%Z = nth t (bs k) d).
    { exists (m 0%Z). intros t T. rewrite C by auto. rewrite (write_in _ _ _ _ (m 0%Z)) by (rewrite (L k) by (now left); lia). f_equal. lia. }
    destruct D as [d D]. rewrite (map_ext_in _ (fun t => nth t (bs k) d)) by (intros t T; apply in_seq in T; apply D; lia).
    rewrite <- (L k) by now left. clear. generalize (bs k). intros l. apply nth_ext with d d; [now rewrite map_length, seq_length|].
    intros n H. rewrite map_length, seq_length in H. rewrite (nth_indep _ d (nth 0 l d)) by (rewrite map_length, seq_length; lia).
    rewrite (map_nth (fun t => nth t l d)), seq_nth by lia. reflexivity.
  - intros j t X Y. rewrite C by (auto; intros i Z; apply X; now right). apply O; auto. apply X. now left.
Qed.
Lemma inside_add : forall gshape sizes starts, inside gshape sizes starts = true -> forall i, InShape i sizes -> InShape (idx_add starts i) gshape.
Proof.
  induction gshape as [|d g IH]; intros [|n sizes] [|s starts] H i I; try discriminate; [inversion I; constructor|].
  cbn [inside] in H. apply andb_true_iff in H as [H1 H2]. apply Nat.leb_le in H1. inversion I as [|x ? idx ? X Y]. subst. cbn [idx_add]. constructor; [lia|]. now apply (IH sizes starts H2).
Qed.
Lemma inside_length : forall gshape sizes starts, inside gshape sizes starts = true -> length starts = length sizes.
Proof. induction gshape as [|d g IH]; intros [|n sizes] [|s starts] H; try discriminate; [reflexivity|]. cbn [inside] in H. apply andb_true_iff in H as [_ H]. cbn. f_equal. now apply IH. Qed.
Lemma idx_add_inj : forall s i j, length i = length s -> length j = length s -> idx_add s i = idx_add s j -> i = j.
Proof.
  induction s as [|x s IH]; intros [|a i] [|c j] L1 L2 E; try discriminate; [reflexivity|]. cbn [idx_add] in E. injection E as E1 E2. f_equal; [lia|]. apply IH; auto.
Qed.
(** One message. *)
Lemma contiguous_item : forall (m : mem B) a k, 1 <= a_item a -> k < count (a_shape a) ->
  firstn (a_item a) (skipn (a_item a * k) (contiguous_bytes m a)) = elem m a (unravel_c (a_shape a) k).
Proof.
  intros m a k P K. unfold contiguous_bytes, nbytes. destruct (unravel_c_in _ _ K) as [I E].
  rewrite <- copied_elem by auto.
  change (map (fun p => copied m a (Z.of_nat p))) with (map (fun p => copied m a (0 + Z.of_nat p)%Z)). rewrite buffer_item by exact K.
  unfold elem. cbn [c_array a_item]. rewrite (c_addr (c_array (a_item a) (a_shape a)) _ (c_array_sound _ _ P) (c_array_flag _ _) I). cbn [c_array a_view a_item v_off v_shape].
  now rewrite E.
Qed.
Lemma section_received : forall g (mg : mem B) m a starts, Sound g -> c_flag g = true -> a_item a = a_item g ->
  inside (a_shape g) (a_shape a) starts = true ->
  exists mg', recv_section g mg (a_shape a) starts (contiguous_bytes m a) = Ok mg'
    /\ (forall i, InShape i (a_shape a) -> elem mg' g (idx_add starts i) = elem m a i)
    /\ (forall j, InShape j (a_shape g) -> (forall i, InShape i (a_shape a) -> idx_add starts i <> j) -> elem mg' g j = elem mg g j).
Proof.
  intros g mg m a starts W C E H. unfold recv_section. rewrite H. unfold getbuffer. rewrite C. cbn [orb rbind]. eexists. split; [reflexivity|].
  set (J := fun k => c_index (a_shape g) (idx_add starts (unravel_c (a_shape a) k))).
  set (bs := fun k => firstn (a_item g) (skipn (a_item g * k) (contiguous_bytes m a))).
  assert (Bk: forall k, k < count (a_shape a) -> bs k = elem m a (unravel_c (a_shape a) k)).
  { intros k K. unfold bs. rewrite <- E. apply contiguous_item; [rewrite E; apply (proj1 W)|exact K]. }
  destruct (write_blocks (v_off (a_view g)) (a_item g) J bs (seq 0 (count (a_shape a))) mg (proj1 W) (seq_NoDup _ _)) as [A D].
  { intros i j X Y Z. apply in_seq in X, Y. destruct (unravel_c_in (a_shape a) i) as [I1 I2]; [lia|]. destruct (unravel_c_in (a_shape a) j) as [J1 J2]; [lia|].
    apply c_index_inj in Z; try (now apply (inside_add _ _ _ H)). apply idx_add_inj in Z.
    - rewrite <- I2, <- J2. now rewrite Z.
    - rewrite (inside_length _ _ _ H). now apply inshape_length.
    - rewrite (inside_length _ _ _ H). now apply inshape_length. }
  { intros k K. apply in_seq in K. rewrite Bk by lia. unfold elem. now rewrite map_length, seq_length. }
  cbn zeta in A, D. fold J bs in A, D. split.
  - intros i I. pose proof (c_index_lt _ _ I) as K. specialize (A (c_index (a_shape a) i)). rewrite in_seq in A. specialize (A ltac:(lia)).
    rewrite (Bk _ K) in A. rewrite (unravel_c_index _ _ I) in A. rewrite <- A.
    unfold elem. rewrite c_addr by (auto; now apply (inside_add _ _ _ H)). unfold J at 2. rewrite (unravel_c_index _ _ I). reflexivity.
  - intros j X Y. unfold elem. rewrite c_addr by auto. apply map_ext_in. intros t T. apply in_seq in T. apply D; [|lia].
    intros k K Z. apply in_seq in K. destruct (unravel_c_in (a_shape a) k) as [I1 I2]; [lia|]. apply (Y _ I1). apply (c_index_inj (a_shape g)); auto. now apply (inside_add _ _ _ H).
Qed.
Theorem gather_local_c : forall size (m : nat -> mem B) a starts g mg, size <> 1 -> Sound g -> c_flag g = true ->
  (forall q, q < size -> a_item (a q) = a_item g /\ inside (a_shape g) (a_shape (a q)) (starts q) = true) ->
  Apart (fun q => a_shape (a q)) starts size ->
  exists mg', gather_local_mem true size m a starts g mg = Ok mg'
    /\ (forall q i, q < size -> InShape i (a_shape (a q)) -> elem mg' g (idx_add (starts q) i) = elem (m q) (a q) i)
    /\ (forall j, InShape j (a_shape g) -> (forall q i, q < size -> InShape i (a_shape (a q)) -> idx_add (starts q) i <> j) -> elem mg' g j = elem mg g j).
Proof.
  intros size m a starts g mg S1 W C H D. unfold gather_local_mem. destruct (size =? 1) eqn:E1; [apply Nat.eqb_eq in E1; contradiction|]. cbn [negb].
  set (f := fun q => negb (count (a_shape (a q)) =? 0)).
  assert (G: forall l mg0, NoDup l -> (forall q, In q l -> q < size) ->
    exists mg', fold_left (fun acc q => rbind acc (fun mg => recv_section g mg (a_shape (a q)) (starts q) (contiguous_bytes (m q) (a q)))) l (Ok mg0) = Ok mg'
      /\ (forall q i, In q l -> InShape i (a_shape (a q)) -> elem mg' g (idx_add (starts q) i) = elem (m q) (a q) i)
      /\ (forall j, InShape j (a_shape g) -> (forall q i, In q l -> InShape i (a_shape (a q)) -> idx_add (starts q) i <> j) -> elem mg' g j = elem mg0 g j)).
  { induction l as [|q l IH]; intros mg0 N I; [exists mg0; split; [reflexivity|]; split; [intros q i []|reflexivity]|].
    inversion N as [|? ? N1 N2]. subst. cbn [fold_left rbind]. destruct (H q (I q (or_introl eq_refl))) as [H1 H2].
    destruct (section_received g mg0 (m q) (a q) (starts q) W C H1 H2) as (m1 & R1 & R2 & R3). rewrite R1.
    destruct (IH m1 N2 (fun r R => I r (or_intror R))) as (m2 & F1 & F2 & F3). exists m2. split; [exact F1|]. split.
    - intros r i [<-|R] X; [|now apply F2]. rewrite F3; [now apply R2|now apply (inside_add _ _ _ H2)|].
      intros r j R Y Z. apply N1. rewrite (D q r i j); [exact R|apply I; now left|apply I; now right|exact X|exact Y|now symmetry].
    - intros j X Y. rewrite F3; [apply R3; auto|auto|]; intros; apply Y; auto; [now left|now right]. }
  destruct (G (filter f (seq 0 size)) mg) as (mg' & G1 & G2 & G3).
  - apply NoDup_filter, seq_NoDup.
  - intros q Q. apply filter_In in Q as [Q _]. apply in_seq in Q. lia.
  - exists mg'. split; [exact G1|].
    assert (X: forall q i, q < size -> InShape i (a_shape (a q)) -> In q (filter f (seq 0 size))).
    { intros q i Q I. apply filter_In. split; [apply in_seq; lia|]. unfold f. pose proof (c_index_lt _ _ I). destruct (count (a_shape (a q)) =? 0) eqn:Z; [apply Nat.eqb_eq in Z; lia|reflexivity]. }
    split; [intros q i Q I; apply G2; eauto|]. intros j J Y. apply G3; auto. intros q i Q I. apply filter_In in Q as [Q _]. apply in_seq in Q. apply Y; auto; lia.
Qed.
End Bytes.
