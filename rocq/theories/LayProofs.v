(** Lemmas about arrays in messages. *)
From Coq Require Import List Bool Arith ZArith Lia.
From Verif Require Import PyBase PartModel PartSpec PartProofs SliceModel RedModel RedSpec RedProofs ArrModel ArrSpec ArrProofs LayModel LaySpec.
Import ListNotations.
Open Scope nat_scope.

(** * Positions *)
Lemma count_app : forall a b, count (a ++ b) = count a * count b.
Proof. induction a as [|x a IH]; intros b; [symmetry; apply Nat.mul_1_l|]. unfold count in *. cbn [app fold_right]. rewrite IH. apply Nat.mul_assoc. Qed.
Lemma count_cons : forall d s, count (d :: s) = d * count s.
Proof. reflexivity. Qed.
Lemma fidx_app : forall a b i j, length i = length a -> fidx (a ++ b) (i ++ j) = fidx a i + count a * fidx b j.
Proof.
  induction a as [|d a IH]; intros b i j L; destruct i as [|x i]; try discriminate; [cbn; lia|].
  cbn [app fidx]. cbn [length] in L. rewrite IH by lia. rewrite count_cons. nia.
Qed.
Lemma c_index_pos : forall shape idx, InShape idx shape -> c_index shape idx = pos false shape idx.
Proof.
  intros shape idx H. unfold pos. induction H as [|i d idx shape L H IH]; [reflexivity|]. cbn [c_index rev].
  rewrite fidx_app by (rewrite !rev_length; now apply inshape_length). rewrite <- IH, count_rev. cbn [fidx]. lia.
Qed.
Lemma c_index_lt : forall shape idx, InShape idx shape -> c_index shape idx < count shape.
Proof. intros. rewrite c_index_pos by auto. now apply pos_lt. Qed.
Lemma c_index_inj : forall shape i j, InShape i shape -> InShape j shape -> c_index shape i = c_index shape j -> i = j.
Proof.
  intros shape i j I J E. rewrite !c_index_pos in E by auto.
  rewrite <- (unravel_pos false shape i I), <- (unravel_pos false shape j J). now rewrite E.
Qed.
Lemma unravel_c_index : forall shape idx, InShape idx shape -> unravel_c shape (c_index shape idx) = idx.
Proof. intros shape idx I. rewrite c_index_pos by auto. exact (unravel_pos false shape idx I). Qed.
Lemma unravel_c_in : forall shape k, k < count shape -> InShape (unravel_c shape k) shape /\ c_index shape (unravel_c shape k) = k.
Proof. intros shape k H. destruct (unravel_in false shape k H) as [A B]. split; [exact A|]. now rewrite c_index_pos. Qed.
Lemma empty_count : forall shape, existsb (Nat.eqb 0) shape = true <-> count shape = 0.
Proof.
  induction shape as [|d s IH]; [cbn; split; discriminate|]. rewrite count_cons. cbn [existsb]. rewrite orb_true_iff, IH.
  split; [intros [E|E]; [apply Nat.eqb_eq in E; subst; reflexivity|nia]|]. intros E. apply Nat.eq_mul_0 in E as [->|E]; auto.
Qed.

(** * Addresses *)
Lemma c_addr : forall a idx, Sound a -> c_flag a = true -> InShape idx (a_shape a) ->
  addr (a_view a) idx = (v_off (a_view a) + Z.of_nat (a_item a * c_index (a_shape a) idx))%Z.
Proof.
  intros [b v] idx [_ W] C H. cbn [a_item a_view] in *. unfold addr. f_equal. unfold c_flag in C. cbn [a_item a_view] in C.
  rewrite (not_empty v idx H) in C. cbn [orb] in C. rewrite combine_rev in C by (symmetry; exact W).
  rewrite c_index_pos by auto. unfold pos. rewrite <- (dot_rev idx (v_strides v)) by (rewrite W; now apply inshape_length).
  apply dot_contiguous; [rewrite !rev_length; exact W|now apply inshape_rev|exact C].
Qed.
Lemma f_addr : forall a idx, Sound a -> f_flag a = true -> InShape idx (a_shape a) ->
  addr (a_view a) idx = (v_off (a_view a) + Z.of_nat (a_item a * fidx (a_shape a) idx))%Z.
Proof.
  intros [b v] idx [_ W] C H. cbn [a_item a_view] in *. unfold addr. f_equal. unfold f_flag in C. cbn [a_item a_view] in C.
  rewrite (not_empty v idx H) in C. cbn [orb] in C. now apply dot_contiguous.
Qed.

Section Bytes.
Context {B : Type}.
Lemma slice_seq : forall (f : nat -> B) n p c, p + c <= n -> firstn c (skipn p (map f (seq 0 n))) = map f (seq p c).
Proof.
  intros f n p c H. rewrite skipn_map, firstn_map. f_equal.
  replace n with (p + (c + (n - p - c))) by lia. rewrite seq_app, skipn_app, skipn_all2 by (rewrite seq_length; lia). rewrite seq_length, Nat.sub_diag. cbn [app skipn].
  rewrite seq_app, firstn_app, seq_length, Nat.sub_diag, firstn_O, app_nil_r. apply firstn_all2. rewrite seq_length. lia.
Qed.
Lemma item_bound : forall b c n, c < n -> b * c + b <= n * b.
Proof. intros. nia. Qed.
(** The item at position [c] of a buffer. *)
Lemma buffer_item : forall (m : mem B) off b n c, c < n ->
  firstn b (skipn (b * c) (map (fun k => m (off + Z.of_nat k)%Z) (seq 0 (n * b))))
  = map (fun k => m (off + Z.of_nat (b * c) + Z.of_nat k)%Z) (seq 0 b).
Proof.
  intros m off b n c H. rewrite slice_seq by now apply item_bound.
  rewrite <- (Nat.add_0_r (b * c)) at 1. rewrite <- (map_id (seq (b * c + 0) b)).
  assert (E: forall k s, seq (k + s) b = map (fun i => k + i) (seq s b)).
  { intros k. clear. induction b as [|b IH]; intros s; [reflexivity|]. cbn [seq map]. f_equal. rewrite <- (Nat.add_succ_r k s). apply IH. }
  rewrite E, !map_map. apply map_ext. intros k. f_equal. lia.
Qed.
Lemma received_c : forall (m : mem B) a idx, Sound a -> c_flag a = true -> InShape idx (a_shape a) ->
  firstn (a_item a) (skipn (a_item a * c_index (a_shape a) idx) (map (fun k => m (v_off (a_view a) + Z.of_nat k)%Z) (seq 0 (nbytes a)))) = elem m a idx.
Proof.
  intros m a idx W C H. unfold nbytes. rewrite buffer_item by now apply c_index_lt. unfold elem. now rewrite c_addr.
Qed.

(** * Compound types *)
Lemma contiguous_app : forall l r sd, contiguous_from sd (l ++ r) = contiguous_from sd l && contiguous_from (count (map fst l) * sd) r.
Proof.
  induction l as [|[d s] l IH]; intros r sd; [cbn [app map contiguous_from andb]; change (count []) with 1; now rewrite Nat.mul_1_l|].
  cbn [app map fst contiguous_from]. rewrite count_cons. destruct (d =? 1) eqn:E.
  - apply Nat.eqb_eq in E. subst d. rewrite IH, Nat.mul_1_l. reflexivity.
  - rewrite IH, andb_assoc. replace (d * count (map fst l) * sd) with (count (map fst l) * (d * sd)) by ring. reflexivity.
Qed.
Lemma ends : forall A (l : list A) d, l <> [] -> l = removelast l ++ [last l d].
Proof. intros. now apply app_removelast_last. Qed.
Lemma ones : forall l, count l = 1 -> forall d, In d l -> d = 1.
Proof. induction l as [|x l IH]; intros E d I; [destruct I|]. rewrite count_cons in E. apply Nat.eq_mul_1 in E as [-> E]. destruct I as [<-|I]; [reflexivity|now apply IH]. Qed.
Lemma ones_contiguous : forall l sd, (forall d, In d (map fst l) -> d = 1) -> contiguous_from sd l = true.
Proof. induction l as [|[d s] l IH]; intros sd H; [reflexivity|]. cbn [contiguous_from]. rewrite (H d) by (left; reflexivity). cbn. apply IH. intros e I. apply H. now right. Qed.
Lemma combine_fst : forall (a : list nat) (b : list Z), length b = length a -> map fst (combine a b) = a.
Proof. induction a as [|x a IH]; intros [|y b] L; try discriminate; [reflexivity|]. cbn. f_equal. apply IH. cbn in L. lia. Qed.
Lemma combine_snoc : forall (a : list nat) (b : list Z) x y, length b = length a -> combine (a ++ [x]) (b ++ [y]) = combine a b ++ [(x, y)].
Proof. induction a as [|u a IH]; intros [|w b] x y L; try discriminate; [reflexivity|]. cbn. f_equal. apply IH. cbn in L. lia. Qed.

(** The shape and strides of an array with at least one axis. *)
Lemma last_axis : forall v, WellFormed v -> v_shape v <> [] ->
  exists sh st d s, v_shape v = sh ++ [d] /\ v_strides v = st ++ [s] /\ length st = length sh.
Proof.
  intros v W N. assert (M: v_strides v <> []). { intros E. unfold WellFormed in W. rewrite E in W. destruct (v_shape v); [auto|discriminate]. }
  exists (removelast (v_shape v)), (removelast (v_strides v)), (last (v_shape v) 0), (last (v_strides v) 0%Z).
  rewrite <- !ends by auto. split; [reflexivity|]. split; [reflexivity|].
  pose proof (ends _ (v_shape v) 0 N) as E1. pose proof (ends _ (v_strides v) 0%Z M) as E2. unfold WellFormed in W.
  rewrite E1, E2, !app_length in W. cbn [length] in W. lia.
Qed.
Lemma c_flag_snoc : forall b sh st d s off, length st = length sh ->
  c_flag (mkarr b (mkview (sh ++ [d]) (st ++ [s]) off))
  = existsb (Nat.eqb 0) (sh ++ [d]) || (((d =? 1) || (s =? Z.of_nat b)%Z) && contiguous_from (d * b) (rev (combine sh st))).
Proof.
  intros b sh st d s off L. unfold c_flag, empty. cbn [a_view a_item v_shape v_strides]. f_equal.
  rewrite combine_snoc by auto. rewrite rev_app_distr. cbn [rev app contiguous_from]. destruct (d =? 1) eqn:E; [|reflexivity].
  apply Nat.eqb_eq in E. subst d. cbn [orb andb]. now rewrite Nat.mul_1_l.
Qed.
Lemma existsb_snoc : forall l d, existsb (Nat.eqb 0) (l ++ [d]) = existsb (Nat.eqb 0) l || (0 =? d).
Proof. intros. rewrite existsb_app. cbn [existsb]. now rewrite orb_false_r. Qed.

(** The byte view of a compound array. *)
Definition bytes_of (b : nat) (sh : list nat) (st : list Z) (d : nat) (off : Z) : array :=
  mkarr 1 (mkview (sh ++ [d; b]) (st ++ [Z.of_nat b; 1%Z]) off).
Lemma bytes_empty : forall b sh d, 2 <= b -> existsb (Nat.eqb 0) (sh ++ [d; b]) = existsb (Nat.eqb 0) (sh ++ [d]).
Proof. intros b sh d H. rewrite !existsb_app. cbn [existsb]. destruct b; [lia|]. cbn. now rewrite !orb_false_r. Qed.
Lemma bytes_c : forall b sh st d off, 2 <= b -> length st = length sh ->
  c_flag (bytes_of b sh st d off) = existsb (Nat.eqb 0) (sh ++ [d]) || contiguous_from (d * b) (rev (combine sh st)).
Proof.
  intros b sh st d off H L. unfold bytes_of, c_flag, empty. cbn [a_view a_item v_shape v_strides]. rewrite bytes_empty by auto. f_equal.
  change (sh ++ [d; b]) with (sh ++ [d] ++ [b]). change (st ++ [Z.of_nat b; 1%Z]) with (st ++ [Z.of_nat b] ++ [1%Z]).
  rewrite !app_assoc, !combine_snoc by (rewrite ?app_length; cbn; lia). rewrite !rev_app_distr. cbn [rev app contiguous_from].
  destruct (b =? 1) eqn:E; [apply Nat.eqb_eq in E; lia|]. cbn [Z.of_nat Pos.of_succ_nat]. rewrite Z.eqb_refl, Nat.mul_1_r. cbn [andb].
  destruct (d =? 1) eqn:D; [apply Nat.eqb_eq in D; subst; now rewrite Nat.mul_1_l|]. rewrite Z.eqb_refl. reflexivity.
Qed.
Lemma bytes_f : forall b sh st d off, 2 <= b -> length st = length sh ->
  f_flag (bytes_of b sh st d off) = true -> c_flag (bytes_of b sh st d off) = true.
Proof.
  intros b sh st d off H L. rewrite bytes_c by auto. unfold bytes_of, f_flag, empty. cbn [a_view a_item v_shape v_strides]. rewrite bytes_empty by auto.
  destruct (existsb (Nat.eqb 0) (sh ++ [d])) eqn:E; [auto|]. cbn [orb].
  change (sh ++ [d; b]) with (sh ++ [d] ++ [b]). change (st ++ [Z.of_nat b; 1%Z]) with (st ++ [Z.of_nat b] ++ [1%Z]).
  rewrite !app_assoc, combine_snoc by (rewrite !app_length; cbn; lia). rewrite contiguous_app. intros F. apply andb_true_iff in F as [_ F].
  rewrite combine_fst in F by (rewrite !app_length; cbn; lia). cbn [contiguous_from] in F.
  destruct (b =? 1) eqn:B1; [apply Nat.eqb_eq in B1; lia|]. rewrite andb_true_r, Nat.mul_1_r in F. apply Z.eqb_eq in F.
  assert (C: count (sh ++ [d]) = 1) by lia. apply ones_contiguous. intros e I. rewrite map_rev, <- in_rev, combine_fst in I by auto.
  apply (ones (sh ++ [d]) C). apply in_or_app. now left.
Qed.
Lemma bytes_buffer : forall (m : mem B) b sh st d off, 2 <= b -> length st = length sh ->
  getbuffer m (bytes_of b sh st d off)
  = if existsb (Nat.eqb 0) (sh ++ [d]) || contiguous_from (d * b) (rev (combine sh st))
    then Ok (map (fun k => m (off + Z.of_nat k)%Z) (seq 0 (count (sh ++ [d]) * b))) else Err ValueError.
Proof.
  intros m b sh st d off H L. unfold getbuffer. rewrite <- (bytes_c b sh st d off H L).
  destruct (c_flag (bytes_of b sh st d off)) eqn:C.
  - cbn [orb]. unfold nbytes, bytes_of. cbn [a_view a_item v_shape v_off]. replace (count (sh ++ [d; b]) * 1) with (count (sh ++ [d]) * b) by (rewrite !count_app, !count_cons; change (count []) with 1; ring). reflexivity.
  - destruct (f_flag (bytes_of b sh st d off)) eqn:F; [|reflexivity]. apply (bytes_f b sh st d off H L) in F. congruence.
Qed.
Lemma split_view : forall b sh st d off, 2 <= b ->
  split_last b (mkarr 1 (mkview (sh ++ [d * b]) (st ++ [1%Z]) off)) = bytes_of b sh st d off.
Proof.
  intros b sh st d off H. unfold split_last. cbn [a_view v_shape v_strides v_off].
  destruct (sh ++ [d * b]) as [|y ys] eqn:Y; [destruct sh; discriminate|]. rewrite <- Y. rewrite !last_last, !removelast_last.
  rewrite Nat.div_mul, Z.mul_1_r by lia. reflexivity.
Qed.
Lemma prep_compound : forall (m : mem B) a, Sound a -> a_shape a <> [] -> a_item a <> 1 ->
  prep_buf false m a = if c_flag a then getbuffer m a else Err ValueError.
Proof.
  intros m [b v] [P W] N I. cbn [a_item a_view] in *. destruct (last_axis v W N) as (sh & st & d & s & Es & Et & L).
  destruct v as [shape strides off]. cbn [v_shape v_strides] in *. subst shape strides.
  assert (H: 2 <= b) by lia.
  unfold prep_buf, view_bytes. cbn [a_item a_view v_shape v_strides v_off]. apply Nat.eqb_neq in I. rewrite I.
  destruct (sh ++ [d]) as [|z zs] eqn:Q; [destruct sh; discriminate|]. rewrite <- Q. rewrite !last_last, !removelast_last.
  unfold empty. cbn [v_shape].
  pose proof (c_flag_snoc b sh st d s off L) as C.
  assert (G: c_flag (mkarr b (mkview (sh ++ [d]) (st ++ [s]) off)) = true ->
    getbuffer m (mkarr b (mkview (sh ++ [d]) (st ++ [s]) off)) = Ok (map (fun k => m (off + Z.of_nat k)%Z) (seq 0 (count (sh ++ [d]) * b)))).
  { intros F. unfold getbuffer. rewrite F. reflexivity. }
  destruct ((d =? 1) || existsb (Nat.eqb 0) (sh ++ [d]) || (s =? Z.of_nat b)%Z) eqn:V; cbn [rbind].
  - rewrite split_view, bytes_buffer by auto.
    assert (E: c_flag (mkarr b (mkview (sh ++ [d]) (st ++ [s]) off)) = existsb (Nat.eqb 0) (sh ++ [d]) || contiguous_from (d * b) (rev (combine sh st))).
    { rewrite C. destruct (existsb (Nat.eqb 0) (sh ++ [d])); [reflexivity|]. cbn [orb] in *. rewrite orb_false_r in V. now rewrite V. }
    rewrite E. destruct (existsb (Nat.eqb 0) (sh ++ [d]) || contiguous_from (d * b) (rev (combine sh st))); [|reflexivity].
    symmetry. apply G. exact E.
  - apply orb_false_iff in V as [V V3]. apply orb_false_iff in V as [V1 V2]. rewrite C, V2, V1, V3. reflexivity.
Qed.
Lemma prep_byte : forall (m : mem B) a, Sound a -> a_shape a <> [] -> a_item a = 1 -> prep_buf false m a = getbuffer m a.
Proof.
  intros m [b v] [P W] N I. cbn [a_item a_view] in *. subst b. destruct (last_axis v W N) as (sh & st & d & s & Es & Et & L).
  destruct v as [shape strides off]. cbn [v_shape v_strides] in *. subst shape strides.
  unfold prep_buf, view_bytes. cbn [a_item a_view v_shape v_strides v_off Nat.eqb rbind]. unfold split_last. cbn [a_view v_shape v_strides v_off].
  destruct (sh ++ [d]) as [|z zs] eqn:Q; [destruct sh; discriminate|]. rewrite <- Q. rewrite !last_last, !removelast_last, Nat.div_1_r.
  unfold getbuffer, nbytes, c_flag, f_flag, empty. cbn [a_view a_item v_shape v_strides v_off].
  replace (Z.of_nat 1 * s)%Z with s by (destruct s; reflexivity).
  change (sh ++ [d; 1]) with (sh ++ [d] ++ [1]). change (st ++ [s; s]) with (st ++ [s] ++ [s]). rewrite !app_assoc.
  rewrite (combine_snoc (sh ++ [d])) by (rewrite !app_length; cbn; lia). rewrite rev_app_distr. cbn [rev app]. rewrite contiguous_app, count_app. cbn [contiguous_from Nat.eqb].
  rewrite existsb_app. cbn [existsb Nat.eqb orb]. rewrite !andb_true_r, !orb_false_r. change (count [1]) with 1. now rewrite Nat.mul_1_r.
Qed.
(** In C order everything is sent as it is. *)
Lemma prep_c : forall known (m : mem B) a, Sound a -> a_shape a <> [] -> c_flag a = true ->
  prep_buf known m a = Ok (map (fun k => m (v_off (a_view a) + Z.of_nat k)%Z) (seq 0 (nbytes a))).
Proof.
  intros known m a W N C. assert (G: getbuffer m a = Ok (map (fun k => m (v_off (a_view a) + Z.of_nat k)%Z) (seq 0 (nbytes a)))) by (unfold getbuffer; now rewrite C).
  destruct known; [exact G|]. destruct (Nat.eq_dec (a_item a) 1) as [E|E]; [now rewrite prep_byte|]. rewrite prep_compound by auto. now rewrite C.
Qed.
End Bytes.
