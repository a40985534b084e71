(** Proofs about distributed files (for C184-C192), part 2. *)
From Coq Require Import String.
From Coq Require Import List ZArith Bool Arith Lia Permutation.
From Verif Require Import PyBase PyStr PartModel PartSpec PartProofs PartProps0
  SliceModel SliceSpec SliceProofs SliceProps0 NioModel NioSpec NioProofs.
Import ListNotations.
Open Scope list_scope.
Open Scope nat_scope.

Lemma seq_nodups : forall sh, Forall (@NoDup nat) (map (seq 0) sh).
Proof. induction sh; cbn; constructor; auto. apply seq_NoDup. Qed.

Lemma map_length_seq : forall sh, map (@length nat) (map (seq 0) sh) = sh.
Proof. induction sh; cbn; auto. rewrite seq_length. now f_equal. Qed.

Lemma index_at_seq : forall sh k, inside sh k -> index_at (map (seq 0) sh) k = k.
Proof.
  intros sh k H. induction H; cbn; auto. f_equal; auto. now rewrite seq_nth.
Qed.

Lemma locate_seq : forall sh k, inside sh k -> locate (map (seq 0) sh) k = Some k.
Proof.
  intros sh k H. rewrite <- (index_at_seq sh k H) at 1. apply at_locate.
  - apply seq_nodups.
  - now rewrite map_length_seq.
Qed.

Lemma nth_map_seq : forall sh ax, nth ax (map (seq 0) sh) [] = seq 0 (nth ax sh 0).
Proof. intros sh ax. change (@nil nat) with (seq 0 0) at 1. now rewrite map_nth. Qed.

(** The selections of one part. *)
Lemma part_selections : forall sel fshape lshape ax a b,
  length sel = length fshape -> length lshape = length fshape ->
  (forall j s, nth_error sel j = Some s -> EntryOk s (nth j fshape 0)) ->
  ax < length fshape -> a <= b ->
  exists islice fslice,
    partition_sel sel ax (Z.of_nat (nth ax fshape 0)) (part_slice (a, b)) = Ok (islice, fslice)
    /\ sels_positions islice fshape
       = Ok (replace_at ax (lslice a b (nth ax (wanted_all sel fshape) [])) (wanted_all sel fshape))
    /\ sels_positions fslice lshape
       = Ok (replace_at ax (lslice a b (nth ax (map (seq 0) lshape) [])) (map (seq 0) lshape)).
Proof.
  intros sel fshape lshape ax a b L1 L2 H La Hab. unfold partition_sel.
  destruct (nth_error sel ax) as [s|] eqn:Es.
  2:{ apply nth_error_None in Es. lia. }
  destruct (reslice_wanted s (nth ax fshape 0) a b Hab (H _ _ Es)) as (s' & E1 & E2 & E3).
  rewrite E1. cbn [rbind]. eexists. eexists. split; [reflexivity|]. rewrite !set_nth_replace. split.
  - rewrite sels_wanted.
    + rewrite wanted_set by lia. rewrite E2. now rewrite (nth_wanted _ _ _ s Es) by lia.
    + rewrite replace_length. lia.
    + intros j t Hj. destruct (Nat.eq_dec j ax) as [->|N].
      * rewrite nth_error_replace_same in Hj by lia. now injection Hj as <-.
      * rewrite nth_error_replace_other in Hj by auto. auto.
  - rewrite sels_wanted.
    + rewrite wanted_set by (rewrite repeat_length; lia).
      rewrite wanted_full by lia. cbn [wanted]. unfold part_slice. cbn [fst snd].
      now rewrite py_positions_sub, nth_map_seq.
    + rewrite replace_length, repeat_length. lia.
    + intros j t Hj. destruct (Nat.eq_dec j ax) as [->|N].
      * rewrite nth_error_replace_same in Hj by (rewrite repeat_length; lia). injection Hj as <-.
        apply sub_ok. exact Hab.
      * rewrite nth_error_replace_other in Hj by auto. apply nth_error_repeat' in Hj as ->. apply full_ok.
Qed.

Lemma shape_replace : forall (P Q : list (list nat)) ax a b, ax < length P ->
  map (@length nat) P = map (@length nat) Q ->
  same_shape (map (@length nat) (replace_at ax (lslice a b (nth ax P [])) P))
             (map (@length nat) (replace_at ax (lslice a b (nth ax Q [])) Q)) = true.
Proof.
  intros P Q ax a b L E. apply same_shape_eq. rewrite !replace_map, E. f_equal.
  rewrite !length_lslice. f_equal. f_equal.
  pose proof (f_equal (fun l => nth ax l 0) E) as E2. cbn beta in E2.
  change 0 with (length (@nil nat)) in E2. rewrite !map_nth in E2. exact E2.
Qed.

(** Copying by parts into the local array, and out of it. *)
Section Copy.
  Variables (A : Type) (sel : list asel) (fshape lshape : list nat) (ax : nat) (parts : list (nat * nat)).
  Hypothesis L1 : length sel = length fshape.
  Hypothesis Hok : forall j s, nth_error sel j = Some s -> EntryOk s (nth j fshape 0).
  Hypothesis Hlen : map (@length nat) (wanted_all sel fshape) = lshape.
  Hypothesis La : ax < length fshape.
  Hypothesis Ht : Tiles parts (nth ax lshape 0).

  Let W := wanted_all sel fshape.
  Let Q := map (seq 0) lshape.

  Lemma copy_l2 : length lshape = length fshape.
  Proof. rewrite <- Hlen, map_length, wanted_length. reflexivity. Qed.

  Lemma copy_in : forall (src dst : nd A), exists dst',
    over_parts (fun dst islice fslice => assign lshape dst fslice fshape src islice)
      sel ax (Z.of_nat (nth ax fshape 0)) parts dst = Ok dst'
    /\ forall k, inside lshape k -> dst' k = src (index_at W k).
  Proof.
    intros src dst. pose proof copy_l2 as L2.
    destruct (over_parts_spec A
      (fun dst islice fslice => assign lshape dst fslice fshape src islice)
      sel ax (Z.of_nat (nth ax fshape 0)) Q W src parts dst) as (d & E1 & E2).
    - apply seq_nodups.
    - unfold Q. rewrite map_length. lia.
    - unfold Q. rewrite map_length_seq. now symmetry.
    - intros d a b Hin. destruct Ht as [_ F]. rewrite Forall_forall in F. specialize (F _ Hin). cbn in F.
      destruct (part_selections sel fshape lshape ax a b L1 L2 Hok La F) as (isl & fsl & X1 & X2 & X3).
      exists isl, fsl. split; auto. unfold assign. rewrite X2, X3. cbn [rbind].
      fold Q. fold W. rewrite shape_replace.
      + eexists. split; [reflexivity|]. intros i. reflexivity.
      + unfold Q. rewrite map_length. lia.
      + unfold Q. rewrite map_length_seq. now symmetry.
    - exists d. split; auto. intros k Hk. rewrite E2. unfold Q. rewrite locate_seq by auto.
      rewrite (tiles_cover _ _ _ Ht); auto. apply inside_nth; auto. lia.
  Qed.

  Lemma copy_out : forall (src dst : nd A), Forall (@NoDup nat) W -> exists dst',
    over_parts (fun dst islice fslice => assign fshape dst islice lshape src fslice)
      sel ax (Z.of_nat (nth ax fshape 0)) parts dst = Ok dst'
    /\ forall i, dst' i = match locate W i with Some k => src k | None => dst i end.
  Proof.
    intros src dst N. pose proof copy_l2 as L2.
    destruct (over_parts_spec A
      (fun dst islice fslice => assign fshape dst islice lshape src fslice)
      sel ax (Z.of_nat (nth ax fshape 0)) W Q src parts dst) as (d & E1 & E2).
    - exact N.
    - unfold W. rewrite wanted_length. lia.
    - unfold Q. rewrite map_length_seq. exact Hlen.
    - intros d a b Hin. destruct Ht as [_ F]. rewrite Forall_forall in F. specialize (F _ Hin). cbn in F.
      destruct (part_selections sel fshape lshape ax a b L1 L2 Hok La F) as (isl & fsl & X1 & X2 & X3).
      exists isl, fsl. split; auto. unfold assign. rewrite X2, X3. cbn [rbind].
      fold Q. fold W. rewrite shape_replace.
      + eexists. split; [reflexivity|]. intros i. reflexivity.
      + unfold W. rewrite wanted_length. lia.
      + unfold Q. rewrite map_length_seq. exact Hlen.
    - exists d. split; auto. intros i. rewrite E2. destruct (locate W i) as [k|] eqn:E; auto.
      apply locate_at in E as [_ Hk]. fold W in Hlen. rewrite Hlen in Hk.
      rewrite (tiles_cover _ _ _ Ht); auto.
      + unfold Q. now rewrite index_at_seq.
      + apply inside_nth; auto. lia.
  Qed.
End Copy.

(** *** Shapes and partitions *)
Lemma nth_local_other : forall gshape ax num j, j <> ax -> nth j (local_shape gshape ax num) 0 = nth j gshape 0.
Proof. intros. unfold local_shape. rewrite set_nth_replace. now apply nth_replace_other. Qed.

Lemma local_length : forall gshape ax num, length (local_shape gshape ax num) = length gshape.
Proof. intros. unfold local_shape. rewrite set_nth_replace. apply replace_length. Qed.

Lemma zprod_prod : forall l, zprod l = prod l.
Proof. induction l as [|x l IH]; cbn; auto; now rewrite IH. Qed.

Lemma fold_max_ge : forall l x, In x l -> (x <= fold_right Z.max 0 l)%Z.
Proof. induction l as [|y l IH]; intros x H; cbn in *; [tauto|]. destruct H as [->|H]; [lia|]. specialize (IH _ H). lia. Qed.

Lemma fold_max_le : forall l b, (0 <= b)%Z -> (forall x, In x l -> (x <= b)%Z) -> (fold_right Z.max 0 l <= b)%Z.
Proof.
  induction l as [|y l IH]; intros b Hb H; cbn; auto. apply Z.max_lub.
  - apply H. now left.
  - apply IH; auto. intros x Hx. apply H. now right.
Qed.

Lemma part_shape_local : forall gshape ax size r,
  local_shape gshape ax (part_of (nth ax gshape 0) size r) = part_shape gshape ax size r.
Proof. intros. unfold local_shape, part_shape. apply set_nth_replace. Qed.

Lemma largest_in : forall gshape ax size item r, r < size ->
  (part_bytes gshape ax size r item <= largest_bytes gshape ax size item)%Z.
Proof.
  intros gshape ax size item r H. apply fold_max_ge. apply in_map_iff. exists r. split.
  - rewrite split_local_closed by auto. unfold part_bytes. now rewrite zprod_prod, part_shape_local.
  - apply in_seq. lia.
Qed.

Lemma find_in : forall (f : nat -> bool) n j, find f (seq 0 n) = Some j -> j < n /\ f j = true.
Proof. intros f n j H. apply find_some in H as [H1 H2]. apply in_seq in H1. split; auto. lia. Qed.

Lemma partition_tiles : forall skip tn td item largest gshape lsh axis ax slices,
  (0 < tn)%Z -> (0 < td)%Z -> (0 <= item)%Z -> axis < length gshape ->
  LocalShape gshape lsh axis -> (item * prod lsh <= largest)%Z ->
  partition_io skip tn td largest gshape axis (nth 0 lsh 0) = Ok (ax, slices) ->
  Tiles slices (nth ax lsh 0) /\ ax < length gshape.
Proof.
  intros skip tn td item largest gshape lsh axis ax slices H1 H2 H3 H4 H5 H6 H7.
  destruct skip.
  - unfold partition_io in H7. cbn [orb] in H7. injection H7 as <- <-. split; [|lia].
    split; cbn.
    + now rewrite app_nil_r, Nat.sub_0_r.
    + repeat constructor. lia.
  - destruct (partition_io_ok _ _ _ _ _ _ _ _ _ H1 H2 H3 H4 H5 H6 H7) as [T _]. split; auto.
    unfold partition_io in H7. cbn [orb] in H7. destruct (_ =? 1)%Z; [injection H7 as <- <-; lia|].
    destruct (length gshape =? 1); [discriminate|].
    destruct (find _ _) as [j|] eqn:F; [|discriminate]. apply find_in in F as [F _].
    destruct (_ =? 0)%Z; [discriminate|]. destruct (_ =? 0) in H7; [discriminate|].
    injection H7 as <- _. exact F.
Qed.

Lemma local_shape_ok : forall gshape ax num, LocalShape gshape (local_shape gshape ax num) ax.
Proof. intros. split; [apply local_length|]. intros. now apply nth_local_other. Qed.

(** *** Writing *)
Lemma repeat_split : forall A (x y : A) k m, k < m ->
  repeat x k ++ y :: repeat x (m - k - 1) = replace_at k y (repeat x m).
Proof.
  induction k; intros [|m] H; cbn; try lia.
  - now rewrite Nat.sub_0_r.
  - f_equal. apply IHk. lia.
Qed.

Lemma make_selections_eq : forall ax b ndim, ax < ndim ->
  make_selections (Z.of_nat ax) b ndim = replace_at ax (SelSlice b) (repeat (SelSlice full_slice) ndim).
Proof.
  intros ax b ndim H. unfold make_selections, expand_sel. rewrite Nat2Z.id.
  rewrite app_length, repeat_length. cbn [length]. rewrite <- repeat_split by auto.
  destruct (Nat.ltb_spec (ax + 1) ndim) as [L|L].
  - rewrite <- app_assoc. cbn. do 3 f_equal. lia.
  - replace (ndim - ax - 1) with 0 by lia. reflexivity.
Qed.

(** The positions of the part of a rank. *)
Definition part_positions (gshape : list nat) (ax size r : nat) : list (list nat) :=
  replace_at ax (seq (start_of (nth ax gshape 0) size r) (part_of (nth ax gshape 0) size r))
    (map (seq 0) gshape).

Lemma lslice_seq : forall a b n, a <= b -> b <= n -> lslice a b (seq 0 n) = seq a (b - a).
Proof.
  intros a b n Ha Hb. apply nth_error_ext. intros k. rewrite nth_error_lslice.
  destruct (Nat.ltb_spec (a + k) b).
  - rewrite !nth_error_nth' with (d := 0) by (rewrite seq_length; lia). rewrite !seq_nth by lia. f_equal.
  - symmetry. apply nth_error_None. rewrite seq_length. lia.
Qed.

Lemma start_le : forall n size r, r < size -> start_of n size r + part_of n size r <= n.
Proof.
  intros n size r H. rewrite <- start_of_S. rewrite <- (start_of_m n size) at 2 by lia.
  apply start_of_mono. lia.
Qed.

Lemma rank_wanted : forall gshape ax size r, ax < length gshape -> r < size ->
  wanted_all (replace_at ax (SelSlice (local_bounds (start_of (nth ax gshape 0) size r)
                                         (part_of (nth ax gshape 0) size r)))
                (repeat (SelSlice full_slice) (length gshape))) gshape
  = part_positions gshape ax size r.
Proof.
  intros gshape ax size r H Hr. rewrite wanted_set by (rewrite repeat_length; lia).
  rewrite wanted_full by lia. cbn [wanted]. unfold local_bounds. rewrite py_positions_sub.
  rewrite lslice_seq; [|lia|now apply start_le]. unfold part_positions. f_equal. f_equal. lia.
Qed.

Lemma part_positions_lengths : forall gshape ax size r,
  map (@length nat) (part_positions gshape ax size r) = part_shape gshape ax size r.
Proof.
  intros. unfold part_positions, part_shape. rewrite replace_map, map_length_seq. now rewrite seq_length.
Qed.

Lemma part_positions_nodup : forall gshape ax size r, Forall (@NoDup nat) (part_positions gshape ax size r).
Proof.
  intros. unfold part_positions. generalize (seq_nodups gshape). 
  generalize (seq_NoDup (part_of (nth ax gshape 0) size r) (start_of (nth ax gshape 0) size r)).
  generalize (map (seq 0) gshape). generalize (seq (start_of (nth ax gshape 0) size r) (part_of (nth ax gshape 0) size r)).
  intros p l Hp Hl. revert ax. induction Hl; intros [|ax]; cbn; constructor; auto.
Qed.

Lemma rank_entries_ok : forall gshape ax size r j s,
  ax < length gshape ->
  nth_error (replace_at ax (SelSlice (local_bounds (start_of (nth ax gshape 0) size r)
                                         (part_of (nth ax gshape 0) size r)))
                (repeat (SelSlice full_slice) (length gshape))) j = Some s ->
  EntryOk s (nth j gshape 0).
Proof.
  intros gshape ax size r j s H E. destruct (Nat.eq_dec j ax) as [->|N].
  - rewrite nth_error_replace_same in E by (rewrite repeat_length; lia). injection E as <-. apply sub_ok. lia.
  - rewrite nth_error_replace_other in E by auto. apply nth_error_repeat' in E as ->. apply full_ok.
Qed.

(** Outcome of [partition_io] on the ranks. *)
Definition split_for (c : io_conf) (gshape : list nat) (ax size r : nat) :=
  partition_io (io_skip c) (io_tn c) (io_td c) (largest_bytes gshape ax size (io_item c))
    gshape ax (nth 0 (part_shape gshape ax size r) 0).

Lemma write_rank_spec : forall A (c : io_conf) gshape ax size r (loc f : nd A) sp,
  (0 < io_tn c)%Z -> (0 < io_td c)%Z -> (0 <= io_item c)%Z -> ax < length gshape -> r < size ->
  split_for c gshape ax size r = Ok sp ->
  exists f', write_rank c gshape (Z.of_nat ax) size r loc f = Ok f'
    /\ forall i, f' i = match locate (part_positions gshape ax size r) i with Some k => loc k | None => f i end.
Proof.
  intros A c gshape ax size r loc f [sax parts] Ht Hd Hi Ha Hr Hs. unfold write_rank.
  assert (W : wrap_axis (Z.of_nat ax) (length gshape) = ax).
  { unfold wrap_axis. destruct (Z.ltb_spec (Z.of_nat ax) 0); [lia|]. apply Nat2Z.id. }
  rewrite W. rewrite split_local_closed by auto. cbn [rbind]. rewrite make_selections_eq by auto.
  rewrite part_shape_local. unfold split_for in Hs. rewrite Hs. cbn [rbind].
  assert (LS : LocalShape gshape (part_shape gshape ax size r) ax).
  { rewrite <- part_shape_local. apply local_shape_ok. }
  assert (LB : (io_item c * prod (part_shape gshape ax size r) <= largest_bytes gshape ax size (io_item c))%Z).
  { exact (largest_in gshape ax size (io_item c) r Hr). }
  destruct (partition_tiles _ _ _ _ _ _ _ _ _ _ Ht Hd Hi Ha LS LB Hs) as [T La].
  destruct (copy_out A (replace_at ax (SelSlice (local_bounds (start_of (nth ax gshape 0) size r)
                                         (part_of (nth ax gshape 0) size r)))
                (repeat (SelSlice full_slice) (length gshape))) gshape (part_shape gshape ax size r) sax parts)
    with (src := loc) (dst := f) as (f' & E1 & E2); auto.
  - rewrite replace_length. apply repeat_length.
  - intros j s E. exact (rank_entries_ok gshape ax size r j s Ha E).
  - rewrite rank_wanted by auto. apply part_positions_lengths.
  - rewrite rank_wanted by auto. apply part_positions_nodup.
  - exists f'. split; auto. intros i. rewrite E2. now rewrite rank_wanted by auto.
Qed.

(** Every index belongs to a rank. *)
Lemma index_at_part : forall gshape ax size r k, ax < length gshape ->
  inside (part_shape gshape ax size r) k ->
  index_at (part_positions gshape ax size r) k = move ax (start_of (nth ax gshape 0) size r) k.
Proof.
  intros gshape ax size r k. unfold part_shape, part_positions, move.
  generalize (part_of (nth ax gshape 0) size r). generalize (start_of (nth ax gshape 0) size r).
  intros st num. revert ax k. induction gshape as [|n gshape IH]; intros ax k L H; cbn in L; [lia|].
  destruct ax as [|ax]; cbn in H; inversion H as [|x y k' l' H1 H2]; subst; cbn.
  - rewrite seq_nth by auto. f_equal; [lia|]. now apply index_at_seq.
  - rewrite seq_nth by auto. f_equal. apply IH; auto. lia.
Qed.

Lemma inside_length : forall sh i, inside sh i -> length i = length sh.
Proof. intros sh i H. induction H; cbn; auto. Qed.

Lemma owner_index : forall gshape ax size i, 1 <= size -> ax < length gshape -> inside gshape i ->
  exists r k, r < size /\ locate (part_positions gshape ax size r) i = Some k
    /\ inside (part_shape gshape ax size r) k /\ move ax (start_of (nth ax gshape 0) size r) k = i.
Proof.
  intros gshape ax size i Hs Ha Hi.
  assert (Hx : nth ax i 0 < start_of (nth ax gshape 0) size size).
  { rewrite start_of_m by lia. now apply inside_nth. }
  destruct (owner_exists _ _ _ _ Hx) as (r & Hr & Hb). rewrite start_of_S in Hb.
  exists r, (replace_at ax (nth ax i 0 - start_of (nth ax gshape 0) size r) i).
  set (k := replace_at ax (nth ax i 0 - start_of (nth ax gshape 0) size r) i).
  assert (Hk : inside (part_shape gshape ax size r) k).
  { unfold part_shape, k. revert Hb. generalize (part_of (nth ax gshape 0) size r).
    generalize (start_of (nth ax gshape 0) size r). intros st num Hb. clear Hx k.
    revert ax Ha Hb. induction Hi; intros [|ax] Ha Hb; cbn in *; constructor; auto; try lia.
    apply IHHi; lia. }
  assert (Hm : move ax (start_of (nth ax gshape 0) size r) k = i).
  { unfold move, k. assert (Li : length i = length gshape) by (now apply inside_length).
    rewrite nth_replace_same by lia. rewrite replace_twice.
    replace (nth ax i 0 - _ + _) with (nth ax i 0) by lia. apply replace_at_same. }
  split; [auto|]. split; [|split]; auto.
  rewrite <- Hm at 1. rewrite <- index_at_part by auto. apply at_locate.
  - apply part_positions_nodup.
  - now rewrite part_positions_lengths.
Qed.

Lemma write_ranks_spec : forall A (c : io_conf) gshape ax size (locs : nat -> nd A) g,
  (0 < io_tn c)%Z -> (0 < io_td c)%Z -> (0 <= io_item c)%Z -> ax < length gshape ->
  Distributes gshape ax size locs g ->
  forall order f, (forall r, In r order -> r < size /\ exists sp, split_for c gshape ax size r = Ok sp) ->
  exists f', write_ranks c gshape (Z.of_nat ax) size order locs f = Ok f'
    /\ forall i, (f' i = g i /\ exists r, In r order /\ locate (part_positions gshape ax size r) i <> None)
              \/ (f' i = f i /\ forall r, In r order -> locate (part_positions gshape ax size r) i = None).
Proof.
  intros A c gshape ax size locs g Ht Hd Hi Ha Hg order.
  induction order as [|r order IH]; intros f H.
  - exists f. split; [reflexivity|]. intros i. right. split; auto. intros r [].
  - destruct (H r (or_introl eq_refl)) as [Hr [sp Hsp]].
    destruct (write_rank_spec A c gshape ax size r (locs r) f sp Ht Hd Hi Ha Hr Hsp) as (f1 & E1 & E2).
    destruct (IH f1) as (f2 & E3 & E4). { intros x Hx. apply H. now right. }
    exists f2. cbn [write_ranks]. rewrite E1. cbn [rbind]. split; auto. intros i.
    destruct (E4 i) as [[X [r' [Y Z]]]|[X Y]].
    + left. split; auto. exists r'. split; auto. now right.
    + rewrite X, E2. destruct (locate (part_positions gshape ax size r) i) as [k|] eqn:E.
      * left. split.
        -- destruct (locate_at _ _ _ E) as [P1 P2]. rewrite part_positions_lengths in P2.
           rewrite (Hg r k Hr P2). f_equal. rewrite <- P1. symmetry. now apply index_at_part.
        -- exists r. split; [now left|congruence].
      * right. split; auto. intros r' [<-|Hr']; auto.
Qed.

Lemma write_all_spec : forall A (c : io_conf) gshape ax size (locs : nat -> nd A) g order f,
  (0 < io_tn c)%Z -> (0 < io_td c)%Z -> (0 <= io_item c)%Z -> ax < length gshape -> 1 <= size ->
  Distributes gshape ax size locs g -> Permutation order (seq 0 size) ->
  (forall r, r < size -> exists sp, split_for c gshape ax size r = Ok sp) ->
  exists f', write_ranks c gshape (Z.of_nat ax) size order locs f = Ok f'
    /\ forall i, inside gshape i -> f' i = g i.
Proof.
  intros A c gshape ax size locs g order f Ht Hd Hi Ha Hs Hg Hp Hok.
  destruct (write_ranks_spec A c gshape ax size locs g Ht Hd Hi Ha Hg order f) as (f' & E1 & E2).
  { intros r Hr. assert (r < size). { apply (Permutation_in _ Hp) in Hr. apply in_seq in Hr. lia. } auto. }
  exists f'. split; auto. intros i Hin. destruct (owner_index gshape ax size i Hs Ha Hin) as (r & k & H1 & H2 & _).
  destruct (E2 i) as [[X _]|[_ Y]]; auto. rewrite Y in H2; [discriminate|].
  apply (Permutation_in _ (Permutation_sym Hp)). apply in_seq. lia.
Qed.
