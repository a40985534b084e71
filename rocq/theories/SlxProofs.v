(** Proofs about global slices with a step. *)
From Coq Require Import List ZArith Bool Lia.
From Verif Require Import PyBase PartModel PartSpec PartProofs SliceModel SliceSpec SliceProofs SliceProps0 SlxSpec.
Import ListNotations.
Open Scope Z_scope.

Lemma resolve_own : forall s n off m, positive_step s -> (off + m <= n)%nat ->
  match resolve_axis (Z.of_nat off) (Z.of_nat m) (Z.of_nat n) (GSlice s) with
  | (LNone, full) => (forall y, (y < m)%nat -> own_step s n off (y + off) = false)
                     /\ (full = true -> m = 0%nat)
  | (LSlice s', _) => positive_step s' /\
      (forall y, (y < m)%nat -> py_selected s' (Z.of_nat m) (Z.of_nat y) = own_step s n off (y + off))
  | _ => False
  end.
Proof.
  intros [a b k] n off m Hp Hm. unfold resolve_axis, own_step, py_selected, positive_step in *.
  cbn [sl_start sl_stop sl_step] in *. set (st := py_step k) in *.
  set (A := py_bound (Z.of_nat n) 0 a) in *. set (B := py_bound (Z.of_nat n) (Z.of_nat n) b).
  assert (HA : exists ga, (match a with
        | Some a0 => ((if 0 <=? a0 then a0 else a0 + Z.of_nat n) - Z.of_nat off, false)
        | None => (0, true) end) = (ga, match a with Some _ => false | None => true end)
      /\ (a = None -> ga = 0)
      /\ A = match a with None => 0 | Some _ => Z.max 0 (Z.min (Z.of_nat n) (ga + Z.of_nat off)) end).
  { destruct a as [x|]; cbn in *.
    - eexists. split; [reflexivity|]. split; [discriminate|]. unfold A.
      destruct (Z.leb_spec 0 x), (Z.ltb_spec x 0); try lia.
    - exists 0. auto. }
  assert (HB : exists gb, (match b with
        | Some b0 => ((if 0 <=? b0 then b0 else b0 + Z.of_nat n) - Z.of_nat off, false)
        | None => (Z.of_nat m, match a with Some _ => false | None => true end) end)
      = (gb, match b with Some _ => false | None => match a with Some _ => false | None => true end end)
      /\ (b = None -> gb = Z.of_nat m)
      /\ B = match b with None => Z.of_nat n | Some _ => Z.max 0 (Z.min (Z.of_nat n) (gb + Z.of_nat off)) end).
  { destruct b as [x|]; cbn in *.
    - eexists. split; [reflexivity|]. split; [discriminate|]. unfold B.
      destruct (Z.leb_spec 0 x), (Z.ltb_spec x 0); try lia.
    - eexists. split; [reflexivity|]. auto. }
  destruct HA as [ga [-> [GA HA]]]. destruct HB as [gb [-> [GB HB]]].
  destruct ((Z.of_nat m <=? ga) || (gb <? 0)) eqn:C.
  - split.
    + intros y Hy. apply orb_true_iff in C. rewrite Z.leb_le, Z.ltb_lt in C.
      apply andb_false_iff. left. apply andb_false_iff. rewrite Z.leb_gt, Z.ltb_ge.
      destruct C as [C|C].
      * destruct a; [left; lia|]. rewrite GA in C by auto. lia.
      * destruct b; [right; lia|]. rewrite GB in C by auto. lia.
    + intros F. destruct a; [destruct b, k; discriminate|]. destruct b; [destruct k; discriminate|].
      rewrite GA, GB in C by auto. apply orb_true_iff in C. rewrite Z.leb_le, Z.ltb_lt in C. lia.
  - apply orb_false_iff in C. rewrite Z.leb_gt, Z.ltb_ge in C. cbn [sl_start sl_stop sl_step].
    fold st. split; [exact Hp|]. intros y Hy. cbn [py_bound].
    set (i := Z.max 0 (Z.min (Z.of_nat m) (if Z.max (Z.min ga (Z.of_nat m)) 0 <? 0
        then Z.max (Z.min ga (Z.of_nat m)) 0 + Z.of_nat m else Z.max (Z.min ga (Z.of_nat m)) 0))).
    set (j := Z.max 0 (Z.min (Z.of_nat m) (if Z.max (Z.min gb (Z.of_nat m)) 0 <? 0
        then Z.max (Z.min gb (Z.of_nat m)) 0 + Z.of_nat m else Z.max (Z.min gb (Z.of_nat m)) 0))).
    assert (I : i = Z.max 0 ga).
    { unfold i. destruct (Z.ltb_spec (Z.max (Z.min ga (Z.of_nat m)) 0) 0); lia. }
    assert (J : j = Z.min (Z.of_nat m) gb).
    { unfold j. destruct (Z.ltb_spec (Z.max (Z.min gb (Z.of_nat m)) 0) 0); lia. }
    clearbody i j. subst i j.
    assert (E1 : (Z.max 0 ga <=? Z.of_nat y) = (A <=? Z.of_nat (y + off))).
    { apply eq_iff_eq_true. rewrite !Z.leb_le. destruct a; [lia|]. rewrite GA by auto. lia. }
    assert (E2 : (Z.of_nat y <? Z.min (Z.of_nat m) gb) = (Z.of_nat (y + off) <? B)).
    { apply eq_iff_eq_true. rewrite !Z.ltb_lt. destruct b; [lia|]. rewrite GB by auto. lia. }
    rewrite E1, E2. destruct (Z.leb_spec A (Z.of_nat (y + off))) as [L|L]; [|reflexivity].
    f_equal. f_equal. f_equal. destruct a; [lia|]. rewrite GA by auto. lia.
Qed.

Lemma rank_gets A (data : list A) size s r : (r < size)%nat -> positive_step s -> exists x,
  global_getitem (block data size r) (start_of (length data) size r) (length data) (GSlice s) = Ok x /\
  data_of (Ok x) = map snd (filter (fun e => own_step s (length data) (start_of (length data) size r) (fst e))
    (penum (start_of (length data) size r) (block data size r))).
Proof.
  intros Hr Hp. destruct (block_length A data size r Hr) as [L1 L2].
  set (off := start_of (length data) size r) in *. set (l := block data size r) in *.
  pose proof (resolve_own s (length data) off (length l) Hp ltac:(lia)) as Q.
  unfold global_getitem.
  destruct (resolve_axis _ _ _ _) as [[|i|s'|t] full]; try contradiction.
  - destruct Q as [Q1 Q2]. destruct full.
    + eexists. split; [reflexivity|]. specialize (Q2 eq_refl). destruct l; [|discriminate]. reflexivity.
    + eexists. split; [reflexivity|]. cbn [data_of]. symmetry. apply none_filter. exact Q1.
  - destruct Q as [Q1 Q2]. rewrite apply_slice_pos by auto.
    exists (RMany (py_slice l s')). split; [destruct full; reflexivity|].
    cbn [data_of]. apply local_slice_filter. exact Q2.
Qed.
Lemma rank_sets A (data : list A) size s r v : (r < size)%nat -> positive_step s ->
  global_setitem (block data size r) (start_of (length data) size r) (length data) (GSlice s) v =
  Ok (map (fun e => if own_step s (length data) (start_of (length data) size r) (fst e) then v else snd e)
    (penum (start_of (length data) size r) (block data size r))).
Proof.
  intros Hr Hp. destruct (block_length A data size r Hr) as [L1 L2].
  set (off := start_of (length data) size r) in *. set (l := block data size r) in *.
  pose proof (resolve_own s (length data) off (length l) Hp ltac:(lia)) as Q.
  unfold global_setitem. destruct (resolve_axis _ _ _ _) as [[|i|s'|t] full]; try contradiction; cbn [fst].
  - f_equal. symmetry. apply none_assign. apply Q.
  - destruct Q as [Q1 Q2]. destruct (positions_pos s' (length l) Q1) as [ps [E _]]. rewrite E.
    f_equal. rewrite (assign_at_positions A l s' v Q1 ps E). apply local_assign_filter. exact Q2.
Qed.

Lemma in_phase_same s n size r x : positive_step s -> InPhase s n size -> (r < size)%nat ->
  (start_of n size r <= x < start_of n size (S r))%nat ->
  own_step s n (start_of n size r) x = py_selected s (Z.of_nat n) (Z.of_nat x).
Proof.
  intros Hp P Hr Hx. specialize (P r Hr ltac:(lia)). cbv zeta in P. unfold own_step, py_selected, positive_step in *.
  set (a := py_bound _ 0 _) in *. set (b := py_bound _ _ (sl_stop s)) in *. set (off := start_of n size r) in *.
  set (st := py_step _) in *. destruct (Z.leb_spec a (Z.of_nat x)) as [L|L]; [|reflexivity].
  destruct (Z.ltb_spec (Z.of_nat x) b) as [M|M]; [|reflexivity]. cbn [andb]. f_equal.
  destruct (Z.lt_ge_cases a (Z.of_nat off)) as [Q|Q].
  - destruct P as [q E]; [lia|]. rewrite Z.max_r by lia. replace (Z.of_nat x - a) with (Z.of_nat x - Z.of_nat off + q * st) by lia.
    now rewrite Z.mod_add by lia.
  - rewrite Z.max_l by lia. reflexivity.
Qed.
Lemma penum_range A off (l : list A) e : In e (penum off l) -> (off <= fst e < off + length l)%nat.
Proof. destruct e as [i x]. unfold penum. intro H. apply in_combine_l in H. apply in_seq in H. exact H. Qed.
Lemma filter_ext_here {A} (f g : A -> bool) l : (forall x, In x l -> f x = g x) -> filter f l = filter g l.
Proof. induction l as [|x l IH]; intro H; [reflexivity|]. cbn. rewrite (H x) by (left; reflexivity). rewrite IH by (intros y Y; apply H; right; exact Y). reflexivity. Qed.

Lemma get_all_own A (data : list A) size s : positive_step s ->
  map data_of (global_get_all data size (GSlice s)) = map (fun r => map snd (filter (fun e =>
    own_step s (length data) (start_of (length data) size r) (fst e)) (penum (start_of (length data) size r) (block data size r)))) (seq 0 size) /\
  Forall (fun r => exists x, r = Ok x) (global_get_all data size (GSlice s)).
Proof.
  intros Hp. unfold global_get_all. rewrite map_map. split.
  - apply map_ext_in. intros r Hr. apply in_seq in Hr. rewrite local_part_closed by lia.
    destruct (rank_gets A data size s r ltac:(lia) Hp) as (x & -> & E). exact E.
  - rewrite Forall_forall. intros x Hx. apply in_map_iff in Hx as [r [<- Hr]]. apply in_seq in Hr.
    rewrite local_part_closed by lia. destruct (rank_gets A data size s r ltac:(lia) Hp) as (x & -> & _). eauto.
Qed.
Lemma set_all_own A (data : list A) size s v : positive_step s ->
  global_set_all data size (GSlice s) v = map (fun r => Ok (map (fun e =>
    if own_step s (length data) (start_of (length data) size r) (fst e) then v else snd e)
      (penum (start_of (length data) size r) (block data size r)))) (seq 0 size).
Proof.
  intros Hp. unfold global_set_all. apply map_ext_in. intros r Hr. apply in_seq in Hr. rewrite local_part_closed by lia.
  apply rank_sets; [lia|assumption].
Qed.

Lemma get_in_phase A (data : list A) size s : (1 <= size)%nat -> positive_step s -> InPhase s (length data) size ->
  concat (map data_of (global_get_all data size (GSlice s))) = py_slice data s.
Proof.
  intros Hs Hp P. rewrite (proj1 (get_all_own A data size s Hp)).
  rewrite map_ext_in with (g := fun r => map snd (filter (fun e => py_selected s (Z.of_nat (length data)) (Z.of_nat (fst e)))
       (penum (start_of (length data) size r) (block data size r)))).
  - rewrite (blocks_enum A A (fun es => map snd (filter (fun e => py_selected s (Z.of_nat (length data)) (Z.of_nat (fst e))) es))); auto.
    + unfold py_slice. f_equal. apply filter_ext. now intros [i x].
    + intros x y. now rewrite filter_app, map_app.
  - intros r Hr. apply in_seq in Hr. f_equal. apply filter_ext_here. intros e He. apply penum_range in He.
    destruct (block_length A data size r ltac:(lia)) as [L1 L2]. apply in_phase_same; try assumption; lia.
Qed.
Lemma set_in_phase A (data : list A) size s v : (1 <= size)%nat -> positive_step s -> InPhase s (length data) size ->
  exists ls, global_set_all data size (GSlice s) v = map Ok ls /\ concat ls = py_assign data s v.
Proof.
  intros Hs Hp P. exists (map (fun r => map (fun e => if py_selected s (Z.of_nat (length data)) (Z.of_nat (fst e)) then v else snd e)
     (penum (start_of (length data) size r) (block data size r))) (seq 0 size)). split.
  - rewrite set_all_own by assumption. rewrite map_map. apply map_ext_in. intros r Hr. apply in_seq in Hr. f_equal.
    apply map_ext_in. intros e He. apply penum_range in He.
    destruct (block_length A data size r ltac:(lia)) as [L1 L2]. rewrite in_phase_same by (try assumption; lia). reflexivity.
  - rewrite (blocks_enum A A (fun es => map (fun e => if py_selected s (Z.of_nat (length data)) (Z.of_nat (fst e)) then v else snd e) es)); auto.
    + unfold py_assign. apply map_ext. now intros [i x].
    + intros x y. now rewrite map_app.
Qed.

Lemma nth_block A (data : list A) size r d : (r < size)%nat -> (start_of (length data) size r < start_of (length data) size (S r))%nat ->
  exists l, penum (start_of (length data) size r) (block data size r) = (start_of (length data) size r, nth (start_of (length data) size r) data d) :: l.
Proof.
  intros Hr L. destruct (block_length A data size r Hr) as [L1 L2]. set (off := start_of _ _ r) in *.
  assert (N : nth_error (block data size r) 0 = Some (nth off data d)).
  { unfold block, lslice. fold off. 
    destruct (start_of (length data) size (S r) - off)%nat as [|k] eqn:K; [lia|].
    destruct (skipn off data) as [|x l] eqn:E.
    - apply (f_equal (@length A)) in E. rewrite skipn_length in E. cbn in E. lia.
    - cbn. f_equal. rewrite <- (firstn_skipn off data) at 1. rewrite E, app_nth2; rewrite firstn_length_le by lia; [|lia].
      replace (off - off)%nat with 0%nat by lia. reflexivity. }
  destruct (block data size r) as [|x l]; [discriminate|]. injection N as <-. exists (combine (seq (S off) (length l)) l). reflexivity.
Qed.
Lemma own_first s n off : positive_step s -> py_bound (Z.of_nat n) 0 (sl_start s) < Z.of_nat off < py_bound (Z.of_nat n) (Z.of_nat n) (sl_stop s) ->
  own_step s n off off = true.
Proof.
  intros P H. unfold own_step. rewrite Z.max_r by lia. rewrite Z.sub_diag, Z.mod_0_l by (unfold positive_step in P; lia).
  rewrite !andb_true_iff, Z.leb_le, Z.ltb_lt, Z.eqb_eq. lia.
Qed.
Lemma in_enumerate A (l : list A) i x d : In (i, x) (enumerate l) -> (i < length l)%nat /\ x = nth i l d.
Proof.
  rewrite enum_penum. unfold penum. intros H. split.
  - apply in_combine_l in H. apply in_seq in H. lia.
  - assert (G : forall k, In (i, x) (combine (seq k (length l)) l) -> (k <= i)%nat /\ x = nth (i - k) l d).
    { clear H. induction l as [|y l IH]; intros k H; [destruct H|]. destruct H as [H|H].
      - injection H as <- <-. rewrite Nat.sub_diag. auto.
      - destruct (IH (S k) H) as [L E]. split; [lia|]. replace (i - k)%nat with (S (i - S k)) by lia. exact E. }
    destruct (G 0%nat H) as [_ E]. rewrite Nat.sub_0_r in E. exact E.
Qed.

Lemma get_needs_phase A (data : list A) size s : positive_step s -> NoDup data ->
  concat (map data_of (global_get_all data size (GSlice s))) = py_slice data s -> InPhase s (length data) size.
Proof.
  intros Hp N E r Hr L. cbv zeta. intros H. rewrite (proj1 (get_all_own A data size s Hp)) in E.
  destruct data as [|d data']; [destruct (block_length A [] size r Hr) as [_ M]; exfalso; clear - L M; change (length (@nil A)) with 0%nat in *; lia|]. set (data := d :: data') in *. clearbody data.
  destruct (nth_block A data size r d Hr L) as (l & B). destruct (block_length A data size r Hr) as [L1 L2].
  set (off := start_of (length data) size r) in *.
  assert (J : In (nth off data d) (py_slice data s)).
  { rewrite <- E. apply in_concat. eexists. split; [apply in_map_iff; exists r; split; [reflexivity|apply in_seq; lia]|].
    cbv beta. fold off. rewrite B. cbn [filter fst]. rewrite own_first by assumption. left. reflexivity. }
  unfold py_slice in J. apply in_map_iff in J. destruct J as ([i x] & X & J). apply filter_In in J. destruct J as [J K].
  apply in_enumerate with (d := d) in J. destruct J as [I ->]. cbn [snd] in X.
  assert (i = off) as -> by (apply (proj1 (NoDup_nth data d) N); [assumption|lia|assumption]).
  unfold py_selected in K. rewrite !andb_true_iff, Z.eqb_eq in K. apply Z.mod_divide; [unfold positive_step in Hp; lia|]. apply K.
Qed.
Lemma concat_blocks A (data : list A) size : (1 <= size)%nat -> concat (map (block data size) (seq 0 size)) = data.
Proof.
  intros Hs. pose proof (blocks_enum A A (map snd) data size Hs eq_refl ltac:(intros; apply map_app)) as E.
  rewrite enum_penum in E. 
  assert (G : forall k (l : list A), map snd (penum k l) = l).
  { intros k l. revert k. unfold penum. induction l as [|x l IH]; intro k; [reflexivity|]. cbn. f_equal. apply IH. }
  rewrite G in E. etransitivity; [|exact E]. f_equal. apply map_ext. intro r. symmetry. apply G.
Qed.
Lemma set_needs_phase A (data : list A) size s v ls : (1 <= size)%nat -> positive_step s -> ~ In v data ->
  global_set_all data size (GSlice s) v = map Ok ls -> concat ls = py_assign data s v -> InPhase s (length data) size.
Proof.
  intros Hs Hp N G E r Hr L. cbv zeta. intros H. rewrite set_all_own in G by assumption.
  assert (ls = map (fun r => map (fun e =>
    if own_step s (length data) (start_of (length data) size r) (fst e) then v else snd e)
      (penum (start_of (length data) size r) (block data size r))) (seq 0 size)) as ->.
  { revert G. generalize (seq 0 size). intro q. revert ls E. intros ls _. revert ls. induction q as [|x q IH]; intros [|y ls] G; try discriminate; [reflexivity|].
    cbn [map] in *. injection G as G1 G2. rewrite (IH ls G2). rewrite <- G1. reflexivity. }
  destruct data as [|d data']; [destruct (block_length A [] size r Hr) as [_ M]; exfalso; clear - L M; change (length (@nil A)) with 0%nat in *; lia|]. set (data := d :: data') in *. clearbody data.
  destruct (nth_block A data size r d Hr L) as (l & B). destruct (block_length A data size r Hr) as [L1 L2].
  (* the element at [off] of both sides *)
  set (off := start_of (length data) size r) in *.
  set (F := fun r => map (fun e => if own_step s (length data) (start_of (length data) size r) (fst e) then v else snd e)
      (penum (start_of (length data) size r) (block data size r))) in *.
  assert (LF : forall k, length (F k) = length (block data size k)).
  { intro k. unfold F, penum. rewrite map_length, combine_length, seq_length. lia. }
  assert (LC : forall k, (k <= size)%nat -> length (concat (map F (seq 0 k))) = start_of (length data) size k).
  { induction k as [|k IH]; intro Hk; [now rewrite start_of_0|].
    rewrite seq_S, map_app, concat_app, app_length, IH by lia. cbn [map concat Nat.add]. rewrite app_nil_r, LF.
    destruct (block_length A data size k ltac:(lia)). lia. }
  assert (V : nth off (concat (map F (seq 0 size))) d = v).
  { replace size with (r + S (size - r - 1))%nat at 1 by lia. rewrite seq_app, map_app, concat_app. 
    rewrite app_nth2; rewrite (LC r) by lia; [|unfold off; lia]. fold off. rewrite Nat.sub_diag. cbn [seq map concat Nat.add].
    unfold F at 1. fold off. rewrite B. cbn [map fst]. rewrite own_first by assumption. reflexivity. }
  rewrite E in V. unfold py_assign in V. rewrite enum_penum in V.
  assert (LN : forall k, (k < length data)%nat -> nth_error (penum 0 data) k = Some (k, nth k data d)).
  { intros k Hk. unfold penum. 
    assert (W : forall (l : list A) j k, (k < length l)%nat -> nth_error (combine (seq j (length l)) l) k = Some ((j + k)%nat, nth k l d)).
    { induction l0 as [|y l0 IH]; intros j q Hq; [cbn in Hq; lia|]. destruct q as [|q]; [cbn; now rewrite Nat.add_0_r|].
      cbn. rewrite IH by (cbn in Hq; lia). f_equal. f_equal. lia. }
    apply (W data 0%nat k Hk). }
  assert (O : (off < length data)%nat) by lia.
  rewrite (nth_error_nth _ _ d (map_nth_error _ _ _ (LN off O))) in V. cbv beta iota in V.
  destruct (py_selected _ _ _) eqn:K; [|destruct N; rewrite <- V; apply nth_In; exact O].
  unfold py_selected in K. rewrite !andb_true_iff, Z.eqb_eq in K. apply Z.mod_divide; [unfold positive_step in Hp; lia|]. apply K.
Qed.
