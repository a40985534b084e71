(** Final lemmas in the exact form used by PartProps. *)
From Coq Require Import List Arith Lia Bool Permutation.
From Verif Require Import PyBase PartModel PartSpec PartProofs.
Import ListNotations.

Lemma split_m_even_pos : forall n m, 1 <= m ->
  exists part start stop, split_m n m = Ok (part, start, stop)
    /\ EvenSplit n m part start stop.
Proof. intros. apply split_m_even. lia. Qed.

Lemma split_m_zero : forall n, split_m n 0 = Err ZeroDivisionError.
Proof. reflexivity. Qed.

Lemma rsequence_length : forall A (l : list (res A)) ps, rsequence l = Ok ps ->
  length ps = length l.
Proof.
  induction l as [|r l IH]; intros ps H; cbn [rsequence] in H.
  - inversion H. reflexivity.
  - destruct r; [|discriminate]. destruct (rsequence l); [|discriminate].
    inversion H. simpl. f_equal. now apply IH.
Qed.

Lemma con_all : forall A perm (l : list A) n, 1 <= n ->
  exists ps, rsequence (map (fun i => partition_list perm l i n Con) (seq 0 n)) = Ok ps
             /\ length ps = n /\ concat ps = l.
Proof.
  intros. destruct (con_pieces_concat A perm l n ltac:(lia)) as [ps [E C]].
  exists ps. split; [exact E|split; [|exact C]].
  rewrite (rsequence_length _ _ _ E), map_length. apply seq_length.
Qed.

Lemma alt_positions : forall A perm (l : list A) i n, i < n ->
  exists p, partition_list perm l i n Alt = Ok p
    /\ forall k, nth_error p k = nth_error l (i + k * n).
Proof. intros. apply alt_piece; lia. Qed.

Lemma alt_once : forall n x, 1 <= n ->
  exists i k, i < n /\ x = i + k * n /\
    forall i' k', i' < n -> x = i' + k' * n -> i' = i /\ k' = k.
Proof. intros. apply position_split. lia. Qed.

Lemma alt_perm : forall A perm (l : list A) n, 1 <= n ->
  exists ps, rsequence (map (fun i => partition_list perm l i n Alt) (seq 0 n)) = Ok ps
             /\ Permutation (concat ps) l.
Proof. intros. apply alt_pieces_perm. lia. Qed.

Lemma unknown_method : forall A perm (l : list A) i n, i < n ->
  partition_list perm l i n OtherMethod = Err ValueError.
Proof.
  intros. unfold partition_list. now rewrite partition_bounds_closed by lia.
Qed.

Lemma index_out_of_range : forall A perm (l : list A) i n m, 1 <= n -> n <= i ->
  partition_list perm l i n m = Err IndexError.
Proof.
  intros. unfold partition_list, partition_bounds.
  destruct (Nat.eqb_spec n 0); [lia|].
  rewrite num_lst_parts, cumsum_parts by lia.
  rewrite (proj2 (nth_error_None _ (i + 1))).
  - now destruct (nth_error _ i).
  - rewrite map_length, seq_length. lia.
Qed.

Lemma split_local_closed : forall n rank size, rank < size ->
  split_local n rank size =
  Ok (part_of n size rank, start_of n size rank, start_of n size (S rank)).
Proof.
  intros. unfold split_local, split_all. rewrite split_m_closed by lia.
  now rewrite !nth_error_map_seq by lia.
Qed.

Lemma owned_once : forall n size, 1 <= size ->
  exists part start stop, split_all n size = Ok (part, start, stop)
    /\ OwnedOnce n start stop
    /\ forall rank, rank < size -> exists p s e,
         split_local n rank size = Ok (p, s, e)
         /\ nth_error part rank = Some p /\ nth_error start rank = Some s
         /\ nth_error stop rank = Some e /\ p = e - s.
Proof.
  intros n size H. destruct (split_owned_once n size ltac:(lia)) as [p [s [e [E O]]]].
  exists p, s, e. split; [exact E|split; [exact O|]].
  intros rank Hr. rewrite split_local_closed by auto.
  rewrite split_m_closed in E by lia. inversion E; subst.
  do 3 eexists. split; [reflexivity|]. rewrite !nth_error_map_seq by lia.
  repeat split. rewrite start_of_S. lia.
Qed.

Lemma nrange_NoDup : forall a b s, s <> 0 -> NoDup (nrange a b s).
Proof.
  intros. unfold nrange. apply FinFun.Injective_map_NoDup; [|apply seq_NoDup].
  intros i j E. apply Nat.add_cancel_l in E. now apply Nat.mul_cancel_r in E.
Qed.

Lemma mpirange_partition : forall perm a b s m size, 1 <= size -> 1 <= s ->
  m = Con \/ m = Alt ->
  exists ps, rsequence (map (fun r => mpirange perm a b s m r size) (seq 0 size)) = Ok ps
    /\ NoDup (concat ps)
    /\ forall x, In x (concat ps) <-> (a <= x < b /\ exists k, x = a + k * s).
Proof.
  intros perm a b s m size H Hs Hm.
  assert (G : exists ps,
    rsequence (map (fun r => mpirange perm a b s m r size) (seq 0 size)) = Ok ps
    /\ Permutation (concat ps) (nrange a b s)).
  { unfold mpirange, partition_list_mpi. destruct Hm as [-> | ->].
    - apply con_pieces_perm. lia.
    - apply alt_pieces_perm. lia. }
  destruct G as [ps [E P]]. exists ps. split; [exact E|split].
  - eapply Permutation_NoDup; [apply Permutation_sym, P|]. apply nrange_NoDup. lia.
  - intros x.
    assert (In x (concat ps) <-> In x (nrange a b s)) as ->.
    { split; apply Permutation_in; auto using Permutation_sym. }
    rewrite nrange_in by lia. split.
    + intros [H1 H2]. split; auto. exists ((x - a) / s).
      pose proof (Nat.div_mod (x - a) s ltac:(lia)). lia.
    + intros [H1 [k ->]]. split; auto. replace (a + k * s - a) with (k * s) by lia.
      apply Nat.mod_mul. lia.
Qed.

Lemma con_matches_local : forall A perm (l : list A) rank size, rank < size ->
  exists p s e, split_local (length l) rank size = Ok (p, s, e)
    /\ partition_list_mpi perm l Con rank size = Ok (firstn (e - s) (skipn s l)).
Proof.
  intros. do 3 eexists. split; [now apply split_local_closed|].
  unfold partition_list_mpi. now rewrite con_piece by lia.
Qed.

Lemma parallel_map_all : forall A B (f : A -> B) (l : list A) m perms size rank,
  1 <= size -> m = Con \/ m = Alt ->
  parallel_map f l None m perms size rank = Ok (Some (map f l)).
Proof.
  intros. rewrite parallel_map_con_alt by auto. now destruct (size <=? 1).
Qed.

Lemma parallel_map_root : forall A B (f : A -> B) (l : list A) m perms size rank root,
  2 <= size -> m = Con \/ m = Alt ->
  parallel_map f l (Some root) m perms size rank =
  Ok (if rank =? root then Some (map f l) else None).
Proof.
  intros. rewrite parallel_map_con_alt by (auto; lia).
  destruct (Nat.leb_spec size 1); [lia|auto].
Qed.

Lemma rand_refuted :
  exists (l : list nat) perms size,
    1 <= size
    /\ (forall r, Permutation (perms r) (seq 0 (length l)))
    /\ forall rank, parallel_map (fun x => x) l None Rand perms size rank
       <> Ok (Some (map (fun x => x) l)).
Proof.
  exists [7; 8], (fun r => if r =? 0 then [0; 1] else [1; 0]), 2.
  split; [lia|split].
  - intros r. destruct (r =? 0); simpl; auto. apply perm_swap.
  - intros rank. vm_compute. discriminate.
Qed.

Lemma rand_shared :
  forall A B (f : A -> B) (l : list A) perm size rank,
  1 <= size -> Permutation perm (seq 0 (length l)) ->
  parallel_map f l None Rand (fun _ => perm) size rank = Ok (Some (map f l)).
Proof.
  intros. rewrite parallel_map_rand_shared by auto. now destruct (size <=? 1).
Qed.

Lemma transpose_global : forall A (M : list (list A)) nr nc nm size part start stop,
  1 <= size -> split_m nr size = Ok (part, start, stop) ->
  length M = nr * nm ->
  let locals := map (fun r => firstn (nth r part 0 * nm) (skipn (nth r start 0 * nm) M))
                    (seq 0 size) in
  exists blocks,
    rsequence (map (fun r => transpose_blocks locals nr nc nm size r) (seq 0 size))
      = Ok (map (map Some) blocks)
    /\ (forall b, In b blocks -> length b = nr * nm)
    /\ (forall k row, nth_error M k = Some row ->
          concat (map (fun b => nth k b []) blocks) = firstn nc row)
    /\ (forall r b, nth_error blocks r = Some b -> (forall row, In row M -> nc <= length row) ->
          exists p s e, split_local nc r size = Ok (p, s, e)
          /\ forall row, In row b -> length row = p).
Proof.
  intros A M nr nc nm size part start stop Hs E HM locals.
  rewrite split_m_closed in E by lia. inversion E; subst part start stop. clear E.
  assert (Hpart : forall f a i, i < size -> nth i (map f (seq a size)) 0 = f (a + i)).
  { intros f a i Hi. apply nth_error_nth. now apply nth_error_map_seq. }
  assert (Hloc : forall i, i < size -> nth i locals [] =
     lslice (start_of nr size i * nm) (start_of nr size (S i) * nm) M).
  { intros i Hi. unfold locals. apply nth_error_nth. rewrite nth_error_map_seq by auto.
    simpl (0 + i). rewrite !Hpart by auto. simpl (0 + i). unfold lslice. do 2 f_equal.
    rewrite start_of_S. nia. }
  assert (Hcat : concat locals = M).
  { rewrite <- (concat_nth_seq _ locals size)
      by (unfold locals; now rewrite map_length, seq_length).
    assert (G : forall k, k <= size ->
       concat (map (fun i => nth i locals []) (seq 0 k)) = lslice 0 (start_of nr size k * nm) M).
    { induction k as [|k IH]; intros Hk.
      - cbn [seq map concat]. now rewrite start_of_0, lslice_empty by lia.
      - rewrite seq_S, map_app, concat_app, IH by lia. simpl. rewrite app_nil_r.
        rewrite Hloc by lia. apply lslice_app; [lia|].
        apply Nat.mul_le_mono_r, start_of_mono. lia. }
    rewrite G, start_of_m by lia. apply lslice_full. lia. }
  exists (map (fun r => map (lslice (start_of nc size r) (start_of nc size (S r))) M) (seq 0 size)).
  split; [|split; [|split]].
  - rewrite map_map. apply rsequence_map_ok. intros r Hr. apply in_seq in Hr.
    rewrite <- Hcat. apply transpose_blocks_ok; try lia.
    + unfold locals. now rewrite map_length, seq_length.
    + intros i Hi. rewrite Hloc by auto. rewrite length_lslice, HM.
      pose proof (start_of_mono nr size (S i) size ltac:(lia)) as G.
      rewrite start_of_m in G by lia. rewrite start_of_S in *. nia.
  - intros b Hb. apply in_map_iff in Hb as [r [<- _]]. now rewrite map_length.
  - intros k row Hk. rewrite map_map. rewrite <- (columns_reassemble A row nc size) by lia.
    f_equal. apply map_ext. intros r. apply nth_error_nth. now rewrite nth_error_map', Hk.
  - intros r b Hb Hrows. apply nth_error_map_seq_inv in Hb as [Hr ->]. simpl (0 + r).
    do 3 eexists. split; [now apply split_local_closed|].
    intros row Hin. apply in_map_iff in Hin as [row0 [<- Hin]]. rewrite length_lslice.
    specialize (Hrows _ Hin).
    pose proof (start_of_mono nc size (S r) size ltac:(lia)) as G.
    rewrite start_of_m in G by lia. rewrite start_of_S in *. lia.
Qed.

Lemma unique_first : forall A (eqb : A -> A -> bool),
  (forall x y, eqb x y = true <-> x = y) ->
  forall x, FirstOccurrences x (unique_ordered eqb x).
Proof. intros A eqb H x. now apply unique_ordered_first. Qed.

Lemma unique_set : forall A (eqb : A -> A -> bool),
  (forall x y, eqb x y = true <-> x = y) ->
  forall x, NoDup (unique_ordered eqb x)
    /\ forall a, In a (unique_ordered eqb x) <-> In a x.
Proof.
  intros A eqb H x. split.
  - now apply unique_loop_nodup.
  - intros a. unfold unique_ordered. rewrite unique_loop_in by auto. simpl. tauto.
Qed.

Lemma rows_refuted :
  exists (file : list nat) offset nrows nc data,
    let '(file', err) := parallel_rows_write_rank 0 file offset nrows nc 0 1 data in
    err = None
    /\ length data = nrows * nc
    /\ file' <> firstn offset file ++ data ++ skipn (offset + length data) file.
Proof.
  exists [1;2;3;4;5;6], 2, 4, 1, [11;12;13;14]. vm_compute.
  repeat split. discriminate.
Qed.

Lemma write_at_0 : forall A (pad : A) data file,
  write_at 0 data file pad = data ++ skipn (length data) file.
Proof. reflexivity. Qed.

Lemma overwrites_start : forall A (pad : A) buf_len bytes file offset size file',
  lock_and_write_buffer pad buf_len bytes file offset size = (file', None) ->
  firstn (length bytes) file' = bytes /\ skipn (length bytes) file' = skipn (length bytes) file.
Proof.
  intros A pad buf_len bytes file offset size file' H.
  unfold lock_and_write_buffer in H. rewrite write_at_0 in H.
  destruct (size <? buf_len); [discriminate|].
  destruct (negb _); [discriminate|]. inversion H; subst. split.
  - rewrite firstn_app, firstn_all, Nat.sub_diag. simpl. apply app_nil_r.
  - rewrite skipn_app, skipn_all, Nat.sub_diag. reflexivity.
Qed.

Lemma multibyte_raises : forall A (pad : A) buf_len bytes file offset size,
  length bytes <> buf_len ->
  exists file', lock_and_write_buffer pad buf_len bytes file offset size
                = (file', Some OtherException).
Proof.
  intros. unfold lock_and_write_buffer. destruct (size <? buf_len); [eauto|].
  destruct (Nat.eqb_spec (length bytes) buf_len); [contradiction|]. simpl. eauto.
Qed.

Lemma rows_partial : forall A (pad : A) file nrows nc data,
  1 <= nc -> length data = nrows ->
  parallel_rows_write_rank pad file 0 nrows nc 0 1 data
  = (data ++ skipn (length data) file, None).
Proof.
  intros A pad file nrows nc data Hc Hd. unfold parallel_rows_write_rank.
  rewrite split_local_closed by lia.
  assert (P : part_of nrows 1 0 = nrows).
  { pose proof (start_of_m nrows 1 ltac:(lia)) as G. rewrite start_of_S, start_of_0 in G. lia. }
  rewrite P. unfold lock_and_write_buffer.
  destruct (Nat.ltb_spec (nrows * nc) nrows); [nia|].
  subst nrows. rewrite Nat.eqb_refl. reflexivity.
Qed.
