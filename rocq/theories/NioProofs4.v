(** Proofs about distributed files (for C184-C192), part 4: files. *)
From Coq Require Import String.
From Coq Require Import List ZArith Bool Arith Lia Permutation.
From Verif Require Import PyBase PyStr PartModel PartSpec PartProofs PartProps0
  SliceModel SliceSpec SliceProofs SliceProps0 NioModel NioSpec NioProofs NioProofs2 NioProofs3.
Import ListNotations.
Open Scope list_scope.
Open Scope nat_scope.

Lemma largest_le : forall gshape ax size item b, (0 <= b)%Z ->
  (forall r, r < size -> (part_bytes gshape ax size r item <= b)%Z) ->
  (largest_bytes gshape ax size item <= b)%Z.
Proof.
  intros gshape ax size item b Hb H. apply fold_max_le; auto. intros x Hx.
  apply in_map_iff in Hx as [r [<- Hr]]. apply in_seq in Hr. rewrite split_local_closed by lia.
  rewrite part_shape_local, zprod_prod. apply H. lia.
Qed.

Lemma largest_scaled : forall gshape ax size item td b, (0 < td)%Z -> (0 <= b)%Z ->
  (forall r, r < size -> (td * part_bytes gshape ax size r item <= b)%Z) ->
  (td * largest_bytes gshape ax size item <= b)%Z.
Proof.
  intros gshape ax size item td b Ht Hb H.
  assert (L : (largest_bytes gshape ax size item <= b / td)%Z).
  { apply largest_le; [apply Z.div_pos; lia|]. intros r Hr. apply Z.div_le_lower_bound; auto. }
  pose proof (Z.mul_div_le b td Ht). nia.
Qed.

Lemma splittable : forall mpi tn td gshape ax size item, (0 < tn)%Z -> (0 < td)%Z -> ax < length gshape ->
  Splittable mpi tn td gshape ax size item -> can_split mpi tn td gshape ax size item.
Proof.
  intros mpi tn td gshape ax size item Ht Hd La [->|[[r0 [Hr0 Hp]] H]] local0.
  - unfold partition_io. cbn. eauto.
  - destruct mpi; [|unfold partition_io; cbn; eauto]. cbn [negb].
    pose proof (largest_in gshape ax size item r0 Hr0) as Lp.
    destruct H as [H|(j & Hj & Hn & H)].
    + pose proof (largest_scaled gshape ax size item td tn Hd ltac:(lia) H) as L.
      unfold partition_io. cbn [orb]. set (m := largest_bytes gshape ax size item) in *.
      assert (E : zceil_div (m * td) tn = 1%Z).
      { unfold zceil_div.
        assert (X : (- (m * td) / tn = -1)%Z).
        { symmetry. apply Z.div_unique with (r := (tn - m * td)%Z); nia. }
        lia. }
      rewrite E, Z.eqb_refl. eauto.
    + pose proof (largest_scaled gshape ax size item td (tn * Z.of_nat (nth j gshape 0)) Hd ltac:(lia) H) as L.
      destruct (partition_io_accepts tn td (largest_bytes gshape ax size item) gshape ax local0 j) as (a & s & E);
        auto; try lia. eauto.
Qed.

(** *** Owners and redistribution *)
Lemma find_owner_spec : forall n size x, 1 <= size -> x < n ->
  let o := find_owner n size x (seq 0 size) in
  o < size /\ start_of n size o <= x < start_of n size o + part_of n size o.
Proof.
  intros n size x Hs Hx.
  assert (G : forall l, (forall r, In r l -> r < size) ->
    (exists r, In r l /\ start_of n size r <= x < start_of n size r + part_of n size r) ->
    let o := find_owner n size x l in
    o < size /\ start_of n size o <= x < start_of n size o + part_of n size o).
  { induction l as [|r l IH]; intros Hl [r0 [Hin H0]]; [easy|]. cbn [find_owner].
    rewrite split_local_closed by (apply Hl; now left). rewrite start_of_S.
    destruct ((start_of n size r <=? x) && (x <? start_of n size r + part_of n size r)) eqn:C.
    - apply andb_prop in C as [C1 C2]. apply Nat.leb_le in C1. apply Nat.ltb_lt in C2.
      cbn. split; [apply Hl; now left|lia].
    - apply IH; [intros y Hy; apply Hl; now right|]. destruct Hin as [->|Hin]; [|eauto].
      apply andb_false_iff in C as [C|C]; [apply Nat.leb_gt in C|apply Nat.ltb_ge in C]; lia. }
  apply G.
  - intros r Hr. apply in_seq in Hr. lia.
  - assert (Hx' : x < start_of n size size) by (rewrite start_of_m; lia).
    destruct (owner_exists _ _ _ _ Hx') as (r & Hr & Hb). rewrite start_of_S in Hb.
    exists r. split; [apply in_seq; lia|lia].
Qed.

Lemma inside_replace : forall sh i ax x, inside sh i -> ax < length sh ->
  forall m, x < m -> inside (replace_at ax m sh) (replace_at ax x i).
Proof.
  intros sh i ax x H. revert ax. induction H; intros [|ax] L m Hm; cbn in *; constructor; auto; try lia.
  apply IHForall2; lia.
Qed.

Lemma inside_move : forall gshape ax size r k, ax < length gshape -> r < size ->
  inside (part_shape gshape ax size r) k ->
  inside gshape (move ax (start_of (nth ax gshape 0) size r) k).
Proof.
  intros gshape ax size r k La Hr Hk. unfold move.
  pose proof (inside_nth _ _ ax Hk) as X. unfold part_shape in X. rewrite replace_length in X.
  rewrite nth_replace_same in X by auto. specialize (X La).
  pose proof (start_le (nth ax gshape 0) size r Hr).
  assert (Y : inside (replace_at ax (nth ax gshape 0) (part_shape gshape ax size r))
                (replace_at ax (nth ax k 0 + start_of (nth ax gshape 0) size r) k)).
  { apply inside_replace; auto; [unfold part_shape; now rewrite replace_length|lia]. }
  unfold part_shape in Y. rewrite replace_twice, replace_at_same in Y. exact Y.
Qed.

Lemma redist_distributes : forall A gshape ax ax' size (locs : nat -> nd A) g,
  1 <= size -> ax < length gshape -> ax' < length gshape ->
  Distributes gshape ax size locs g ->
  Distributes gshape ax' size (redist_nd gshape ax ax' size locs) g.
Proof.
  intros A gshape ax ax' size locs g Hs La La' H r k Hr Hk. unfold redist_nd.
  pose proof (inside_move gshape ax' size r k La' Hr Hk) as Hi.
  rewrite !set_nth_replace.
  assert (Eoff : forall n q, q < size -> offset_of n q size = start_of n size q).
  { intros n q Hq. unfold offset_of. now rewrite split_local_closed. }
  rewrite (Eoff _ r Hr). fold (move ax' (start_of (nth ax' gshape 0) size r) k).
  set (i := move ax' (start_of (nth ax' gshape 0) size r) k) in *.
  pose proof (inside_nth _ _ ax Hi La) as Hx.
  destruct (find_owner_spec (nth ax gshape 0) size (nth ax i 0) Hs Hx) as [Ho Hb].
  set (o := find_owner (nth ax gshape 0) size (nth ax i 0) (seq 0 size)) in *.
  rewrite Eoff by auto.
  rewrite (H o _ Ho).
  - f_equal. unfold move. rewrite nth_replace_same by (rewrite (inside_length _ _ Hi); auto).
    rewrite replace_twice. replace (nth ax i 0 - _ + _) with (nth ax i 0) by lia. apply replace_at_same.
  - unfold part_shape. apply inside_replace; auto. lia.
Qed.

(** *** The serial writer *)
Lemma serial_rank : forall A gshape size r (loc f : nd A), 1 <= length gshape -> r < size ->
  exists f', assign gshape f [SelSlice (local_bounds (start_of (nth 0 gshape 0) size r) (part_of (nth 0 gshape 0) size r))]
               (local_shape gshape 0 (part_of (nth 0 gshape 0) size r)) loc [] = Ok f'
    /\ forall i, f' i = match locate (part_positions gshape 0 size r) i with Some k => loc k | None => f i end.
Proof.
  intros A gshape size r loc f L Hr. rewrite part_shape_local. unfold assign.
  rewrite sels_wanted.
  3:{ intros [|j] s E; [injection E as <-; apply sub_ok; lia|destruct j; discriminate]. }
  2:{ exact L. }
  cbn [rbind].
  rewrite sels_wanted; [|cbn; lia|intros [|?] ? X; discriminate]. cbn [rbind].
  assert (E1 : wanted_all [SelSlice (local_bounds (start_of (nth 0 gshape 0) size r) (part_of (nth 0 gshape 0) size r))] gshape
               = part_positions gshape 0 size r).
  { rewrite <- rank_wanted by (auto; lia). destruct gshape as [|n t]; [cbn in L; lia|].
    cbn [length repeat replace_at wanted_all]. f_equal. rewrite wanted_full by lia.
    exact (wanted_full t 0 ltac:(lia)). }
  rewrite E1, part_positions_lengths.
  change (@nil asel) with (repeat (SelSlice full_slice) 0). rewrite wanted_full by lia. rewrite map_length_seq.
  assert (S1 : same_shape (part_shape gshape 0 size r) (part_shape gshape 0 size r) = true) by now apply same_shape_eq.
  rewrite S1. eexists. split; [reflexivity|]. intros i. cbv beta.
  destruct (locate (part_positions gshape 0 size r) i) as [k|] eqn:E; auto.
  apply locate_at in E as [_ Hk]. rewrite part_positions_lengths in Hk. f_equal. now apply index_at_seq.
Qed.

Lemma serial_ranks_spec : forall A gshape size (locs : nat -> nd A) g, 1 <= length gshape ->
  Distributes gshape 0 size locs g ->
  forall order f, (forall r, In r order -> r < size) ->
  exists f', serial_ranks gshape size order locs f = Ok f'
    /\ forall i, (f' i = g i /\ exists r, In r order /\ locate (part_positions gshape 0 size r) i <> None)
              \/ (f' i = f i /\ forall r, In r order -> locate (part_positions gshape 0 size r) i = None).
Proof.
  intros A gshape size locs g L Hg order. induction order as [|r order IH]; intros f H.
  - exists f. split; [reflexivity|]. intros i. right. split; auto. intros r [].
  - pose proof (H r (or_introl eq_refl)) as Hr.
    destruct (serial_rank A gshape size r (locs r) f L Hr) as (f1 & E1 & E2).
    destruct (IH f1) as (f2 & E3 & E4). { intros x Hx. apply H. now right. }
    exists f2. cbn [serial_ranks]. rewrite split_local_closed by auto. cbn [rbind]. rewrite E1. cbn [rbind].
    split; auto. intros i.
    destruct (E4 i) as [[X [r' [Y Z]]]|[X Y]].
    + left. split; auto. exists r'. split; auto. now right.
    + rewrite X, E2. destruct (locate (part_positions gshape 0 size r) i) as [k|] eqn:E.
      * left. split.
        -- destruct (locate_at _ _ _ E) as [P1 P2]. rewrite part_positions_lengths in P2.
           rewrite (Hg r k Hr P2). f_equal. rewrite <- P1. symmetry. apply index_at_part; auto.
        -- exists r. split; [now left|congruence].
      * right. split; auto. intros r' [<-|Hr']; auto.
Qed.

Lemma create_compatible : forall A (old : option (dset A)) shape ty comp zero, Compatible old shape ty ->
  exists d, create_or_get old shape ty comp zero = Ok d /\ d_shape d = shape /\ d_type d = ty
    /\ (old = None -> d_comp d = comp).
Proof.
  intros A [d|] shape ty comp zero H; cbn in *.
  - destruct H as [H1 H2]. assert (S1 : same_shape (d_shape d) shape = true) by now apply same_shape_eq.
    rewrite S1, H2, Nat.eqb_refl. cbn. exists d. repeat split; auto. discriminate.
  - eexists. split; [reflexivity|]. cbn. auto.
Qed.

Lemma serial_holds : forall A (a : dist A) ax g zero old,
  1 <= a_size a -> a_axis a = Z.of_nat ax -> ax < length (a_gshape a) ->
  Distributes (a_gshape a) ax (a_size a) (a_locs a) g ->
  Compatible old (a_gshape a) (a_type a) ->
  exists d, to_hdf5_serial a zero old = Ok d /\ Holds d (a_gshape a) (a_type a) g.
Proof.
  intros A a ax g zero old Hs Eax La Hg Hc. unfold to_hdf5_serial.
  destruct (create_compatible A old (a_gshape a) (a_type a) None zero Hc) as (d & E1 & E2 & E3 & _).
  rewrite E1. cbn [rbind]. rewrite Eax.
  set (locs := if (Z.of_nat ax =? 0)%Z then a_locs a else _).
  assert (Hl : Distributes (a_gshape a) 0 (a_size a) locs g).
  { unfold locs. destruct (Z.eqb_spec (Z.of_nat ax) 0) as [Z0|Z0].
    - assert (ax = 0) by lia. subst ax. exact Hg.
    - unfold wrap_axis. destruct (Z.ltb_spec (Z.of_nat ax) 0); [lia|]. rewrite Nat2Z.id.
      apply redist_distributes; auto. lia. }
  destruct (serial_ranks_spec A (a_gshape a) (a_size a) locs g ltac:(lia) Hl (seq 0 (a_size a)) (fun _ => zero))
    as (f & F1 & F2).
  { intros r Hr. apply in_seq in Hr. lia. }
  rewrite F1. cbn [rbind]. eexists. split; [reflexivity|]. split; [exact E2|]. split; [exact E3|].
  cbn. intros i Hi. destruct (owner_index (a_gshape a) 0 (a_size a) i Hs ltac:(lia) Hi) as (r & k & H1 & H2 & _).
  destruct (F2 i) as [[X _]|[_ Y]]; auto. rewrite Y in H2; [discriminate|]. apply in_seq. lia.
Qed.

(** *** The parallel writers *)
Lemma wrap_nat : forall ax n, wrap_axis (Z.of_nat ax) n = ax.
Proof. intros. unfold wrap_axis. destruct (Z.ltb_spec (Z.of_nat ax) 0); [lia|]. apply Nat2Z.id. Qed.

Lemma to_hdf5_open_mpi : forall f c fh, to_hdf5_open true f c = Ok fh -> is_mpi fh = mpi_file true f.
Proof. intros [|b|s|] c fh H; cbn in H; try discriminate; injection H as <-; reflexivity. Qed.

Lemma to_hdf5_holds : forall A f tn td (a : dist A) ax g zero comp order old,
  (0 < tn)%Z -> (0 < td)%Z -> (0 <= a_item a)%Z ->
  1 <= a_size a -> a_axis a = Z.of_nat ax -> ax < length (a_gshape a) ->
  f = FName \/ (exists b, f = FH5 b) ->
  Distributes (a_gshape a) ax (a_size a) (a_locs a) g ->
  Compatible old (a_gshape a) (a_type a) ->
  Splittable (mpi_file true f) tn td (a_gshape a) ax (a_size a) (a_item a) ->
  comp = None \/ (mpi_file true f = true /\ a_size a <= nth ax (a_gshape a) 0) ->
  Permutation order (seq 0 (a_size a)) ->
  exists d, to_hdf5 true f tn td a zero comp order old = Ok d
    /\ Holds d (a_gshape a) (a_type a) g /\ (old = None -> d_comp d = comp).
Proof.
  intros A f tn td a ax g zero comp order old Ht Hd Hi Hs Eax La Hf Hg Hc Hsp Hcomp Hp.
  unfold to_hdf5. cbn [negb].
  assert (E0 : exists fh, to_hdf5_open true f 0 = Ok fh).
  { destruct Hf as [->|[b ->]]; cbn; eauto. }
  destruct E0 as [fh E0]. rewrite E0. cbn [rbind]. rewrite (to_hdf5_open_mpi _ _ _ E0).
  rewrite Eax, wrap_nat. apply splittable in Hsp; auto.
  destruct (Hsp 0) as [sp0 Hsp0]. cbn [io_skip]. rewrite Hsp0. cbn [rbind].
  destruct (create_compatible A old (a_gshape a) (a_type a) comp zero Hc) as (d & E1 & E2 & E3 & E4).
  rewrite E1. cbn [rbind].
  assert (C : negb (mpi_file true f && (a_size a <=? nth ax (a_gshape a) 0))
              && match comp with Some _ => true | None => false end = false).
  { destruct Hcomp as [->|[-> H]]; [apply andb_false_r|]. apply Nat.leb_le in H. now rewrite H. }
  rewrite C.
  set (c := {| io_skip := _; io_tn := _; io_td := _; io_item := _ |}).
  destruct (write_all_spec A c (a_gshape a) ax (a_size a) (a_locs a) g order (d_data d)) as (data & W1 & W2); auto.
  { intros r Hr. apply Hsp. }
  rewrite W1. cbn [rbind]. eexists. split; [reflexivity|]. split; [|exact E4].
  split; [exact E2|]. split; [exact E3|]. exact W2.
Qed.

Lemma to_zarr_holds : forall A f (a : dist A) ax g zero comp order old,
  (0 <= a_item a)%Z ->
  1 <= a_size a -> a_axis a = Z.of_nat ax -> ax < length (a_gshape a) ->
  f = FName \/ f = FZarr true ->
  Distributes (a_gshape a) ax (a_size a) (a_locs a) g ->
  Compatible old (a_gshape a) (a_type a) ->
  Permutation order (seq 0 (a_size a)) ->
  exists d, to_zarr f a zero comp order old = Ok d
    /\ Holds d (a_gshape a) (a_type a) g /\ (old = None -> d_comp d = comp).
Proof.
  intros A f a ax g zero comp order old Hi Hs Eax La Hf Hg Hc Hp.
  destruct (create_compatible A old (a_gshape a) (a_type a) comp zero Hc) as (d & E1 & E2 & E3 & E4).
  set (c := {| io_skip := true; io_tn := 1; io_td := 1; io_item := a_item a |}).
  destruct (write_all_spec A c (a_gshape a) ax (a_size a) (a_locs a) g order (d_data d)) as (data & W1 & W2); auto;
    try (cbn; lia).
  { intros r Hr. unfold split_for, c, partition_io. cbn. eauto. }
  exists (with_data d data). split; [|split; [split; [exact E2|split; [exact E3|exact W2]]|exact E4]].
  unfold to_zarr. rewrite E1. cbn [rbind]. fold c. rewrite Eax, W1. cbn [rbind].
  destruct Hf as [->| ->]; reflexivity.
Qed.

(** *** Compression with empty parts *)
Lemma null_slices : forall n size, 1 <= size ->
  ((size <=? n) = false <-> exists r, r < size /\ part_of n size r = 0).
Proof.
  intros n size Hs. rewrite Nat.leb_gt. split.
  - intros H. exists n. split; auto. unfold part_of. rewrite Nat.div_small, Nat.mod_small by auto.
    rewrite Nat.ltb_irrefl. reflexivity.
  - intros (r & Hr & E). unfold part_of in E.
    assert (E' : n / size = 0) by lia. apply Nat.div_small_iff in E'; lia.
Qed.
