(** Final lemmas for C16-C20. *)
From Coq Require Import List ZArith Bool Lia.
From Verif Require Import PyBase PartModel PartSpec PartProofs PartProps0 SliceModel SliceSpec SliceProofs.
Import ListNotations.
Open Scope Z_scope.

(** *** C16 *)
Lemma start_of_le : forall n m i, (m <> 0)%nat -> (i <= m)%nat -> (start_of n m i <= n)%nat.
Proof.
  intros n m i Hm Hi. rewrite <- (start_of_m n m Hm) at 2. apply start_of_mono. lia.
Qed.

Lemma pieces_of_slices : forall A (sel : list A) size (f : nat -> res (nat * nat * list A)),
  (1 <= size)%nat ->
  (forall r, (r < size)%nat -> f r = Ok (length sel, start_of (length sel) size r,
     lslice (start_of (length sel) size r) (start_of (length sel) size (S r)) sel)) ->
  Pieces (map f (seq 0 size)) sel.
Proof.
  intros A sel size f Hs Hf.
  exists (map (fun r => (start_of (length sel) size r,
     lslice (start_of (length sel) size r) (start_of (length sel) size (S r)) sel)) (seq 0 size)).
  split; [|split].
  - rewrite map_map. apply map_ext_in. intros r Hr. apply in_seq in Hr. rewrite Hf by lia. reflexivity.
  - rewrite map_map. cbn [snd]. rewrite concat_slices, start_of_m by lia. apply lslice_full. lia.
  - intros r p Hr. assert (Hl : (r < size)%nat).
    { apply nth_error_map_seq_inv in Hr. lia. }
    rewrite nth_error_map_seq in Hr by lia. injection Hr as <-. cbn [fst].
    rewrite firstn_map. assert (firstn r (seq 0 size) = seq 0 r) as ->.
    { replace size with (r + (size - r))%nat by lia. rewrite seq_app, firstn_app, firstn_all2, seq_length
        by (rewrite seq_length; lia). rewrite Nat.sub_diag. cbn. now rewrite app_nil_r. }
    rewrite map_map. cbn [snd]. rewrite concat_slices, length_lslice.
    pose proof (start_of_le (length sel) size r ltac:(lia) ltac:(lia)). lia.
Qed.

Lemma from_file_slice : forall A (data : list A) s size, (1 <= size)%nat -> positive_step s ->
  py_bound (Z.of_nat (length data)) 0 (sl_start s)
    - py_bound (Z.of_nat (length data)) (Z.of_nat (length data)) (sl_stop s) < py_step (sl_step s) ->
  Pieces (map (fun r => from_file_axis data (SelSlice s) r size) (seq 0 size)) (py_slice data s).
Proof.
  intros A data s size Hs Hp Hf. apply pieces_of_slices; auto. intros r Hr.
  unfold from_file_axis. rewrite (proj2 (len_slice_iff s (length data) Hp) Hf). cbn [rbind].
  destruct (Z.ltb_spec (Z.of_nat (length (py_positions s (length data)))) 0); [lia|].
  rewrite Nat2Z.id, <- length_py_slice. rewrite split_local_closed by auto. cbn [rbind].
  set (g := length (py_slice data s)).
  rewrite <- start_of_S.
  destruct (reslice_slice A data s (Z.of_nat (start_of g size r)) (Z.of_nat (start_of g size (S r))) Hp
              ltac:(lia) ltac:(lia)) as [s' [E1 E2]].
  unfold sub_slice in E1. rewrite E1. cbn [rbind]. rewrite E2. cbn [rbind].
  rewrite py_slice_lslice, !Nat2Z.id by lia. reflexivity.
Qed.

Lemma from_file_reversed : forall A (data : list A) s size rank, positive_step s ->
  py_step (sl_step s) <= py_bound (Z.of_nat (length data)) 0 (sl_start s)
    - py_bound (Z.of_nat (length data)) (Z.of_nat (length data)) (sl_stop s) ->
  from_file_axis data (SelSlice s) rank size = Err ValueError.
Proof.
  intros A data s size rank Hp H. unfold from_file_axis, len_slice.
  rewrite indices_pos by (auto; lia). cbn [rbind]. unfold positive_step in Hp.
  set (a := py_bound _ 0 _) in *. set (b := py_bound _ _ (sl_stop s)) in *. set (k := py_step _) in *.
  assert (Q : (b - a - 1) / k < -1) by (apply Z.div_lt_upper_bound; lia).
  destruct (Z.ltb_spec (1 + (b - a - 1) / k) 0); [reflexivity|lia].
Qed.

Lemma from_file_list : forall A (data : list A) idx size, (1 <= size)%nat ->
  Forall (fun i => (i < length data)%nat) idx ->
  Pieces (map (fun r => from_file_axis data (SelList idx) r size) (seq 0 size)) (pick data idx).
Proof.
  intros A data idx size Hs F. apply pieces_of_slices; auto. intros r Hr.
  unfold from_file_axis. cbn [len_slice rbind].
  destruct (Z.ltb_spec (Z.of_nat (length idx)) 0); [lia|]. rewrite Nat2Z.id.
  assert (L : length (pick data idx) = length idx).
  { rewrite Forall_forall in F. clear - F. induction idx as [|p ps IH]; auto.
    rewrite pick_cons, app_length, IH by (intros; apply F; now right).
    destruct (nth_error data p) eqn:E; auto. apply nth_error_None in E. specialize (F p (or_introl eq_refl)). lia. }
  rewrite L. set (g := length idx) in *. rewrite split_local_closed by auto. cbn [rbind]. rewrite <- start_of_S.
  destruct (reslice_list A data idx (Z.of_nat (length data)) (Z.of_nat (start_of g size r))
     (Z.of_nat (start_of g size (S r))) F) as [s' [E1 E2]].
  unfold sub_slice in E1. rewrite E1. cbn [rbind]. rewrite E2. cbn [rbind].
  rewrite py_slice_lslice, !Nat2Z.id by lia. reflexivity.
Qed.

Lemma from_file_refuted : exists (data : list nat) s size, (1 <= size)%nat /\ positive_step s /\
  ~ Pieces (map (fun r => from_file_axis data (SelSlice s) r size) (seq 0 size)) (py_slice data s).
Proof.
  exists (seq 0 10), (mkslice (Some 5) (Some 2) None), 1%nat. split; [auto|]. split; [reflexivity|].
  intros [parts [E _]]. vm_compute in E. destruct parts as [|p parts]; discriminate.
Qed.

(** *** C17 *)
Lemma prod_nonneg : forall l, 0 <= prod l.
Proof. induction l; cbn [prod fold_right]; [lia|]. fold (prod l). nia. Qed.

Lemma prod_set_nth : forall l k x, (k < length l)%nat ->
  prod (set_nth k x l) * Z.of_nat (nth k l 0%nat) = prod l * Z.of_nat x.
Proof.
  induction l as [|y l IH]; intros k x Hk; [cbn in Hk; lia|].
  destruct k as [|k].
  - cbn. unfold prod. cbn. fold (prod l). lia.
  - cbn in Hk. specialize (IH k x ltac:(lia)). unfold set_nth in *. cbn [firstn skipn app nth].
    unfold prod in *. cbn [fold_right]. fold (prod l) in *. 
    change (fold_right (fun x acc => Z.of_nat x * acc) 1) with prod in *. nia.
Qed.

Lemma pairwise_app : forall (l : list nat) a b, pairwise ((l ++ [a]) ++ [b]) = pairwise (l ++ [a]) ++ [(a, b)].
Proof.
  induction l as [|x l IH]; intros a b; [reflexivity|].
  destruct l as [|y l]; [reflexivity|]. cbn [app pairwise] in *. f_equal. apply (IH a b).
Qed.

Lemma boundaries_seq : forall k s, pairwise (map (fun i => 0 + i * s)%nat (seq 0 (S k))) =
  map (fun i => (i * s, S i * s)%nat) (seq 0 k).
Proof.
  intros k s. induction k as [|k IH]; [reflexivity|].
  rewrite (seq_S (S k) 0), map_app. cbn [map].
  assert (E : map (fun i => 0 + i * s)%nat (seq 0 (S k)) = map (fun i => 0 + i * s)%nat (seq 0 k) ++ [(k * s)%nat])
    by (rewrite seq_S, map_app; reflexivity).
  rewrite E, pairwise_app, <- E, IH. rewrite (seq_S k 0), map_app. reflexivity.
Qed.

Lemma tiles_snoc : forall ps a b, Tiles ps a -> (a <= b)%nat -> Tiles (ps ++ [(a, b)]) b.
Proof.
  intros ps a b [H1 H2] L. split.
  - rewrite map_app, concat_app, H1. cbn. rewrite app_nil_r.
    replace b with (a + (b - a))%nat at 2 by lia. now rewrite seq_app.
  - apply Forall_app. split; auto.
Qed.

Lemma tiles_regular : forall k s, Tiles (map (fun i => (i * s, S i * s)%nat) (seq 0 k)) (k * s).
Proof.
  intros k s. induction k as [|k IH].
  - split; constructor.
  - rewrite seq_S, map_app. cbn [map]. apply tiles_snoc; [exact IH|]. cbn. lia.
Qed.

Lemma last_map_seq : forall (f : nat -> nat) k, last (map f (seq 0 (S k))) 0%nat = f k.
Proof. intros. rewrite seq_S, map_app. cbn. apply last_last. Qed.

Lemma io_slices : forall n s, (1 <= s)%nat ->
  let bs := nrange 0 (n + 1) s in
  let bs' := if (last bs 0 =? n)%nat then bs else bs ++ [n] in
  Tiles (pairwise bs') n /\ Forall (fun '(a, b) => (b - a <= s)%nat) (pairwise bs').
Proof.
  intros n s Hs. cbv zeta. unfold nrange, range_count.
  destruct (Nat.ltb_spec 0%nat (n + 1)%nat); [|lia].
  replace ((n + 1 - 0 + (s - 1)) / s)%nat with (S (n / s)).
  2:{ replace (n + 1 - 0 + (s - 1))%nat with (n + 1 * s)%nat by lia. rewrite Nat.div_add by lia. lia. }
  set (k := (n / s)%nat). pose proof (Nat.div_mod n s ltac:(lia)) as D. fold k in D.
  pose proof (Nat.mod_upper_bound n s ltac:(lia)) as M.
  rewrite last_map_seq. destruct (Nat.eqb_spec (0 + k * s)%nat n) as [E|E].
  - rewrite boundaries_seq. split.
    + rewrite <- E at 1. apply tiles_regular.
    + rewrite Forall_forall. intros [a b] Hx. apply in_map_iff in Hx as [i [Hx _]]. injection Hx as <- <-. cbn. lia.
  - assert (E2 : map (fun i => 0 + i * s)%nat (seq 0 (S k)) =
                 map (fun i => 0 + i * s)%nat (seq 0 k) ++ [(k * s)%nat])
      by (rewrite seq_S, map_app; reflexivity).
    rewrite E2, pairwise_app, <- E2, boundaries_seq. split.
    + apply tiles_snoc; [apply tiles_regular|]. nia.
    + apply Forall_app. split.
      * rewrite Forall_forall. intros [a b] Hx. apply in_map_iff in Hx as [i [Hx _]]. injection Hx as <- <-. cbn. lia.
      * constructor; [|constructor]. nia.
Qed.

Lemma zceil_le : forall a b c, 0 < b -> (zceil_div a b <= c <-> a <= b * c).
Proof.
  intros a b c Hb. unfold zceil_div. pose proof (Z.div_mod (- a) b ltac:(lia)).
  pose proof (Z.mod_pos_bound (- a) b Hb). split; intros; nia.
Qed.

Lemma find_some_axis : forall (f : nat -> bool) (l : list nat) j, find f l = Some j -> In j l /\ f j = true.
Proof. intros. now apply find_some. Qed.

Lemma partition_io_ok : forall tn td item largest gshape lsh axis ax slices,
  0 < tn -> 0 < td -> 0 <= item -> (axis < length gshape)%nat ->
  LocalShape gshape lsh axis ->
  item * prod lsh <= largest ->
  partition_io false tn td largest gshape axis (nth 0 lsh 0%nat) = Ok (ax, slices) ->
  Tiles slices (nth ax lsh 0%nat)
  /\ Forall (fun '(a, b) => td * (item * prod (set_nth ax (b - a)%nat lsh)) <= tn) slices.
Proof.
  intros tn td item largest gshape lsh axis ax slices Ht Hd Hi Ha [Hlen Hagree] Hlarge H.
  unfold partition_io in H. set (m := zceil_div (largest * td) tn) in *. cbn [orb] in H.
  pose proof (prod_nonneg lsh) as Pn.
  destruct (Z.eqb_spec m 1) as [M1|M1].
  - injection H as <- <-. split.
    + split; [|repeat constructor; lia]. cbn. rewrite Nat.sub_0_r, app_nil_r. reflexivity.
    + constructor; [|constructor]. rewrite Nat.sub_0_r.
      assert (L : largest * td <= tn * 1) by (apply zceil_le; [lia|fold m; lia]).
      assert (E : set_nth 0 (nth 0 lsh 0%nat) lsh = lsh) by (destruct lsh; reflexivity).
      rewrite E. nia.
  - destruct (Nat.eqb_spec (length gshape) 1%nat); [discriminate|].
    destruct (find _ _) as [j|] eqn:F; [|discriminate].
    apply find_some_axis in F as [F1 F2]. apply in_seq in F1. apply andb_prop in F2 as [F2 F3].
    apply negb_true_iff, Nat.eqb_neq in F2. apply Z.leb_le in F3.
    destruct (Z.eqb_spec m 0); [discriminate|].
    destruct (Nat.eqb_spec (nth j gshape 0 / Z.to_nat m)%nat 0%nat) as [|Sl]; [discriminate|].
    injection H as <- <-. rewrite Hagree by auto.
    assert (Mpos : 0 < m).
    { destruct (Z.lt_ge_cases 0 m); auto. assert (m < 0) by lia.
      exfalso. apply Sl. replace (Z.to_nat m) with 0%nat by lia. reflexivity. }
    destruct (io_slices (nth j gshape 0%nat) (nth j gshape 0 / Z.to_nat m)%nat ltac:(lia)) as [T B].
    split; [exact T|]. rewrite Forall_forall in *. intros [a b] Hab. specialize (B _ Hab). cbn in B.
    assert (Q : ((b - a) * Z.to_nat m <= nth j gshape 0)%nat).
    { pose proof (Nat.mul_div_le (nth j gshape 0%nat) (Z.to_nat m) ltac:(lia)). nia. }
    assert (L : largest * td <= tn * m) by (apply zceil_le; [lia|fold m; lia]).
    pose proof (prod_set_nth lsh j (b - a)%nat ltac:(lia)) as P. rewrite Hagree in P by auto.
    rename n into n_one; set (n := nth j gshape 0%nat) in *. pose proof (prod_nonneg (set_nth j (b - a)%nat lsh)) as Pn2.
    set (P2 := prod (set_nth j (b - a)%nat lsh)) in *.
    assert (Q' : Z.of_nat (b - a) * m <= Z.of_nat n) by nia.
    (* td * item * P2 * n = td * item * prod lsh * (b-a) <= td*largest*(b-a) <= tn*m*(b-a) <= tn*n *)
    assert (N0 : 0 < Z.of_nat n) by (assert (0 < m <= Z.of_nat n) by (unfold n; lia); lia).
    assert (S1 : td * (item * P2) * Z.of_nat n = td * (item * prod lsh) * Z.of_nat (b - a)).
    { replace (td * (item * P2) * Z.of_nat n) with (td * item * (P2 * Z.of_nat n)) by ring. rewrite P. ring. }
    assert (S2 : td * (item * prod lsh) <= largest * td) by nia.
    assert (S3 : td * (item * prod lsh) * Z.of_nat (b - a) <= tn * m * Z.of_nat (b - a)).
    { apply Z.mul_le_mono_nonneg_r; lia. }
    assert (S4 : tn * m * Z.of_nat (b - a) <= tn * Z.of_nat n).
    { replace (tn * m * Z.of_nat (b - a)) with (tn * (Z.of_nat (b - a) * m)) by ring.
      apply Z.mul_le_mono_nonneg_l; lia. }
    apply (Z.mul_le_mono_pos_r _ _ (Z.of_nat n)); lia.
Qed.

Lemma partition_io_accepts : forall tn td largest gshape axis local0 j,
  0 < tn -> 0 < td -> 0 < largest -> (2 <= length gshape)%nat ->
  (j < length gshape)%nat -> j <> axis ->
  td * largest <= tn * Z.of_nat (nth j gshape 0%nat) ->
  exists ax slices, partition_io false tn td largest gshape axis local0 = Ok (ax, slices).
Proof.
  intros tn td largest gshape axis local0 j Ht Hd Hl Hn Hj Ha Hp. unfold partition_io.
  set (m := zceil_div (largest * td) tn). cbn [orb].
  destruct (Z.eqb_spec m 1) as [M1|M1]; [eauto|].
  destruct (Nat.eqb_spec (length gshape) 1%nat); [lia|].
  assert (Mj : m <= Z.of_nat (nth j gshape 0%nat)) by (apply zceil_le; lia).
  assert (Mpos : 0 < m).
  { destruct (Z.lt_ge_cases 0 m); auto. assert (largest * td <= tn * 0) by (apply zceil_le; fold m; lia). nia. }
  destruct (find _ _) as [i|] eqn:F.
  - apply find_some_axis in F as [F1 F2]. apply andb_prop in F2 as [F2 F3]. apply Z.leb_le in F3.
    destruct (Z.eqb_spec m 0); [lia|].
    destruct (Nat.eqb_spec (nth i gshape 0 / Z.to_nat m)%nat 0%nat) as [E|E]; [|eauto].
    exfalso. apply Nat.div_small_iff in E; lia.
  - exfalso. apply find_none with (x := j) in F; [|apply in_seq; lia].
    apply Nat.eqb_neq in Ha. rewrite Ha in F. cbn in F. apply Z.leb_gt in F. lia.
Qed.

Lemma partition_io_rejects : forall tn td largest gshape axis local0,
  0 < tn -> 0 < td -> tn < td * largest ->
  (forall j, (j < length gshape)%nat -> j <> axis -> tn * Z.of_nat (nth j gshape 0%nat) < td * largest) ->
  partition_io false tn td largest gshape axis local0 = Err RuntimeError.
Proof.
  intros tn td largest gshape axis local0 Ht Hd Hb H. unfold partition_io.
  set (m := zceil_div (largest * td) tn). cbn [orb].
  destruct (Z.eqb_spec m 1) as [M1|M1].
  { assert (largest * td <= tn * 1) by (apply zceil_le; fold m; lia). lia. }
  destruct (Nat.eqb_spec (length gshape) 1%nat); [reflexivity|].
  destruct (find _ _) as [i|] eqn:F; [|reflexivity].
  apply find_some_axis in F as [F1 F2]. apply andb_prop in F2 as [F2 F3]. apply Z.leb_le in F3.
  apply in_seq in F1. apply negb_true_iff, Nat.eqb_neq in F2.
  apply zceil_le in F3; [|lia]. specialize (H i ltac:(lia) F2). lia.
Qed.

Lemma partition_io_skip : forall tn td largest gshape axis local0,
  partition_io true tn td largest gshape axis local0 = Ok (0%nat, [(0%nat, local0)]).
Proof. reflexivity. Qed.

Lemma partition_io_refuted : exists gshape lsh axis,
  (axis < length gshape)%nat /\ LocalShape gshape lsh axis
  /\ partition_io false 1000 1 (8 * prod lsh) gshape axis (nth 0 lsh 0%nat) = Err ZeroDivisionError.
Proof.
  exists [3; 0]%nat, [3; 0]%nat, 0%nat. split; [cbn; lia|]. split; [split; auto|]. reflexivity.
Qed.

(** *** C18-C20 *)
Definition penum {A} (a : nat) (l : list A) := combine (seq a (length l)) l.

Lemma penum_app : forall A a (l m : list A), penum a (l ++ m) = penum a l ++ penum (a + length l) m.
Proof.
  intros A a l m. unfold penum. rewrite app_length, seq_app.
  revert a. induction l as [|x l IH]; intros a; cbn.
  - now rewrite Nat.add_0_r.
  - f_equal. replace (a + S (length l))%nat with (S a + length l)%nat by lia. apply IH.
Qed.

Lemma penum_shift : forall A (l : list A) a b, penum (a + b) l = map (fun '(i, x) => ((i + b)%nat, x)) (penum a l).
Proof.
  intros A l. unfold penum. induction l as [|x l IH]; intros a b; cbn; auto.
  f_equal. apply (IH (S a) b).
Qed.

Definition block {A} (g : list A) (size r : nat) :=
  lslice (start_of (length g) size r) (start_of (length g) size (S r)) g.

Lemma local_part_closed : forall A (g : list A) r size, (r < size)%nat ->
  local_part g r size = Ok (start_of (length g) size r, block g size r).
Proof.
  intros. unfold local_part. rewrite split_local_closed by auto. now rewrite <- start_of_S.
Qed.

Lemma block_length : forall A (g : list A) size r, (r < size)%nat ->
  length (block g size r) = (start_of (length g) size (S r) - start_of (length g) size r)%nat
  /\ (start_of (length g) size r <= start_of (length g) size (S r) <= length g)%nat.
Proof.
  intros A g size r H. unfold block. rewrite length_lslice.
  pose proof (start_of_le (length g) size (S r) ltac:(lia) ltac:(lia)).
  pose proof (start_of_mono (length g) size r (S r) ltac:(lia)). lia.
Qed.

(** Blockwise processing of enumerated elements covers the global list. *)
Lemma blocks_enum : forall A B (f : list (nat * A) -> list B) (g : list A) size,
  (1 <= size)%nat -> f [] = [] -> (forall x y, f (x ++ y) = f x ++ f y) ->
  concat (map (fun r => f (penum (start_of (length g) size r) (block g size r))) (seq 0 size))
  = f (enumerate g).
Proof.
  intros A B f g size Hs F0 Fa.
  assert (H : forall k, (k <= size)%nat ->
    concat (map (fun r => f (penum (start_of (length g) size r) (block g size r))) (seq 0 k))
    = f (penum 0 (lslice 0 (start_of (length g) size k) g))).
  { induction k as [|k IH]; intros Hk.
    - rewrite start_of_0, lslice_empty by lia. cbn. auto.
    - rewrite seq_S, map_app, concat_app, IH by lia. cbn [map concat]. rewrite app_nil_r.
      pose proof (start_of_le (length g) size k ltac:(lia) ltac:(lia)).
      rewrite <- (lslice_app _ 0 (start_of (length g) size k) (start_of (length g) size (S k)) g)
        by (try lia; apply start_of_mono; lia).
      rewrite penum_app, Fa. f_equal. rewrite length_lslice. 
      replace (0 + Nat.min (start_of (length g) size k - 0) (length g - 0))%nat with (start_of (length g) size k) by lia.
      reflexivity. }
  rewrite H by lia. rewrite start_of_m, lslice_full by lia. reflexivity.
Qed.

Lemma enum_penum : forall A (l : list A), enumerate l = penum 0 l.
Proof. reflexivity. Qed.

(** A local slice as a filter on global positions. *)
Lemma local_slice_filter : forall A (l : list A) s off (P : nat -> bool),
  (forall y, (y < length l)%nat -> py_selected s (Z.of_nat (length l)) (Z.of_nat y) = P (y + off)%nat) ->
  py_slice l s = map snd (filter (fun e => P (fst e)) (penum off l)).
Proof.
  intros A l s off P H. unfold py_slice. rewrite enum_penum.
  replace (penum off l) with (map (fun '(i, x) => ((i + off)%nat, x)) (penum 0 l))
    by (symmetry; apply (penum_shift A l 0 off)).
  assert (B : forall e, In e (penum 0 l) -> (fst e < length l)%nat).
  { intros [i x] He. unfold penum in He. apply in_combine_l in He. apply in_seq in He. cbn. lia. }
  revert B. generalize (penum 0 l). intros es B. induction es as [|[i x] es IH]; auto.
  cbn [map filter fst]. rewrite H by (apply (B (i, x)); now left).
  destruct (P (i + off)%nat); cbn [map snd]; [f_equal|]; apply IH; intros; apply B; now right.
Qed.

Lemma local_assign_filter : forall A (l : list A) s off (P : nat -> bool) v,
  (forall y, (y < length l)%nat -> py_selected s (Z.of_nat (length l)) (Z.of_nat y) = P (y + off)%nat) ->
  py_assign l s v = map (fun e => if P (fst e) then v else snd e) (penum off l).
Proof.
  intros A l s off P v H. unfold py_assign. rewrite enum_penum.
  replace (penum off l) with (map (fun '(i, x) => ((i + off)%nat, x)) (penum 0 l))
    by (symmetry; apply (penum_shift A l 0 off)).
  rewrite map_map. apply map_ext_in. intros [i x] He. cbn [fst snd].
  unfold penum in He. apply in_combine_l in He. apply in_seq in He. now rewrite H by lia.
Qed.

(** Nothing selected. *)
Lemma none_filter : forall A (l : list A) off (P : nat -> bool),
  (forall y, (y < length l)%nat -> P (y + off)%nat = false) ->
  map snd (filter (fun e => P (fst e)) (penum off l)) = [].
Proof.
  intros A l off P H.
  assert (B : forall e, In e (penum off l) -> P (fst e) = false).
  { intros [i x] He. unfold penum in He. apply in_combine_l in He. apply in_seq in He. cbn.
    replace i with (i - off + off)%nat by lia. apply H. lia. }
  revert B. generalize (penum off l). intros es B. induction es as [|e es IH]; auto.
  cbn. rewrite (B e) by now left. apply IH. intros; apply B; now right.
Qed.

Lemma none_assign : forall A (l : list A) off (P : nat -> bool) v,
  (forall y, (y < length l)%nat -> P (y + off)%nat = false) ->
  map (fun e => if P (fst e) then v else snd e) (penum off l) = l.
Proof.
  intros A l off P v H. rewrite map_ext_in with (g := snd).
  - unfold penum. revert off H. induction l as [|x l IH]; intros off H; auto. cbn. f_equal.
    apply IH. intros y Hy. replace (y + S off)%nat with (S y + off)%nat by lia. apply H. cbn. lia.
  - intros [i x] He. unfold penum in He. apply in_combine_l in He. apply in_seq in He. cbn.
    replace i with (i - off + off)%nat by lia. now rewrite H by lia.
Qed.

Lemma assign_at_positions : forall A (l : list A) s v, positive_step s ->
  forall ps, slice_positions s (Z.of_nat (length l)) = Ok ps -> assign_at l ps v = py_assign l s v.
Proof.
  intros A l s v Hp ps E. destruct (positions_pos s (length l) Hp) as [ps' [E1 [E2 F]]].
  rewrite E in E1. injection E1 as <-. unfold assign_at, py_assign.
  apply map_ext_in. intros [i x] He. apply in_combine_l in He. apply in_seq in He.
  assert (Q : existsb (Z.eqb (Z.of_nat i)) ps = py_selected s (Z.of_nat (length l)) (Z.of_nat i)); [|now rewrite Q].
  apply eq_iff_eq_true. rewrite existsb_exists.
  assert (M : In i (py_positions s (length l)) <-> py_selected s (Z.of_nat (length l)) (Z.of_nat i) = true).
  { unfold py_positions. rewrite filter_In, in_seq. intuition lia. }
  rewrite <- M, <- E2, in_map_iff. rewrite Forall_forall in F. split.
  - intros [z [Hz Hq]]. apply Z.eqb_eq in Hq. exists z. split; [lia|auto].
  - intros [z [Hz Hin]]. exists z. split; auto. apply Z.eqb_eq. specialize (F _ Hin). lia.
Qed.

Lemma resolve_selected : forall s n off m, positive_step s -> (off + m <= n)%nat ->
  (let a := py_bound (Z.of_nat n) 0 (sl_start s) in
   a < Z.of_nat off -> (Z.of_nat off - a) mod py_step (sl_step s) = 0) ->
  match resolve_axis (Z.of_nat off) (Z.of_nat m) (Z.of_nat n) (GSlice s) with
  | (LNone, full) => (forall y, (y < m)%nat -> py_selected s (Z.of_nat n) (Z.of_nat (y + off)) = false)
                     /\ (full = true -> m = 0%nat)
  | (LSlice s', _) => positive_step s' /\
      (forall y, (y < m)%nat -> py_selected s' (Z.of_nat m) (Z.of_nat y)
                              = py_selected s (Z.of_nat n) (Z.of_nat (y + off)))
  | _ => False
  end.
Proof.
  intros [a b k] n off m Hp Hm Hal. cbv zeta in Hal. unfold resolve_axis, py_selected, positive_step in *.
  cbn [sl_start sl_stop sl_step] in *. set (st := py_step k) in *.
  set (A := py_bound (Z.of_nat n) 0 a) in *. set (B := py_bound (Z.of_nat n) (Z.of_nat n) b).
  assert (HA : exists ga, (match a with
        | Some a0 => ((if 0 <=? a0 then a0 else a0 + Z.of_nat n) - Z.of_nat off, false)
        | None => (0, true) end) = (ga, match a with Some _ => false | None => true end)
      /\ (a = None -> ga = 0)
      /\ A = match a with None => 0 | Some _ => Z.max 0 (Z.min (Z.of_nat n) (ga + Z.of_nat off)) end).
  { destruct a as [x|]; cbn in *.
    - eexists. split; [reflexivity|]. split; [discriminate|]. unfold A.
      destruct (Z.leb_spec 0 x), (Z.ltb_spec x 0); try lia.
    - exists 0. auto. }
  assert (HB : exists gb, (match b with
        | Some b0 => ((if 0 <=? b0 then b0 else b0 + Z.of_nat n) - Z.of_nat off, false)
        | None => (Z.of_nat m, match a with Some _ => false | None => true end) end)
      = (gb, match b with Some _ => false | None => match a with Some _ => false | None => true end end)
      /\ (b = None -> gb = Z.of_nat m)
      /\ B = match b with None => Z.of_nat n | Some _ => Z.max 0 (Z.min (Z.of_nat n) (gb + Z.of_nat off)) end).
  { destruct b as [x|]; cbn in *.
    - eexists. split; [reflexivity|]. split; [discriminate|]. unfold B.
      destruct (Z.leb_spec 0 x), (Z.ltb_spec x 0); try lia.
    - eexists. split; [reflexivity|]. auto. }
  destruct HA as [ga [-> [GA HA]]]. destruct HB as [gb [-> [GB HB]]].
  destruct ((Z.of_nat m <=? ga) || (gb <? 0)) eqn:C.
  - split.
    + intros y Hy. apply orb_true_iff in C. rewrite Z.leb_le, Z.ltb_lt in C.
      apply andb_false_iff. left. apply andb_false_iff. rewrite Z.leb_gt, Z.ltb_ge.
      destruct C as [C|C].
      * destruct a; [left; lia|]. rewrite GA in C by auto. lia.
      * destruct b; [right; lia|]. rewrite GB in C by auto. lia.
    + intros F. destruct a; [destruct b, k; discriminate|]. destruct b; [destruct k; discriminate|].
      rewrite GA, GB in C by auto. apply orb_true_iff in C. rewrite Z.leb_le, Z.ltb_lt in C. lia.
  - apply orb_false_iff in C. rewrite Z.leb_gt, Z.ltb_ge in C. cbn [sl_start sl_stop sl_step].
    fold st. split; [exact Hp|]. intros y Hy. cbn [py_bound].
    set (i := Z.max 0 (Z.min (Z.of_nat m) (if Z.max (Z.min ga (Z.of_nat m)) 0 <? 0
        then Z.max (Z.min ga (Z.of_nat m)) 0 + Z.of_nat m else Z.max (Z.min ga (Z.of_nat m)) 0))).
    set (j := Z.max 0 (Z.min (Z.of_nat m) (if Z.max (Z.min gb (Z.of_nat m)) 0 <? 0
        then Z.max (Z.min gb (Z.of_nat m)) 0 + Z.of_nat m else Z.max (Z.min gb (Z.of_nat m)) 0))).
    assert (I : i = Z.max 0 ga).
    { unfold i. destruct (Z.ltb_spec (Z.max (Z.min ga (Z.of_nat m)) 0) 0); lia. }
    assert (J : j = Z.min (Z.of_nat m) gb).
    { unfold j. destruct (Z.ltb_spec (Z.max (Z.min gb (Z.of_nat m)) 0) 0); lia. }
    clearbody i j. subst i j.
    assert (E1 : (Z.max 0 ga <=? Z.of_nat y) = (A <=? Z.of_nat (y + off))).
    { apply eq_iff_eq_true. rewrite !Z.leb_le. destruct a; [lia|]. rewrite GA by auto. lia. }
    assert (E2 : (Z.of_nat y <? Z.min (Z.of_nat m) gb) = (Z.of_nat (y + off) <? B)).
    { apply eq_iff_eq_true. rewrite !Z.ltb_lt. destruct b; [lia|]. rewrite GB by auto. lia. }
    rewrite E1, E2. destruct (Z.leb_spec A (Z.of_nat (y + off))) as [L|L]; [|reflexivity].
    f_equal. f_equal.
    destruct (Z.lt_ge_cases A (Z.of_nat off)) as [Q|Q].
    + specialize (Hal Q). apply Z.mod_divide in Hal as [q Hq]; [|lia].
      assert (G0 : Z.max 0 ga = 0) by (destruct a; [lia|rewrite GA by auto; lia]).
      rewrite G0. replace (Z.of_nat (y + off) - A) with (Z.of_nat y - 0 + q * st) by lia.
      now rewrite Z.mod_add by lia.
    + f_equal. destruct a; [lia|]. rewrite GA by auto. lia.
Qed.

Lemma global_get_slice : forall A (data : list A) size s, (1 <= size)%nat -> positive_step s ->
  Aligned s (length data) size ->
  Forall (fun r => exists x, r = Ok x) (global_get_all data size (GSlice s))
  /\ concat (map data_of (global_get_all data size (GSlice s))) = py_slice data s.
Proof.
  intros A data size s Hs Hp Hal.
  set (P := fun x => py_selected s (Z.of_nat (length data)) (Z.of_nat x)).
  assert (R : forall r, (r < size)%nat -> exists x,
     global_getitem (block data size r) (start_of (length data) size r) (length data) (GSlice s) = Ok x
     /\ data_of (Ok x) = map snd (filter (fun e => P (fst e)) (penum (start_of (length data) size r) (block data size r)))).
  { intros r Hr. destruct (block_length A data size r Hr) as [L1 L2].
    set (off := start_of (length data) size r) in *. set (l := block data size r) in *.
    pose proof (resolve_selected s (length data) off (length l) Hp ltac:(lia) (Hal r Hr)) as Q.
    unfold global_getitem.
    destruct (resolve_axis _ _ _ _) as [[|i|s'|t] full]; try contradiction.
    - destruct Q as [Q1 Q2]. destruct full.
      + eexists. split; [reflexivity|]. specialize (Q2 eq_refl). destruct l; [|discriminate]. reflexivity.
      + eexists. split; [reflexivity|]. cbn [data_of]. symmetry. apply none_filter. exact Q1.
    - destruct Q as [Q1 Q2]. rewrite apply_slice_pos by auto.
      exists (RMany (py_slice l s')). split; [destruct full; reflexivity|].
      cbn [data_of]. apply local_slice_filter. exact Q2. }
  split.
  - unfold global_get_all. rewrite Forall_forall. intros x Hx. apply in_map_iff in Hx as [r [<- Hr]].
    apply in_seq in Hr. rewrite local_part_closed by lia. destruct (R r ltac:(lia)) as [x [-> _]]. eauto.
  - unfold global_get_all. rewrite map_map.
    rewrite map_ext_in with (g := fun r => map snd (filter (fun e => P (fst e))
       (penum (start_of (length data) size r) (block data size r)))).
    + rewrite (blocks_enum A A (fun es => map snd (filter (fun e => P (fst e)) es))); auto.
      * unfold py_slice. f_equal. apply filter_ext. now intros [i x].
      * intros x y. now rewrite filter_app, map_app.
    + intros r Hr. apply in_seq in Hr. rewrite local_part_closed by lia.
      destruct (R r ltac:(lia)) as [x [-> E]]. exact E.
Qed.

Lemma global_set_slice : forall A (data : list A) size s v, (1 <= size)%nat -> positive_step s ->
  Aligned s (length data) size ->
  exists ls, global_set_all data size (GSlice s) v = map Ok ls /\ concat ls = py_assign data s v.
Proof.
  intros A data size s v Hs Hp Hal.
  set (P := fun x => py_selected s (Z.of_nat (length data)) (Z.of_nat x)).
  exists (map (fun r => map (fun e => if P (fst e) then v else snd e)
     (penum (start_of (length data) size r) (block data size r))) (seq 0 size)). split.
  - unfold global_set_all. rewrite map_map. apply map_ext_in. intros r Hr. apply in_seq in Hr.
    rewrite local_part_closed by lia. destruct (block_length A data size r ltac:(lia)) as [L1 L2].
    set (off := start_of (length data) size r) in *. set (l := block data size r) in *.
    pose proof (resolve_selected s (length data) off (length l) Hp ltac:(lia) (Hal r ltac:(lia))) as Q.
    unfold global_setitem.
    destruct (resolve_axis _ _ _ _) as [[|i|s'|t] full]; try contradiction; cbn [fst].
    + f_equal. symmetry. apply none_assign. apply Q.
    + destruct Q as [Q1 Q2]. destruct (positions_pos s' (length l) Q1) as [ps [E _]]. rewrite E.
      f_equal. rewrite (assign_at_positions A l s' v Q1 ps E). apply local_assign_filter. exact Q2.
  - rewrite (blocks_enum A A (fun es => map (fun e => if P (fst e) then v else snd e) es)); auto.
    + unfold py_assign. apply map_ext. now intros [i x].
    + intros x y. now rewrite map_app.
Qed.

Lemma unit_aligned : forall s n size, py_step (sl_step s) = 1 -> Aligned s n size.
Proof. intros s n size H r Hr a Ha. rewrite H. apply Z.mod_1_r. Qed.

Lemma unit_positive : forall s, py_step (sl_step s) = 1 -> positive_step s.
Proof. intros s H. unfold positive_step. lia. Qed.

Lemma global_get_unit : forall A (data : list A) size s, (1 <= size)%nat -> py_step (sl_step s) = 1 ->
  Forall (fun r => exists x, r = Ok x) (global_get_all data size (GSlice s))
  /\ concat (map data_of (global_get_all data size (GSlice s))) = py_slice data s.
Proof. intros. apply global_get_slice; auto using unit_aligned, unit_positive. Qed.

Lemma global_set_unit : forall A (data : list A) size s v, (1 <= size)%nat -> py_step (sl_step s) = 1 ->
  exists ls, global_set_all data size (GSlice s) v = map Ok ls /\ concat ls = py_assign data s v.
Proof. intros. apply global_set_slice; auto using unit_aligned, unit_positive. Qed.

(** Integer indices. *)
Lemma start_owner : forall n size i, (1 <= size)%nat -> (i < n)%nat ->
  exists r, (r < size)%nat /\ (start_of n size r <= i < start_of n size (S r))%nat.
Proof.
  intros n size i Hs Hi. destruct (owner_exists n size size i) as [r Hr].
  - rewrite start_of_m by lia. exact Hi.
  - exists r. lia.
Qed.

Lemma global_get_int : forall A (data : list A) size i x, (1 <= size)%nat ->
  nth_error data i = Some x ->
  exists r, (r < size)%nat /\ forall r', (r' < size)%nat ->
    nth_error (global_get_all data size (GInt (Z.of_nat i))) r' =
    Some (Ok (if (r' =? r)%nat then ROne x else RNone)).
Proof.
  intros A data size i x Hs Hx. assert (Hi : (i < length data)%nat) by (apply nth_error_Some; congruence).
  destruct (start_owner (length data) size i Hs Hi) as [r [Hr Ho]]. exists r. split; auto.
  intros r' Hr'. unfold global_get_all. rewrite nth_error_map_seq by auto. cbn [plus].
  rewrite local_part_closed by auto. f_equal.
  destruct (block_length A data size r' Hr') as [L1 L2].
  unfold global_getitem, resolve_axis.
  destruct (Nat.eqb_spec r' r) as [->|N].
  - destruct (Z.ltb_spec (Z.of_nat i - Z.of_nat (start_of (length data) size r)) 0); [lia|].
    destruct (Z.leb_spec (Z.of_nat (length (block data size r))) (Z.of_nat i - Z.of_nat (start_of (length data) size r))); [lia|].
    cbn [orb]. unfold block. rewrite nth_error_lslice.
    replace (start_of (length data) size r + Z.to_nat (Z.of_nat i - Z.of_nat (start_of (length data) size r)))%nat with i by lia.
    destruct (Nat.ltb_spec i (start_of (length data) size (S r))); [|lia]. now rewrite Hx.
  - assert (O : ~ (start_of (length data) size r' <= i < start_of (length data) size (S r'))%nat).
    { intros C. apply N. eapply owner_unique; eauto. }
    destruct (Z.ltb_spec (Z.of_nat i - Z.of_nat (start_of (length data) size r')) 0); [reflexivity|].
    destruct (Z.leb_spec (Z.of_nat (length (block data size r'))) (Z.of_nat i - Z.of_nat (start_of (length data) size r')));
      [reflexivity|lia].
Qed.

Lemma global_set_int : forall A (data : list A) size i v, (1 <= size)%nat -> (i < length data)%nat ->
  exists ls, global_set_all data size (GInt (Z.of_nat i)) v = map Ok ls
    /\ concat ls = set_nth i v data.
Proof.
  intros A data size i v Hs Hi. set (P := fun x => (x =? i)%nat).
  exists (map (fun r => map (fun e => if P (fst e) then v else snd e)
     (penum (start_of (length data) size r) (block data size r))) (seq 0 size)). split.
  - unfold global_set_all. rewrite map_map. apply map_ext_in. intros r Hr. apply in_seq in Hr.
    rewrite local_part_closed by lia. destruct (block_length A data size r ltac:(lia)) as [L1 L2].
    set (off := start_of (length data) size r) in *. set (l := block data size r) in *.
    unfold global_setitem, resolve_axis. cbn [fst].
    destruct (Z.ltb_spec (Z.of_nat i - Z.of_nat off) 0); cbn [orb].
    { f_equal. symmetry. apply none_assign. intros y Hy. unfold P. apply Nat.eqb_neq. lia. }
    destruct (Z.leb_spec (Z.of_nat (length l)) (Z.of_nat i - Z.of_nat off)).
    { f_equal. symmetry. apply none_assign. intros y Hy. unfold P. apply Nat.eqb_neq. lia. }
    f_equal. unfold assign_at. rewrite enum_penum.
    replace (penum off l) with (map (fun '(i, x) => ((i + off)%nat, x)) (penum 0 l))
      by (symmetry; apply (penum_shift A l 0 off)).
    rewrite map_map. apply map_ext. intros [j x]. cbn. unfold P. rewrite orb_false_r.
    destruct (Z.eqb_spec (Z.of_nat j) (Z.of_nat i - Z.of_nat off)), (Nat.eqb_spec (j + off)%nat i); auto; lia.
  - rewrite (blocks_enum A A (fun es => map (fun e => if P (fst e) then v else snd e) es)); auto.
    + unfold enumerate, set_nth, P.
      assert (G : forall l a i, map (fun e : nat * A => if (fst e =? a + i)%nat then v else snd e)
          (combine (seq a (length l)) l) = firstn i l ++ match skipn i l with [] => [] | _ :: t => v :: t end).
      { clear. induction l as [|x l IH]; intros a i; [destruct i; reflexivity|].
        cbn [length seq combine map fst snd]. destruct i as [|i].
        - rewrite Nat.add_0_r, Nat.eqb_refl. cbn. f_equal.
          rewrite map_ext_in with (g := snd).
          + pose proof (map_snd_enumerate A l) as M. unfold enumerate in M. 
            rewrite <- M at 2. clear. generalize (S a) 0%nat. induction l; intros; cbn; f_equal; auto.
          + intros [j y] He. apply in_combine_l in He. apply in_seq in He. cbn.
            destruct (Nat.eqb_spec j a); auto; lia.
        - cbn. destruct (Nat.eqb_spec a (a + S i)%nat); [lia|]. f_equal.
          replace (a + S i)%nat with (S a + i)%nat by lia. apply IH. }
      apply (G data 0%nat i).
    + intros x y. now rewrite map_app.
Qed.

Lemma global_int_out : forall A (data : list A) size i v, (1 <= size)%nat ->
  i < 0 \/ Z.of_nat (length data) <= i ->
  global_get_all data size (GInt i) = repeat (Ok RNone) size
  /\ exists ls, global_set_all data size (GInt i) v = map Ok ls /\ concat ls = data.
Proof.
  intros A data size i v Hs Hi.
  assert (N : forall r, (r < size)%nat ->
    resolve_axis (Z.of_nat (start_of (length data) size r)) (Z.of_nat (length (block data size r)))
       (Z.of_nat (length data)) (GInt i) = (LNone, false)).
  { intros r Hr. destruct (block_length A data size r Hr) as [L1 L2]. unfold resolve_axis.
    destruct (Z.ltb_spec (i - Z.of_nat (start_of (length data) size r)) 0); [reflexivity|].
    destruct (Z.leb_spec (Z.of_nat (length (block data size r))) (i - Z.of_nat (start_of (length data) size r))); [reflexivity|].
    lia. }
  split.
  - unfold global_get_all. 
    rewrite map_ext_in with (g := fun _ => Ok RNone).
    + clear. generalize 0%nat. induction size; intros; cbn; f_equal; auto.
    + intros r Hr. apply in_seq in Hr. rewrite local_part_closed by lia. unfold global_getitem.
      now rewrite N by lia.
  - exists (map (block data size) (seq 0 size)). split.
    + unfold global_set_all. rewrite map_map. apply map_ext_in. intros r Hr. apply in_seq in Hr.
      rewrite local_part_closed by lia. unfold global_setitem. now rewrite N by lia.
    + unfold block. rewrite concat_slices, start_of_m by lia. apply lslice_full. lia.
Qed.

Lemma global_negative_refuted : exists (data : list nat) size k, (1 <= size)%nat /\
  (1 <= k <= length data)%nat /\
  ~ exists r x, nth_error (global_get_all data size (GInt (- Z.of_nat k))) r = Some (Ok (ROne x)).
Proof.
  exists [10; 11; 12]%nat, 2%nat, 1%nat. split; [auto|]. split; [cbn; lia|].
  intros [r [x H]]. destruct r as [|[|[|r]]]; cbn in H; try discriminate; destruct r; discriminate.
Qed.

Lemma global_step_refuted : exists (data : list nat) size s, (1 <= size)%nat /\ positive_step s /\
  concat (map data_of (global_get_all data size (GSlice s))) <> py_slice data s.
Proof.
  exists (seq 0 6), 2%nat, (mkslice None None (Some 2)). split; [auto|]. split; [reflexivity|].
  vm_compute. discriminate.
Qed.

(** Expansion of index tuples. *)
Lemma expand_no_ellipsis : forall ndim idx, existsb is_ellipsis idx = false -> (length idx <= ndim)%nat ->
  expand_index ndim idx = idx ++ repeat (GSlice full_slice) (ndim - length idx).
Proof.
  intros ndim idx H L. unfold expand_index. rewrite H. cbn [negb].
  assert (I : forall k, flat_map (fun g => if is_ellipsis g then repeat (GSlice full_slice) k else [g]) idx = idx).
  { intros k. clear L. induction idx as [|g idx IH]; auto. cbn in H. apply orb_false_iff in H as [H1 H2].
    cbn [flat_map]. rewrite H1, IH by auto. reflexivity. }
  destruct (Nat.ltb_spec (length idx) ndim); cbn [andb].
  - rewrite flat_map_app, I. cbn [flat_map is_ellipsis]. rewrite app_nil_r, app_length. cbn [length].
    f_equal. f_equal. lia.
  - rewrite I. replace (ndim - length idx)%nat with 0%nat by lia. cbn. now rewrite app_nil_r.
Qed.

Lemma expand_ellipsis : forall ndim a b, existsb is_ellipsis a = false -> existsb is_ellipsis b = false ->
  (length a + length b <= ndim)%nat ->
  expand_index ndim (a ++ GEllipsis :: b)
  = a ++ repeat (GSlice full_slice) (ndim - length a - length b) ++ b.
Proof.
  intros ndim a b Ha Hb L. unfold expand_index.
  assert (existsb is_ellipsis (a ++ GEllipsis :: b) = true) as ->.
  { rewrite existsb_app. cbn. apply orb_true_r. }
  rewrite andb_false_r.
  assert (I : forall k l, existsb is_ellipsis l = false ->
     flat_map (fun g => if is_ellipsis g then repeat (GSlice full_slice) k else [g]) l = l).
  { intros k l H. induction l as [|g idx IH]; auto. cbn in H. apply orb_false_iff in H as [H1 H2].
    cbn [flat_map]. rewrite H1, IH by auto. reflexivity. }
  rewrite flat_map_app. cbn [flat_map is_ellipsis]. rewrite !I by auto. rewrite app_length. cbn [length].
  replace (ndim + 1 - (length a + S (length b)))%nat with (ndim - length a - length b)%nat by lia. reflexivity.
Qed.
