(** Proofs about copying selections (for C184-C192). *)
From Coq Require Import String.
From Coq Require Import List ZArith Bool Arith Lia Permutation.
From Verif Require Import PyBase PyStr PartModel PartSpec PartProofs PartProps0
  SliceModel SliceSpec SliceProofs SliceProps0 NioModel NioSpec.
Import ListNotations.
Open Scope list_scope.
Open Scope nat_scope.

Lemma set_nth_replace : forall A k (x : A) l, set_nth k x l = replace_at k x l.
Proof.
  unfold set_nth. intros A k x. induction k; intros [|y l]; cbn; auto. now rewrite IHk.
Qed.

Lemma replace_length : forall A k (x : A) l, length (replace_at k x l) = length l.
Proof. induction k; intros x [|y l]; cbn; auto. Qed.

Lemma nth_replace_same : forall A k (x : A) l d, k < length l -> nth k (replace_at k x l) d = x.
Proof. induction k; intros x [|y l] d H; cbn in *; try lia; auto. apply IHk. lia. Qed.

Lemma nth_replace_other : forall A k j (x : A) l d, j <> k -> nth j (replace_at k x l) d = nth j l d.
Proof.
  induction k; intros [|j] x [|y l] d H; cbn; auto; lia.
Qed.

Lemma replace_at_same : forall A k (l : list A) d, replace_at k (nth k l d) l = l.
Proof. induction k; intros [|y l] d; cbn; auto. now rewrite IHk. Qed.

Lemma replace_twice : forall A k (x y : A) l, replace_at k x (replace_at k y l) = replace_at k x l.
Proof. induction k; intros x y [|z l]; cbn; auto. now rewrite IHk. Qed.

Lemma replace_map : forall A B (f : A -> B) k x l, map f (replace_at k x l) = replace_at k (f x) (map f l).
Proof. induction k; intros x [|z l]; cbn; auto. now rewrite IHk. Qed.

(** *** Positions *)
Lemma index_of_some : forall x l k, index_of x l = Some k -> nth k l 0 = x /\ k < length l.
Proof.
  intros x l. induction l as [|y t IH]; intros k H; cbn in *; [discriminate|].
  destruct (Nat.eqb_spec x y) as [E|E].
  - injection H as <-. cbn. split; [auto|lia].
  - destruct (index_of x t) as [j|] eqn:E'; cbn in H; [|discriminate]. injection H as <-.
    destruct (IH j eq_refl). cbn. split; auto. lia.
Qed.

Lemma index_of_nth : forall l k, NoDup l -> k < length l -> index_of (nth k l 0) l = Some k.
Proof.
  induction l as [|y t IH]; intros k N H; cbn in *; [lia|]. inversion N as [|? ? N1 N2]; subst.
  destruct k as [|k].
  - now rewrite Nat.eqb_refl.
  - destruct (Nat.eqb_spec (nth k t 0) y) as [E|E].
    + exfalso. apply N1. rewrite <- E. apply nth_In. lia.
    + rewrite IH by (auto; lia). reflexivity.
Qed.

Lemma index_of_none : forall x l, index_of x l = None -> ~ In x l.
Proof.
  intros x l. induction l as [|y t IH]; intros H C; cbn in *; [auto|].
  destruct (Nat.eqb_spec x y) as [E|E]; [discriminate|].
  destruct (index_of x t); [discriminate|]. destruct C; [congruence|]. now apply IH.
Qed.

Lemma nth_lslice : forall a b (l : list nat) k d, a + k < b -> nth k (lslice a b l) d = nth (a + k) l d.
Proof.
  intros a b l k d H. pose proof (nth_error_lslice _ a b l k) as E.
  destruct (Nat.ltb_spec (a + k) b) as [_|C]; [|lia].
  destruct (nth_error l (a + k)) as [v|] eqn:E'.
  - erewrite nth_error_nth by exact E. erewrite nth_error_nth by exact E'. reflexivity.
  - rewrite nth_overflow by (apply nth_error_None; congruence).
    rewrite nth_overflow by now apply nth_error_None. reflexivity.
Qed.

Lemma lslice_nodup : forall a b (l : list nat), NoDup l -> NoDup (lslice a b l).
Proof.
  intros a b l N. apply NoDup_nth_error. intros i j Hi E. rewrite !nth_error_lslice in E.
  rewrite length_lslice in Hi.
  destruct (Nat.ltb_spec (a + i) b); [|lia].
  assert (L : a + i < length l) by lia.
  destruct (Nat.ltb_spec (a + j) b).
  - rewrite NoDup_nth_error in N. specialize (N _ _ L E). lia.
  - apply nth_error_None in E. lia.
Qed.

Lemma index_of_lslice : forall x a b l, NoDup l ->
  index_of x (lslice a b l) =
  match index_of x l with
  | Some k => if (a <=? k) && (k <? b) then Some (k - a) else None
  | None => None end.
Proof.
  intros x a b l N. destruct (index_of x (lslice a b l)) as [k|] eqn:E.
  - apply index_of_some in E as [E1 E2]. rewrite length_lslice in E2. rewrite nth_lslice in E1 by lia.
    rewrite <- E1. rewrite index_of_nth by (auto; lia).
    destruct (Nat.leb_spec a (a + k)); [|lia]. destruct (Nat.ltb_spec (a + k) b); [|lia]. cbn. f_equal. lia.
  - destruct (index_of x l) as [k|] eqn:E'; auto. destruct ((a <=? k) && (k <? b)) eqn:C; auto.
    apply andb_prop in C as [C1 C2]. apply Nat.leb_le in C1. apply Nat.ltb_lt in C2.
    exfalso. apply (index_of_none _ _ E). apply index_of_some in E' as [E1 E2].
    rewrite <- E1. replace k with (a + (k - a)) by lia. rewrite <- (nth_lslice a b) by lia.
    apply nth_In. rewrite length_lslice. lia.
Qed.

(** *** One assignment of a part of two matching selections *)
Lemma locate_length : forall P i k, locate P i = Some k -> length k = length P /\ length i = length P.
Proof.
  induction P as [|p P IH]; intros [|x i] k H; cbn in *; try discriminate.
  - injection H as <-. auto.
  - destruct (index_of x p); [|discriminate]. destruct (locate P i) eqn:E; [|discriminate].
    injection H as <-. destruct (IH _ _ E). cbn. auto.
Qed.

Lemma locate_lslice : forall P ax i a b, Forall (@NoDup nat) P -> ax < length P ->
  locate (replace_at ax (lslice a b (nth ax P [])) P) i =
  match locate P i with
  | Some k => if (a <=? nth ax k 0) && (nth ax k 0 <? b)
              then Some (replace_at ax (nth ax k 0 - a) k) else None
  | None => None
  end.
Proof.
  induction P as [|p P IH]; intros ax i a b N L; [cbn in L; lia|].
  inversion N as [|? ? N1 N2]; subst. destruct ax as [|ax], i as [|x i]; cbn [replace_at nth locate]; auto.
  - rewrite index_of_lslice by auto. destruct (index_of x p) as [k|]; auto.
    destruct (locate P i) as [ks|]; cbn [nth replace_at].
    + now destruct ((a <=? k) && (k <? b)).
    + now destruct ((a <=? k) && (k <? b)).
  - rewrite IH by (auto; cbn in L; lia). destruct (index_of x p) as [k|]; auto.
    destruct (locate P i) as [ks|]; auto. cbn [nth replace_at].
    now destruct ((a <=? nth ax ks 0) && (nth ax ks 0 <? b)).
Qed.

Lemma index_at_lslice : forall Q ax k a b, ax < length Q -> length k = length Q ->
  a <= nth ax k 0 < b ->
  index_at (replace_at ax (lslice a b (nth ax Q [])) Q) (replace_at ax (nth ax k 0 - a) k) = index_at Q k.
Proof.
  induction Q as [|q Q IH]; intros ax k a b L Lk H; [cbn in L; lia|].
  destruct k as [|x k]; [discriminate|]. destruct ax as [|ax]; cbn [replace_at nth index_at] in *.
  - rewrite nth_lslice by lia. f_equal. f_equal. lia.
  - f_equal. apply IH; cbn in *; lia.
Qed.

(** Every index located is there. *)
Lemma locate_at : forall P i k, locate P i = Some k -> index_at P k = i /\ inside (map (@length nat) P) k.
Proof.
  induction P as [|p P IH]; intros [|x i] k H; cbn in *; try discriminate.
  - injection H as <-. split; auto. constructor.
  - destruct (index_of x p) as [j|] eqn:E1; [|discriminate].
    destruct (locate P i) as [ks|] eqn:E; [|discriminate]. injection H as <-.
    destruct (IH _ _ E) as [A B]. apply index_of_some in E1 as [E1 E2]. cbn. split; [now f_equal|].
    constructor; auto.
Qed.

Lemma at_locate : forall P k, Forall (@NoDup nat) P -> inside (map (@length nat) P) k ->
  locate P (index_at P k) = Some k.
Proof.
  induction P as [|p P IH]; intros k N H; inversion H; subst; cbn; auto.
  inversion N; subst. rewrite index_of_nth by auto. now rewrite IH by auto.
Qed.

Lemma same_shape_eq : forall a b, same_shape a b = true <-> a = b.
Proof.
  induction a as [|x a IH]; intros [|y b]; cbn; split; intros H; try discriminate; auto.
  - apply andb_prop in H as [H1 H2]. apply Nat.eqb_eq in H1. apply IH in H2. now subst.
  - injection H as <- <-. rewrite Nat.eqb_refl. cbn. now apply IH.
Qed.

(** *** The loop over the parts *)
Lemma over_parts_spec : forall A (f : nd A -> list asel -> list asel -> res (nd A)) sel ax n
    (P Q : list (list nat)) (src : nd A) parts dst,
  Forall (@NoDup nat) P -> ax < length P -> map (@length nat) P = map (@length nat) Q ->
  (forall dst a b, In (a, b) parts -> exists islice fslice,
     partition_sel sel ax n (part_slice (a, b)) = Ok (islice, fslice)
     /\ exists dst', f dst islice fslice = Ok dst'
     /\ forall i, dst' i = match locate (replace_at ax (lslice a b (nth ax P [])) P) i with
                           | Some k => src (index_at (replace_at ax (lslice a b (nth ax Q [])) Q) k)
                           | None => dst i end) ->
  exists dst', over_parts f sel ax n parts dst = Ok dst'
    /\ forall i, dst' i = match locate P i with
                          | Some k => if existsb (fun '(a, b) => (a <=? nth ax k 0) && (nth ax k 0 <? b)) parts
                                      then src (index_at Q k) else dst i
                          | None => dst i end.
Proof.
  intros A f sel ax n P Q src parts. induction parts as [|[a b] parts IH]; intros dst N L EL H.
  - exists dst. split; [reflexivity|]. intros i. cbn. now destruct (locate P i).
  - destruct (H dst a b (or_introl eq_refl)) as (isl & fsl & E1 & d1 & E2 & E3).
    destruct (IH d1 N L EL) as (d2 & E4 & E5).
    { intros d a' b' Hin. apply H. now right. }
    exists d2. cbn [over_parts]. rewrite E1. cbn [rbind]. rewrite E2. cbn [rbind]. split; [exact E4|].
    intros i. rewrite E5, E3. rewrite locate_lslice by auto. cbn [existsb].
    destruct (locate P i) as [k|] eqn:EL'; auto.
    assert (Lk : length k = length Q).
    { apply locate_length in EL' as [-> _]. rewrite <- (map_length (@length nat) P), EL. now rewrite map_length. }
    assert (LQ : length P = length Q).
    { rewrite <- (map_length (@length nat) P), EL. now rewrite map_length. }
    destruct (existsb _ parts); rewrite ?orb_true_r, ?orb_false_r; auto.
    destruct ((a <=? nth ax k 0) && (nth ax k 0 <? b)) eqn:C; auto.
    apply andb_prop in C as [C1 C2]. apply Nat.leb_le in C1. apply Nat.ltb_lt in C2.
    rewrite index_at_lslice by (try lia). reflexivity.
Qed.

Lemma tiles_cover : forall parts n k, Tiles parts n -> k < n ->
  existsb (fun '(a, b) => (a <=? k) && (k <? b)) parts = true.
Proof.
  intros parts n k [E F] H. assert (Hin : In k (seq 0 n)) by (apply in_seq; lia).
  rewrite <- E in Hin. apply in_concat in Hin as [l [H1 H2]]. apply in_map_iff in H1 as [[a b] [<- H1]].
  apply existsb_exists. exists (a, b). split; auto. apply in_seq in H2.
  apply andb_true_intro. split; [apply Nat.leb_le|apply Nat.ltb_lt]; lia.
Qed.

Lemma inside_nth : forall sh k j, inside sh k -> j < length sh -> nth j k 0 < nth j sh 0.
Proof.
  intros sh k j H. revert j. induction H; intros [|j] L; cbn in *; try lia. apply IHForall2. lia.
Qed.

(** *** Positions of slices *)
Lemma sel_positions_slice : forall s n, positive_step s ->
  sel_positions (SelSlice s) n = Ok (py_positions s n).
Proof.
  intros s n H. cbn. destruct (positions_pos s n H) as (ps & E1 & E2 & _). rewrite E1. cbn. now rewrite E2.
Qed.

Lemma sel_positions_list : forall idx n, Forall (fun i => i < n) idx ->
  sel_positions (SelList idx) n = Ok idx.
Proof.
  intros idx n H. cbn. replace (forallb _ idx) with true; auto. symmetry. apply forallb_forall.
  intros i Hi. rewrite Forall_forall in H. apply Nat.ltb_lt. auto.
Qed.

Lemma py_positions_sub : forall a b n,
  py_positions (mkslice (Some (Z.of_nat a)) (Some (Z.of_nat b)) None) n = lslice a b (seq 0 n).
Proof.
  intros a b n. pose proof (py_slice_lslice nat (seq 0 n) (Z.of_nat a) (Z.of_nat b) ltac:(lia) ltac:(lia)) as H.
  rewrite <- pick_py_slice in H. rewrite !Nat2Z.id, seq_length in H. rewrite <- H. unfold sub_slice.
  apply nth_error_ext. intros k.
  assert (R : forall i, In i (py_positions (mkslice (Some (Z.of_nat a)) (Some (Z.of_nat b)) None) n) -> i < n).
  { intros i Hi. apply filter_In in Hi as [Hi _]. apply in_seq in Hi. lia. }
  rewrite nth_error_pick by (rewrite seq_length; auto).
  destruct (nth_error _ k) as [i|] eqn:E; auto.
  apply nth_error_In in E. apply R in E. symmetry. rewrite nth_error_nth' with (d := 0) by (rewrite seq_length; lia).
  rewrite seq_nth by lia. f_equal.
Qed.

Lemma py_positions_full : forall n, py_positions full_slice n = seq 0 n.
Proof.
  intros n. unfold py_positions. 
  assert (E : forall l, (forall x, In x l -> x < n) ->
    filter (fun x => py_selected full_slice (Z.of_nat n) (Z.of_nat x)) l = l).
  { induction l as [|x l IH]; intros H; cbn [filter]; auto.
    assert (C : py_selected full_slice (Z.of_nat n) (Z.of_nat x) = true).
    { unfold py_selected. cbn. specialize (H x (or_introl eq_refl)).
      rewrite Z.mod_1_r, Z.eqb_refl, andb_true_r. apply andb_true_intro. split; [apply Z.leb_le|apply Z.ltb_lt]; lia. }
    rewrite C. f_equal. apply IH. intros y Hy. apply H. now right. }
  apply E. intros x Hx. apply in_seq in Hx. lia.
Qed.

Lemma py_positions_nodup : forall s n, NoDup (py_positions s n).
Proof. intros. apply NoDup_filter, seq_NoDup. Qed.

Definition EntryOk (s : asel) (n : nat) : Prop :=
  match s with SelSlice s => positive_step s | SelList idx => Forall (fun i => i < n) idx end.

Lemma sels_wanted : forall sel shape, length sel <= length shape ->
  (forall j s, nth_error sel j = Some s -> EntryOk s (nth j shape 0)) ->
  sels_positions sel shape = Ok (wanted_all sel shape).
Proof.
  intros sel shape. revert sel. induction shape as [|n shape IH]; intros [|s sel] L H; cbn in L; try lia.
  - reflexivity.
  - cbn [sels_positions wanted_all]. rewrite IH; [reflexivity|cbn; lia|]. intros [|j] t Hj; discriminate.
  - cbn [sels_positions wanted_all].
    assert (E : sel_positions s n = Ok (wanted s n)).
    { specialize (H 0 s eq_refl). cbn in H. destruct s as [s|idx].
      - now apply sel_positions_slice.
      - now apply sel_positions_list. }
    rewrite E. cbn [rbind]. rewrite IH; [reflexivity|lia|]. intros j t Hj. exact (H (S j) t Hj).
Qed.

(** A slice of the whole of each axis, and one entry changed. *)
Lemma wanted_full : forall shape m, m <= length shape ->
  wanted_all (repeat (SelSlice full_slice) m) shape = map (seq 0) shape.
Proof.
  induction shape as [|n shape IH]; intros [|m] L; cbn in *; auto; try lia.
  - f_equal. exact (IH 0 ltac:(lia)).
  - rewrite py_positions_full. f_equal. apply IH. lia.
Qed.

Lemma wanted_set : forall sel shape ax s, ax < length sel -> length sel <= length shape ->
  wanted_all (replace_at ax s sel) shape = replace_at ax (wanted s (nth ax shape 0)) (wanted_all sel shape).
Proof.
  intros sel shape. revert sel. induction shape as [|n shape IH]; intros sel ax s H L; cbn in L; [lia|].
  destruct sel as [|t sel]; cbn in *; [lia|]. destruct ax as [|ax]; cbn; [reflexivity|].
  f_equal. apply IH; lia.
Qed.

Lemma wanted_length : forall shape sel, length (wanted_all sel shape) = length shape.
Proof. induction shape; intros [|s sel]; cbn; auto. Qed.

Lemma nth_wanted : forall shape sel ax s, nth_error sel ax = Some s -> ax < length shape ->
  nth ax (wanted_all sel shape) [] = wanted s (nth ax shape 0).
Proof.
  induction shape as [|n shape IH]; intros [|t sel] [|ax] s H L; cbn in *; try lia; try discriminate.
  - now injection H as ->.
  - apply IH; auto; lia.
Qed.

Lemma nth_error_replace_same : forall A k (x : A) l, k < length l -> nth_error (replace_at k x l) k = Some x.
Proof. induction k; intros x [|y l] H; cbn in *; try lia; auto. apply IHk. lia. Qed.

Lemma nth_error_replace_other : forall A k j (x : A) l, j <> k -> nth_error (replace_at k x l) j = nth_error l j.
Proof. induction k; intros [|j] x [|y l] H; cbn; auto; try lia. Qed.

Lemma nth_error_repeat' : forall A (x y : A) m j, nth_error (repeat x m) j = Some y -> y = x.
Proof. intros A x y m j H. apply nth_error_In in H. now apply repeat_spec in H. Qed.

Lemma full_ok : forall n, EntryOk (SelSlice full_slice) n.
Proof. intros n. unfold EntryOk, positive_step; cbn; lia. Qed.

Lemma sub_ok : forall a b n, a <= b -> EntryOk (SelSlice (mkslice (Some (Z.of_nat a)) (Some (Z.of_nat b)) None)) n.
Proof. intros. unfold EntryOk, positive_step; cbn; lia. Qed.

(** [_reslice] of a readable entry by a part. *)
Lemma reslice_wanted : forall s n a b, a <= b ->
  EntryOk s n ->
  exists s', reslice s (Z.of_nat n) (part_slice (a, b)) = Ok s'
    /\ wanted s' n = lslice a b (wanted s n)
    /\ EntryOk s' n.
Proof.
  intros [s|idx] n a b Hab R.
  - destruct (reslice_spec s n (Z.of_nat a) (Z.of_nat b)) as (s' & E1 & E2 & E3); [apply R|lia|lia|].
    exists (SelSlice s'). split; [exact E1|]. cbn [wanted]. rewrite E3, !Nat2Z.id. auto.
  - exists (SelList (lslice a b idx)). split; [|split]; auto.
    + unfold reslice, part_slice. cbn [sl_step fst snd].
      change (mkslice (Some (Z.of_nat a)) (Some (Z.of_nat b)) None) with (sub_slice (Z.of_nat a) (Z.of_nat b)).
      rewrite apply_slice_pos by (unfold positive_step; cbn; lia).
      rewrite py_slice_lslice by lia. now rewrite !Nat2Z.id.
    + unfold EntryOk in *. rewrite Forall_forall in *. intros i Hi. apply R. unfold lslice in Hi.
      assert (X : In i (skipn a idx)).
      { rewrite <- (firstn_skipn (b - a) (skipn a idx)). apply in_or_app. now left. }
      rewrite <- (firstn_skipn a idx). apply in_or_app. now right.
Qed.
