(** Proofs about distributed files (for C184-C192), part 3: reading, the
    serial writer, whole files. *)
From Coq Require Import String.
From Coq Require Import List ZArith Bool Arith Lia Permutation.
From Verif Require Import PyBase PyStr PartModel PartSpec PartProofs PartProps0
  SliceModel SliceSpec SliceProofs SliceProps0 NioModel NioSpec NioProofs NioProofs2.
Import ListNotations.
Open Scope list_scope.
Open Scope nat_scope.

Lemma index_at_combine : forall ws k, index_at ws k = map (fun '(w, x) => nth x w 0) (combine ws k).
Proof. induction ws as [|w ws IH]; intros [|x k]; cbn; auto. now rewrite IH. Qed.

Lemma expand_wanted : forall sel shape, length sel <= length shape ->
  wanted_all (expand_sel (Some sel) (length shape)) shape = wanted_all sel shape.
Proof.
  intros sel shape L. unfold expand_sel. destruct (Nat.ltb_spec (length sel) (length shape)) as [H|H]; auto.
  clear H. revert sel L. induction shape as [|n shape IH]; intros [|s sel] L; cbn in *; auto; try lia.
  - rewrite py_positions_full. f_equal. rewrite wanted_full by lia.
    symmetry. exact (wanted_full shape 0 ltac:(lia)).
  - f_equal. apply IH. lia.
Qed.

Lemma expand_entries : forall sel shape j s, length sel <= length shape ->
  (forall j s, nth_error sel j = Some s -> ReadableEntry s (nth j shape 0)) ->
  nth_error (expand_sel (Some sel) (length shape)) j = Some s -> ReadableEntry s (nth j shape 0).
Proof.
  intros sel shape j s L H E. unfold expand_sel in E.
  destruct (Nat.ltb_spec (length sel) (length shape)) as [C|C]; auto.
  destruct (Nat.lt_ge_cases j (length sel)) as [D|D].
  - rewrite nth_error_app1 in E by auto. auto.
  - rewrite nth_error_app2 in E by auto. apply nth_error_repeat' in E as ->.
    split; unfold positive_step; cbn; lia.
Qed.

Lemma expand_length : forall sel m, length sel <= m -> length (expand_sel (Some sel) m) = m.
Proof.
  intros sel m L. unfold expand_sel. destruct (Nat.ltb_spec (length sel) m); [|lia].
  rewrite app_length, repeat_length. lia.
Qed.

Lemma readable_ok : forall s n, ReadableEntry s n -> EntryOk s n.
Proof. intros [s|idx] n H; cbn in *; tauto. Qed.

Lemma sel_shape_spec : forall sel shape, length sel = length shape ->
  (forall j s, nth_error sel j = Some s -> ReadableEntry s (nth j shape 0)) ->
  sel_shape shape sel = Ok (map (@length nat) (wanted_all sel shape)).
Proof.
  intros sel shape. revert sel. induction shape as [|n shape IH]; intros [|s sel] L H; try discriminate; auto.
  cbn [sel_shape wanted_all map].
  assert (E : len_slice s (Z.of_nat n) = Ok (Z.of_nat (length (wanted s n)))).
  { specialize (H 0 s eq_refl). cbn in H. destruct s as [s|idx]; [|reflexivity].
    cbn [wanted]. destruct H as [H1 H2]. apply len_slice_iff; auto. }
  rewrite E. cbn [rbind]. rewrite IH; [|cbn in L; lia|].
  - cbn [rbind]. destruct (Z.ltb_spec (Z.of_nat (length (wanted s n))) 0); [lia|]. now rewrite Nat2Z.id.
  - intros j t Hj. exact (H (S j) t Hj).
Qed.

Lemma map_replace_lengths : forall (W : list (list nat)) ax a num, ax < length W ->
  a + num <= length (nth ax W []) ->
  map (@length nat) (replace_at ax (lslice a (a + num) (nth ax W [])) W)
  = replace_at ax num (map (@length nat) W).
Proof.
  intros W ax a num L H. rewrite replace_map. f_equal. rewrite length_lslice. lia.
Qed.

Lemma index_at_move : forall (W : list (list nat)) ax a num k, ax < length W -> length k = length W ->
  nth ax k 0 < num ->
  index_at (replace_at ax (lslice a (a + num) (nth ax W [])) W) k = index_at W (move ax a k).
Proof.
  intros W ax a num. revert ax. induction W as [|w W IH]; intros ax k L Lk H; cbn in L; [lia|].
  destruct k as [|x k]; [discriminate|]. destruct ax as [|ax]; unfold move; cbn [replace_at nth index_at] in *.
  - rewrite nth_lslice by lia. f_equal. f_equal. lia.
  - f_equal. apply IH; cbn in *; lia.
Qed.

Lemma nth_map_length : forall (W : list (list nat)) ax, nth ax (map (@length nat) W) 0 = length (nth ax W []).
Proof. intros W ax. change 0 with (length (@nil nat)) at 1. now rewrite map_nth. Qed.

(** Whether the transfers can be cut. *)
Definition can_split (is_mpi : bool) (tn td : Z) (gshape : list nat) (ax size : nat) (item : Z) : Prop :=
  forall local0, exists sp,
    partition_io (negb is_mpi) tn td (largest_bytes gshape ax size item) gshape ax local0 = Ok sp.

Definition opens (h5mpi : bool) (fmt : fformat) (f : farg) (axis : Z) : res opened :=
  match fmt with
  | HDF5 => from_file_open h5mpi f axis None
  | Zarr => match f with FName | FZarr _ => Ok (Given false) | _ => Err ValueError end
  | OtherFormat => Err UnboundLocalError
  end.

Lemma from_file_spec : forall A h5mpi fmt f tn td item (d : dset A) ax axis sel size junk fh,
  (0 < tn)%Z -> (0 < td)%Z -> (0 <= item)%Z ->
  opens h5mpi fmt f axis = Ok fh ->
  (axis = Z.of_nat ax \/ axis = Z.of_nat ax - Z.of_nat (length (d_shape d)))%Z ->
  ax < length (d_shape d) -> Readable sel (d_shape d) ->
  (fmt = Zarr -> Forall (fun s => is_slice s = true) sel) ->
  (fmt = HDF5 -> can_split (is_mpi fh) tn td
                   (map (@length nat) (wanted_all sel (d_shape d))) ax size item) ->
  ReadsPart size (fun r => from_file h5mpi fmt f tn td item d axis (Some sel) size r (junk r))
    (map (@length nat) (wanted_all sel (d_shape d))) ax
    (selected (wanted_all sel (d_shape d)) (d_data d)).
Proof.
  intros A h5mpi fmt f tn td item d ax axis sel size junk fh Ht Hd Hi Ho Hax La [Ls Hs] Hz Hc.
  set (dshape := d_shape d) in *. set (W := wanted_all sel dshape) in *. set (gshape := map (@length nat) W) in *.
  assert (LW : length W = length dshape) by apply wanted_length.
  assert (Lg : length gshape = length dshape) by (unfold gshape; now rewrite map_length).
  set (es := expand_sel (Some sel) (length dshape)).
  assert (EW : wanted_all es dshape = W) by (apply expand_wanted; auto).
  assert (Le : length es = length dshape) by (apply expand_length; auto).
  assert (He : forall j s, nth_error es j = Some s -> ReadableEntry s (nth j dshape 0)).
  { intros j s. apply expand_entries; auto. }
  assert (P : forall r, r < size -> exists data,
     from_file h5mpi fmt f tn td item d axis (Some sel) size r (junk r)
       = Ok (gshape, ax, start_of (nth ax gshape 0) size r, part_shape gshape ax size r, data)
     /\ forall k, inside (part_shape gshape ax size r) k ->
          data k = selected W (d_data d) (move ax (start_of (nth ax gshape 0) size r) k)).
  { intros r Hr. unfold from_file. fold (opens h5mpi fmt f axis). rewrite Ho. cbn [rbind].
    fold dshape. cbv zeta. fold es.
    assert (C : ((axis <? - Z.of_nat (length dshape)) || (Z.of_nat (length dshape) <=? axis))%Z = false).
    { apply orb_false_intro; [apply Z.ltb_ge|apply Z.leb_gt]; lia. }
    rewrite C.
    assert (Eax : Z.to_nat (if (axis <? 0)%Z then (Z.of_nat (length dshape) + axis)%Z else axis) = ax).
    { destruct (Z.ltb_spec axis 0); lia. }
    rewrite Eax.
    rewrite (sel_shape_spec es dshape Le He), EW. fold gshape. cbn [rbind].
    rewrite split_local_closed by auto. cbn [rbind].
    set (st := start_of (nth ax gshape 0) size r). set (num := part_of (nth ax gshape 0) size r).
    destruct (nth_error es ax) as [s|] eqn:Es. 2:{ apply nth_error_None in Es. lia. }
    destruct (reslice_wanted s (nth ax dshape 0) st (st + num) ltac:(lia) (readable_ok _ _ (He _ _ Es)))
      as (s' & R1 & R2 & R3).
    unfold part_slice in R1. cbn [fst snd] in R1. rewrite R1. cbn [rbind].
    rewrite set_nth_replace.
    replace (local_shape gshape ax num) with (part_shape gshape ax size r)
      by (unfold num; now rewrite part_shape_local).
    set (sel' := replace_at ax s' es).
    assert (W' : wanted_all sel' dshape = replace_at ax (lslice st (st + num) (nth ax W [])) W).
    { unfold sel'. rewrite wanted_set by lia. rewrite EW, R2. f_equal. f_equal.
      rewrite <- EW. symmetry. apply nth_wanted; auto. }
    assert (Hn : st + num <= length (nth ax W [])).
    { rewrite <- nth_map_length. fold gshape. unfold st, num. now apply start_le. }
    assert (LM : map (@length nat) (wanted_all sel' dshape) = part_shape gshape ax size r).
    { rewrite W', map_replace_lengths by (auto; lia). reflexivity. }
    assert (Ok' : forall j t, nth_error sel' j = Some t -> EntryOk t (nth j dshape 0)).
    { intros j t Hj. unfold sel' in Hj. destruct (Nat.eq_dec j ax) as [->|N].
      - rewrite nth_error_replace_same in Hj by lia. now injection Hj as <-.
      - rewrite nth_error_replace_other in Hj by auto. apply readable_ok. auto. }
    assert (Fin : forall k, inside (part_shape gshape ax size r) k ->
       index_at (wanted_all sel' dshape) k = index_at W (move ax st k)).
    { intros k Hk. rewrite W'. apply index_at_move; [lia| |].
      - rewrite (inside_length _ _ Hk). unfold part_shape. rewrite replace_length. lia.
      - pose proof (inside_nth _ _ ax Hk) as X. unfold part_shape in X. rewrite replace_length in X.
        rewrite nth_replace_same in X by lia. apply X. lia. }
    destruct fmt.
    - destruct (Hc eq_refl (nth 0 (part_shape gshape ax size r) 0)) as [[sax parts] Hsp]. rewrite Hsp. cbn [rbind].
      assert (LS : LocalShape gshape (part_shape gshape ax size r) ax).
      { rewrite <- part_shape_local. apply local_shape_ok. }
      assert (LB : (item * prod (part_shape gshape ax size r) <= largest_bytes gshape ax size item)%Z).
      { exact (largest_in gshape ax size item r Hr). }
      assert (Lag : ax < length gshape) by lia.
      destruct (partition_tiles _ _ _ _ _ _ _ _ _ _ Ht Hd Hi Lag LS LB Hsp) as [T Lx].
      destruct (copy_in A sel' dshape (part_shape gshape ax size r) sax parts) with (src := d_data d) (dst := junk r)
        as (data & D1 & D2); auto.
      + unfold sel'. now rewrite replace_length.
      + lia.
      + exists data. rewrite D1. cbn [rbind]. split; auto. intros k Hk. rewrite D2 by auto.
        unfold selected. rewrite <- index_at_combine. f_equal. now apply Fin.
    - assert (Sl : forallb is_slice sel' = true).
      { apply forallb_forall. intros t Ht'. apply In_nth_error in Ht' as [j Hj]. unfold sel' in Hj.
        specialize (Hz eq_refl). rewrite Forall_forall in Hz.
        assert (Ses : forall j t, nth_error es j = Some t -> is_slice t = true).
        { intros j' t' Hj'. unfold es, expand_sel in Hj'.
          destruct (length sel <? length dshape).
          - apply nth_error_In in Hj'. apply in_app_or in Hj' as [X|X]; auto.
            apply repeat_spec in X as ->. reflexivity.
          - apply nth_error_In in Hj'. auto. }
        destruct (Nat.eq_dec j ax) as [->|N].
        - rewrite nth_error_replace_same in Hj by lia. injection Hj as <-.
          specialize (Ses _ _ Es). destruct s as [s|idx]; [|discriminate].
          unfold reslice in R1. cbn [sl_step sl_start sl_stop] in R1.
          destruct (slice_indices s _) as [[[? ?] ?]|]; [|discriminate]. now injection R1 as <-.
        - rewrite nth_error_replace_other in Hj by auto. eauto. }
      rewrite Sl. unfold assign.
      assert (E1 : sels_positions [] (part_shape gshape ax size r) = Ok (map (seq 0) (part_shape gshape ax size r))).
      { rewrite sels_wanted; [|cbn; lia|intros [|?] ? X; discriminate].
        f_equal. exact (wanted_full (part_shape gshape ax size r) 0 ltac:(lia)). }
      rewrite E1. cbn [rbind]. rewrite sels_wanted; [|unfold sel'; rewrite replace_length; lia|exact Ok'].
      cbn [rbind]. rewrite map_length_seq, LM.
      assert (SS : same_shape (part_shape gshape ax size r) (part_shape gshape ax size r) = true) by now apply same_shape_eq.
      rewrite SS. cbn [rbind]. eexists. split; [reflexivity|]. intros k Hk. cbv beta. rewrite locate_seq by auto.
      unfold selected. rewrite <- index_at_combine. f_equal. now apply Fin.
    - discriminate Ho. }
  exists (fun r => match from_file h5mpi fmt f tn td item d axis (Some sel) size r (junk r) with
                   | Ok (_, _, _, _, data) => data | Err _ => junk r end).
  split.
  - intros r k Hr Hk. destruct (P r Hr) as (data & E & H). rewrite E. now apply H.
  - intros r Hr. destruct (P r Hr) as (data & E & H). rewrite E at 1. now rewrite E.
Qed.
