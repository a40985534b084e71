(** Lemmas for [copy_datasets_filter]. *)
From Coq Require Import String.
From Coq Require Import List Ascii Bool Arith ZArith Lia Permutation.
From Verif Require Import PyBase PyStr MemModel MemProofs2 AttrModel AttrProofs CopyProofs ContModel ContProofs ContProofs2 PartModel PartSpec PartProofs
  PartProps0 SliceModel RedModel RedSpec RedProofs DistModel DistProofs FiltModel FiltSpec.
Import ListNotations.
Open Scope list_scope.
Open Scope nat_scope.

(** * Lists *)
Lemma nth_error_setn : forall (A : Type) k (x : A) l i,
  nth_error (set_nth k x l) i = if (i =? k) && (k <? length l) then Some x else nth_error l i.
Proof.
  intros A k x l. revert k. induction l as [|y l IH]; intros k i.
  - unfold set_nth. destruct k; cbn; rewrite andb_false_r; reflexivity.
  - destruct k as [|k].
    + change (set_nth 0 x (y :: l)) with (x :: l). destruct i; reflexivity.
    + change (set_nth (S k) x (y :: l)) with (y :: set_nth k x l). destruct i as [|i]; [reflexivity|]. cbn [nth_error]. rewrite IH. reflexivity.
Qed.
Lemma length_setn : forall (A : Type) k (x : A) l, length (set_nth k x l) = length l.
Proof.
  intros A k x l. revert k. induction l as [|y l IH]; intros [|k]; try reflexivity.
  change (set_nth (S k) x (y :: l)) with (y :: set_nth k x l). cbn. now rewrite IH.
Qed.
Lemma map_setn : forall (A B : Type) (f : A -> B) k x l, map f (set_nth k x l) = set_nth k (f x) (map f l).
Proof.
  intros A B f k x l. revert k. induction l as [|y l IH]; intros [|k]; try reflexivity.
  change (set_nth (S k) x (y :: l)) with (y :: set_nth k x l). cbn [map].
  change (set_nth (S k) (f x) (f y :: map f l)) with (f y :: set_nth k (f x) (map f l)). now rewrite IH.
Qed.
Lemma setn_same : forall (A : Type) k (x : A) l, nth_error l k = Some x -> set_nth k x l = l.
Proof.
  intros A k x l. revert k. induction l as [|y l IH]; intros [|k] H; try discriminate.
  - injection H as ->. reflexivity.
  - change (set_nth (S k) x (y :: l)) with (y :: set_nth k x l). f_equal. now apply IH.
Qed.
Lemma nth_error_seq : forall s n i, nth_error (seq s n) i = if i <? n then Some (s + i) else None.
Proof.
  intros s n. revert s. induction n as [|n IH]; intros s i; [now destruct i|]. destruct i as [|i]; cbn [seq nth_error].
  - now rewrite Nat.add_0_r.
  - rewrite IH. change (S i <? S n) with (i <? n). destruct (i <? n); auto. now rewrite Nat.add_succ_comm.
Qed.

Lemma picks_iff : forall P idx src, Picks P idx src <-> length idx = length P /\ length src = length P /\
  forall i p, nth_error P i = Some p -> exists x y, nth_error idx i = Some x /\ nth_error src i = Some y /\ nth_error p x = Some y.
Proof.
  induction P as [|p P IH]; intros idx src; split.
  - intros H. inversion H; subst. repeat split; auto. intros i p H1. destruct i; discriminate.
  - intros (H1 & H2 & _). destruct idx, src; try discriminate. constructor.
  - intros H. inversion H as [|p' x y P' idx' src' Hp Hr]; subst. apply IH in Hr as (L1 & L2 & Hr). cbn [length]. repeat split; auto.
    intros [|i] q Hq; cbn [nth_error] in *; [injection Hq as <-; eauto|eauto].
  - intros (H1 & H2 & H). destruct idx as [|x idx], src as [|y src]; try discriminate.
    destruct (H 0 p eq_refl) as (x' & y' & E1 & E2 & E3). injection E1 as <-. injection E2 as <-.
    constructor; auto. apply IH. cbn in H1, H2. split; [lia|]. split; [lia|]. intros i q Hq. exact (H (S i) q Hq).
Qed.
Lemma picks_inshape : forall P idx src, Picks P idx src -> InShape idx (map (@length nat) P).
Proof.
  induction 1 as [|p x y P idx src H _ IH]; constructor; auto. apply nth_error_Some. congruence.
Qed.

(** * Positions *)
Lemma slice_in_range : forall s n zs, (0 <= n)%Z -> slice_positions s n = Ok zs -> Forall (fun p => (0 <= p < n)%Z) zs.
Proof.
  intros s n zs Hn H. unfold slice_positions, slice_indices in H.
  set (k := match sl_step s with Some k => k | None => 1%Z end) in *.
  destruct (Z.eqb_spec k 0) as [|K]; [discriminate|].
  set (lower := (if 0 <? k then 0 else -1)%Z) in *. set (upper := (if 0 <? k then n else n - 1)%Z) in *.
  set (a := match sl_start s with Some x => _ | None => _ end) in H.
  set (b := match sl_stop s with Some x => _ | None => _ end) in H.
  injection H as <-.
  assert (Ba : (lower <= a <= upper)%Z /\ (lower <= b <= upper)%Z).
  { subst a b lower upper. destruct (Z.ltb_spec 0 k); destruct (sl_start s) as [x|]; destruct (sl_stop s) as [y|];
    repeat match goal with |- context [if (?u <? 0)%Z then _ else _] => destruct (Z.ltb_spec u 0) end; lia. }
  clearbody a b. apply Forall_forall. intros p Hp. apply in_map_iff in Hp as (i & <- & Hi). apply in_seq in Hi as [_ Hi].
  cbn in Hi. unfold range_len in Hi. subst lower upper. destruct (Z.ltb_spec 0 k).
  - destruct (Z.ltb_spec a b); [|cbn in Hi; lia]. assert (Q : (Z.of_nat i <= (b - a - 1) / k)%Z) by lia.
    assert ((k * ((b - a - 1) / k) <= b - a - 1)%Z) by (apply Z.mul_div_le; lia). nia.
  - destruct (Z.ltb_spec b a); [|cbn in Hi; lia]. assert (Q : (Z.of_nat i <= (a - b - 1) / (- k))%Z) by lia.
    assert (((- k) * ((a - b - 1) / (- k)) <= a - b - 1)%Z) by (apply Z.mul_div_le; lia). nia.
Qed.
Lemma take_positions_ok : forall l n ps, Forall2 (fun z p => p < n /\ (z = Z.of_nat p \/ z = Z.of_nat p - Z.of_nat n)%Z) l ps ->
  take_positions n l = Ok ps /\ Forall (fun p => p < n) ps.
Proof.
  induction 1 as [|z p l ps [Hp Hz] _ [IH1 IH2]]; [split; [reflexivity|constructor]|]. cbn [take_positions]. rewrite IH1.
  assert (E : pyaxis n z = Ok p).
  { unfold pyaxis. destruct Hz as [-> | ->].
    - destruct (Z.leb_spec 0 (Z.of_nat p)); [|lia]. destruct (Z.ltb_spec (Z.of_nat p) (Z.of_nat n)); [|lia]. cbn [andb]. now rewrite Nat2Z.id.
    - destruct (Z.leb_spec 0 (Z.of_nat p - Z.of_nat n)); [lia|]. cbn [andb].
      destruct (Z.leb_spec (- Z.of_nat n) (Z.of_nat p - Z.of_nat n)); [|lia].
      destruct (Z.ltb_spec (Z.of_nat p - Z.of_nat n) 0); [|lia]. cbn [andb]. f_equal. lia. }
  rewrite E. split; [reflexivity|]. constructor; auto.
Qed.
Definition usable (s : fsel) : Prop := match s with FList [] | FArr _ => False | _ => True end.
Lemma stands_positions : forall s n ps, usable s -> Stands s n ps -> positions s n = Ok ps /\ Forall (fun p => p < n) ps.
Proof.
  intros s n ps U H. destruct H as [s n zs H|l n ps H|l n ps H]; cbn [positions usable] in *; [| |contradiction].
  - rewrite H. split; [reflexivity|]. apply slice_in_range in H; [|lia]. rewrite Forall_forall in *. intros p Hp.
    apply in_map_iff in Hp as (z & <- & Hz). specialize (H z Hz). lia.
  - now apply take_positions_ok.
Qed.

(** * Cleaning *)
Lemma zrange_below : forall a b z, In z (zrange a b) -> (z < b)%Z.
Proof. intros a b z H. apply in_map_iff in H as (i & <- & H). apply in_seq in H. lia. Qed.
Lemma last_in : forall (l : list Z) d, l <> [] -> In (last l d) l.
Proof.
  induction l as [|x l IH]; intros d H; [contradiction|]. destruct l as [|y l]; [now left|]. right. apply (IH d). discriminate.
Qed.
Lemma never_range : forall a l, zlist_eqb (a :: l) (zrange a (last (a :: l) a)) = false.
Proof.
  intros a l. unfold zlist_eqb. destruct (list_eq_dec Z.eq_dec (a :: l) (zrange a (last (a :: l) a))) as [E|]; [|reflexivity].
  pose proof (last_in (a :: l) a ltac:(discriminate)) as I. rewrite E in I at 2. apply zrange_below in I. lia.
Qed.
Definition kept (s : fsel) : bool := match s with FSlice sl => negb (is_full sl) | _ => true end.
Lemma clean_one_usable : forall s, usable s -> clean_one s = Ok (if kept s then Some s else None).
Proof.
  intros [sl|[|a l]|l] U; cbn [usable] in U; try contradiction.
  - cbn [clean_one kept]. now destruct (is_full sl).
  - cbn [clean_one]. unfold clean_list. rewrite never_range. reflexivity.
Qed.
Lemma clean_usable : forall sel, Forall (fun kv => usable (snd kv)) sel -> clean sel = Ok (filter (fun kv => kept (snd kv)) sel).
Proof.
  induction sel as [|[k s] sel IH]; intros U; [reflexivity|]. inversion U as [|? ? Us Ur]; subst. cbn [clean filter snd].
  rewrite (clean_one_usable s Us), (IH Ur). cbn [rbind]. now destruct (kept s).
Qed.
Lemma full_positions : forall n, slice_positions full_slice (Z.of_nat n) = Ok (map Z.of_nat (seq 0 n)).
Proof.
  intros n. unfold slice_positions, slice_indices. cbn. f_equal. unfold range_len. destruct (Z.ltb_spec 0 1); [|lia].
  destruct (Z.ltb_spec 0 (Z.of_nat n)).
  - rewrite Z.div_1_r. replace (Z.to_nat (Z.of_nat n - 0 - 1 + 1)) with n by lia. apply map_ext. intros. lia.
  - replace n with 0 by lia. reflexivity.
Qed.
Lemma is_full_eq : forall s, is_full s = true -> s = full_slice.
Proof. intros [[a|] [b|] [c|]] H; try discriminate. reflexivity. Qed.
Lemma takes_clean : forall sel a n ps, NoDup (map fst sel) -> Takes sel a n ps -> Takes (filter (fun kv => kept (snd kv)) sel) a n ps.
Proof.
  intros sel a n ps N H. destruct H as [a s n ps I H|a n I].
  - destruct (kept s) eqn:K.
    + apply Tk_sel with s; auto. apply filter_In. auto.
    + destruct s as [sl| |]; try discriminate. cbn [kept] in K. apply negb_false_iff, is_full_eq in K. subst sl.
      inversion H as [s' n' zs Hz| |]; subst. rewrite full_positions in Hz. injection Hz as <-. rewrite map_map.
      assert (E : map (fun x => Z.to_nat (Z.of_nat x)) (seq 0 n) = seq 0 n).
      { rewrite <- map_id. apply map_ext. intros. apply Nat2Z.id. }
      rewrite E. apply Tk_all. intros K. apply in_map_iff in K as ([a' s'] & E1 & K). apply filter_In in K as [K1 K2].
      cbn [fst snd] in *. subst a'. apply (dget_nodup _ sel a _ N) in I. apply (dget_nodup _ sel a _ N) in K1. rewrite I in K1.
      injection K1 as <-. discriminate.
  - apply Tk_all. intros K. apply I. apply in_map_iff in K as (kv & E & K). apply filter_In in K as [K _]. rewrite <- E. now apply in_map.
Qed.
Lemma takes_all_clean : forall sel axes sh P, NoDup (map fst sel) -> TakesAll sel axes sh P -> TakesAll (filter (fun kv => kept (snd kv)) sel) axes sh P.
Proof. induction 2; constructor; auto using takes_clean. Qed.
Lemma takes_all_nth : forall sel axes sh P, TakesAll sel axes sh P -> length axes = length P /\ length sh = length P /\
  forall i p, nth_error P i = Some p -> exists a n, nth_error axes i = Some a /\ nth_error sh i = Some n /\ Takes sel a n p.
Proof.
  induction 1 as [|a n ps axes sh P H _ (IH1 & IH2 & IH3)]; cbn [length]; repeat split; auto.
  - intros [|i] p H; discriminate.
  - intros [|i] p Hp; cbn [nth_error] in *; [injection Hp as <-; eauto|eauto].
Qed.

(** * Arrays *)
Section Arrays.
Context {A : Type}.
Implicit Types G R : nd A.
Lemma selected_start : forall G, Selected (map (seq 0) (shp G)) G G.
Proof.
  intros G. split.
  - rewrite map_map. rewrite <- (map_id (shp G)) at 1. apply map_ext. intros. now rewrite seq_length.
  - intros idx src H. f_equal. apply picks_iff in H as (L1 & L2 & H). apply nth_error_ext. intros i.
    destruct (nth_error (map (seq 0) (shp G)) i) as [p|] eqn:E.
    + destruct (H i p E) as (x & y & E1 & E2 & E3). rewrite nth_error_map in E. destruct (nth_error (shp G) i); [|discriminate].
      injection E as <-. rewrite nth_error_seq in E3. destruct (x <? n); [|discriminate]. injection E3 as <-. now rewrite E1, E2.
    + apply nth_error_None in E. rewrite (proj2 (nth_error_None idx i)), (proj2 (nth_error_None src i)) by lia. reflexivity.
Qed.
Lemma selected_view : forall G k s e n, nth_error (shp G) k = Some n -> s <= e <= n ->
  Selected (set_nth k (seq s (e - s)) (map (seq 0) (shp G))) G (view G (upd full_box k (s, e))).
Proof.
  intros G k s e n Hk Hs. split.
  - cbn [view shp]. apply nth_error_ext. intros i. rewrite nth_error_imap, map_setn, nth_error_setn, map_map, !map_length, nth_error_map, seq_length.
    destruct (nth_error (shp G) i) as [d|] eqn:E.
    + assert (L : k < length (shp G)) by (apply nth_error_Some; congruence). rewrite (proj2 (Nat.ltb_lt _ _) L), andb_true_r.
      unfold upd, full_box. cbn [option_map]. destruct (Nat.eqb_spec i k) as [->|]; [|now rewrite seq_length].
      cbn [rlen]. f_equal. rewrite Hk in E. injection E as <-. lia.
    + cbn [option_map]. destruct (Nat.eqb_spec i k) as [->|]; [congruence|reflexivity].
  - intros idx src H. cbn [view elt]. f_equal. apply picks_iff in H as (L1 & L2 & H). rewrite length_setn, map_length in *.
    apply nth_error_ext. intros i. rewrite nth_error_imap.
    destruct (nth_error (shp G) i) as [d|] eqn:E.
    + assert (L : k < length (shp G)) by (apply nth_error_Some; congruence).
      destruct (H i (if i =? k then seq s (e - s) else seq 0 d)) as (x & y & E1 & E2 & E3).
      { rewrite nth_error_setn, map_length, (proj2 (Nat.ltb_lt _ _) L), andb_true_r, nth_error_map, E. destruct (i =? k); reflexivity. }
      rewrite E1, E2. cbn [option_map]. f_equal. unfold upd, full_box. destruct (i =? k); cbn [rstart]; rewrite nth_error_seq in E3.
      * destruct (x <? e - s); [|discriminate]. injection E3 as <-. lia.
      * destruct (x <? d); [|discriminate]. injection E3 as <-. lia.
    + apply nth_error_None in E. rewrite (proj2 (nth_error_None idx i)), (proj2 (nth_error_None src i)) by lia. reflexivity.
Qed.
Lemma selected_take : forall P G R k n ps, Selected P G R -> nth_error P k = Some (seq 0 n) -> Forall (fun p => p < n) ps ->
  Selected (set_nth k ps P) G (take_axis k ps R).
Proof.
  intros P G R k n ps [S1 S2] Hk F. split.
  - cbn [take_axis shp]. rewrite S1. symmetry. apply map_setn.
  - intros idx src H. cbn [take_axis elt]. apply S2. apply picks_iff in H as (L1 & L2 & H). rewrite length_setn in *.
    assert (L : k < length P) by (apply nth_error_Some; congruence).
    destruct (H k ps) as (xk & yk & K1 & K2 & K3). { rewrite nth_error_setn, Nat.eqb_refl, (proj2 (Nat.ltb_lt _ _) L). reflexivity. }
    rewrite (nth_error_nth _ _ 0 K1), (nth_error_nth _ _ 0 K3).
    apply picks_iff. rewrite length_setn. split; [auto|]. split; [auto|]. intros i p Hp.
    destruct (Nat.eqb_spec i k) as [->|NE].
    + rewrite Hk in Hp. injection Hp as <-. exists yk, yk. rewrite nth_error_setn, Nat.eqb_refl, L1, (proj2 (Nat.ltb_lt _ _) L).
      repeat split; auto. rewrite nth_error_seq. assert (Y : yk < n) by (rewrite Forall_forall in F; apply F; eapply nth_error_In; eauto).
      apply Nat.ltb_lt in Y. now rewrite Y.
    + destruct (H i p) as (x & y & E1 & E2 & E3). { rewrite nth_error_setn. apply Nat.eqb_neq in NE. now rewrite NE. }
      exists x, y. rewrite nth_error_setn. apply Nat.eqb_neq in NE. rewrite NE. cbn [andb]. auto.
Qed.

(** The positions after all selections. *)
Fixpoint final (names : list str) (sel : list (str * fsel)) (P : list (list nat)) : list (list nat) :=
  match sel with
  | [] => P
  | (a, s) :: sel =>
      final names sel (match index_name a names with
                       | None => P
                       | Some k => match positions s (length (nth k P [])) with Ok ps => set_nth k ps P | Err _ => P end
                       end)
  end.
Lemma final_length : forall names sel P, length (final names sel P) = length P.
Proof.
  induction sel as [|[a s] sel IH]; intros P; cbn [final]; [reflexivity|]. rewrite IH. destruct (index_name a names); [|reflexivity].
  destruct (positions _ _); [apply length_setn|reflexivity].
Qed.
Lemma nodup_index : forall names i a, NoDup names -> nth_error names i = Some a -> index_name a names = Some i.
Proof.
  intros names i a N H. apply index_name_some. split; auto. intros j Hj K.
  assert (i = j); [|lia]. apply (proj1 (NoDup_nth_error names) N); [apply nth_error_Some; congruence|congruence].
Qed.
Lemma final_nth : forall names sel P i a p, NoDup names -> NoDup (map fst sel) -> length P = length names ->
  nth_error names i = Some a -> nth_error P i = Some p ->
  nth_error (final names sel P) i = Some (match dget a sel with
     | Some s => match positions s (length p) with Ok ps => ps | Err _ => p end
     | None => p end).
Proof.
  induction sel as [|[b s] sel IH]; intros P i a p N Ns L Ha Hp; cbn [final dget]; [exact Hp|].
  inversion Ns as [|? ? Hb Hs]; subst. destruct (seqb a b) eqn:E.
  - apply seqb_eq in E. subst b. rewrite (nodup_index names i a N Ha), (nth_error_nth _ _ [] Hp).
    assert (G : dget a sel = None) by now apply dget_none. destruct (positions s (length p)) as [ps|e].
    + rewrite (IH (set_nth i ps P) i a ps); auto; [now rewrite G|now rewrite length_setn|].
      rewrite nth_error_setn, Nat.eqb_refl. assert (Hi : i < length P) by (apply nth_error_Some; congruence).
      apply Nat.ltb_lt in Hi. now rewrite Hi.
    + rewrite (IH P i a p); auto. now rewrite G.
  - apply seqb_neq in E. destruct (index_name b names) as [k|] eqn:K; [|now apply IH].
    apply index_name_some in K as [K _]. destruct (positions s (length (nth k P []))) as [ps|]; [|now apply IH].
    apply IH; auto; [now rewrite length_setn|]. rewrite nth_error_setn. assert (NE : i <> k) by congruence.
    apply Nat.eqb_neq in NE. now rewrite NE.
Qed.
Lemma apply_sels_ok : forall names sel P G R, NoDup names -> NoDup (map fst sel) -> length P = length names -> Selected P G R ->
  (forall i a s, In (a, s) sel -> nth_error names i = Some a -> exists n ps, nth_error P i = Some (seq 0 n) /\ positions s n = Ok ps /\ Forall (fun p => p < n) ps) ->
  exists R', apply_sels names sel R = Ok R' /\ Selected (final names sel P) G R'.
Proof.
  induction sel as [|[b s] sel IH]; intros P G R N Ns L S H; [exists R; split; [reflexivity|exact S]|].
  inversion Ns as [|? ? Hb Hs]; subst. unfold apply_sels. cbn [fold_left rbind fst snd final].
  destruct (index_name b names) as [k|] eqn:K.
  - pose proof K as K'. apply index_name_some in K as [K _]. destruct (H k b s (or_introl eq_refl) K) as (n & ps & H1 & H2 & H3).
    unfold apply_sel. destruct S as [S1 S2].
    assert (E : nth k (shp R) 0 = n).
    { apply nth_error_nth. rewrite S1, nth_error_map, H1. cbn. now rewrite seq_length. }
    rewrite E, H2. cbn [rbind]. rewrite (nth_error_nth _ _ [] H1), seq_length, H2.
    apply IH; auto; [now rewrite length_setn|now apply selected_take with n|].
    intros i a s' I Hi. destruct (H i a s' (or_intror I) Hi) as (n' & ps' & H1' & H2' & H3'). exists n', ps'. split; auto.
    rewrite nth_error_setn. assert (NE : i <> k). { intros ->. rewrite K in Hi. injection Hi as ->. apply Hb. exact (in_map fst _ _ I). }
    apply Nat.eqb_neq in NE. now rewrite NE.
  - apply IH; auto. intros i a s' I. exact (H i a s' (or_intror I)).
Qed.

(** Without distribution. *)
Lemma final_takes : forall sel names sh P, NoDup names -> NoDup (map fst sel) -> Forall (fun kv => usable (snd kv)) sel ->
  TakesAll sel names sh P -> final names sel (map (seq 0) sh) = P /\
  forall i a s, In (a, s) sel -> nth_error names i = Some a -> exists n ps, nth_error sh i = Some n /\ nth_error P i = Some ps /\ positions s n = Ok ps /\ Forall (fun p => p < n) ps.
Proof.
  intros sel names sh P N Ns U H. apply takes_all_nth in H as (L1 & L2 & H). rewrite Forall_forall in U. split.
  - apply nth_error_ext. intros i. destruct (nth_error P i) as [p|] eqn:E.
    + destruct (H i p E) as (a & n & E1 & E2 & T).
      rewrite (final_nth names sel (map (seq 0) sh) i a (seq 0 n)); auto; [|rewrite map_length; congruence|rewrite nth_error_map, E2; reflexivity].
      f_equal. inversion T as [a' s n' ps I St|a' n' I]; subst.
      * rewrite (dget_nodup _ sel a s Ns I), seq_length. now rewrite (proj1 (stands_positions s n p (U _ I) St)).
      * now rewrite (proj2 (dget_none a sel) I).
    + apply nth_error_None in E. apply nth_error_None. rewrite final_length, map_length. lia.
  - intros i a s I Hi. assert (Hl : i < length P) by (rewrite <- L1; apply nth_error_Some; congruence).
    apply nth_error_Some in Hl. destruct (nth_error P i) as [p|] eqn:E; [|contradiction].
    destruct (H i p E) as (a' & n & E1 & E2 & T). rewrite Hi in E1. injection E1 as <-. exists n, p. split; auto. split; auto.
    inversion T as [a' s' n' ps I' St|a' n' I']; subst.
    + apply (dget_nodup _ sel a s Ns) in I. pose proof (dget_nodup _ sel a s' Ns I') as I2. rewrite I in I2. injection I2 as <-.
      apply stands_positions; auto. apply (U (a, s)). exact I'.
    + destruct I'. exact (in_map fst _ _ I).
Qed.
Lemma assign_all_same : forall R G d P, Selected P G R -> shp d = map (@length nat) P ->
  exists v, assign_all d R = Ok v /\ Selected P G v.
Proof.
  intros R G d P [S1 S2] E. unfold assign_all. rewrite S1, E, fits_refl. eexists. split; [reflexivity|]. split; [reflexivity|].
  intros idx src H. cbn [elt]. rewrite spread_id by (eapply picks_inshape; eauto). auto.
Qed.
Lemma copy_common : forall sel names P G d, NoDup names -> NoDup (map fst sel) -> Forall (fun kv => usable (snd kv)) sel ->
  TakesAll sel names (shp G) P -> shp d = map (@length nat) P ->
  exists v, rbind (apply_sels names sel G) (assign_all d) = Ok v /\ Selected P G v.
Proof.
  intros sel names P G d N Ns U T E. destruct (final_takes sel names (shp G) P N Ns U T) as [F1 F2].
  pose proof (takes_all_nth _ _ _ _ T) as (L1 & L2 & _).
  destruct (apply_sels_ok names sel (map (seq 0) (shp G)) G G N Ns) as (R & -> & S); [rewrite map_length; congruence|apply selected_start| |].
  - intros i a s I Hi. destruct (F2 i a s I Hi) as (n & ps & H1 & H2 & H3). exists n, ps. rewrite nth_error_map, H1. auto.
  - rewrite F1 in S. cbn [rbind]. now apply assign_all_same.
Qed.

(** Distributed over an axis without a selection. *)
Lemma final_skip : forall names sel k p P a, NoDup names -> nth_error names k = Some a -> ~ In a (map fst sel) -> length P = length names ->
  final names sel (set_nth k p P) = set_nth k p (final names sel P).
Proof.
  induction sel as [|[b s] sel IH]; intros k p P a N Ha Hn L; cbn [final]; [reflexivity|]. cbn [map fst In] in Hn.
  destruct (index_name b names) as [j|] eqn:J; [|eapply IH; eauto].
  apply index_name_some in J as [J _]. assert (NE : j <> k) by (intros ->; rewrite Ha in J; injection J as ->; auto).
  assert (Q : nth j (set_nth k p P) [] = nth j P []).
  { assert (X : nth_error (set_nth k p P) j = nth_error P j). { rewrite nth_error_setn. apply Nat.eqb_neq in NE. now rewrite NE. }
    destruct (nth_error P j) as [q|] eqn:Y.
    - rewrite (nth_error_nth _ _ [] X), (nth_error_nth _ _ [] Y). reflexivity.
    - apply nth_error_None in X, Y. now rewrite !nth_overflow. }
  rewrite Q. destruct (positions s (length (nth j P []))) as [ps|]; [|eapply IH; eauto].
  assert (C : set_nth j ps (set_nth k p P) = set_nth k p (set_nth j ps P)).
  { apply nth_error_ext. intros i. rewrite !nth_error_setn, !length_setn.
    destruct (Nat.eqb_spec i j) as [->|]; destruct (Nat.eqb_spec j k) as [->|]; try congruence; cbn [andb]; auto. }
  rewrite C. apply IH with a; auto. now rewrite length_setn.
Qed.

Section Ranks.
Variables (size k : nat) (names : list str) (sel : list (str * fsel)) (P : list (list nat)) (G d : nd A) (a : str) (n : nat).
Hypothesis Hsize : 1 <= size.
Hypothesis N : NoDup names.
Hypothesis Ns : NoDup (map fst sel).
Hypothesis U : Forall (fun kv => usable (snd kv)) sel.
Hypothesis T : TakesAll sel names (shp G) P.
Hypothesis E : shp d = map (@length nat) P.
Hypothesis Ha : nth_error names k = Some a.
Hypothesis Hn : nth_error (shp G) k = Some n.
Hypothesis Hs : ~ In a (map fst sel).
Lemma Pk : nth_error P k = Some (seq 0 n).
Proof.
  destruct (final_takes sel names (shp G) P N Ns U T) as [F1 _]. rewrite <- F1.
  pose proof (takes_all_nth _ _ _ _ T) as (L1 & L2 & _).
  rewrite (final_nth names sel (map (seq 0) (shp G)) k a (seq 0 n)); auto.
  - now rewrite (proj2 (dget_none a sel) Hs).
  - rewrite map_length. congruence.
  - now rewrite nth_error_map, Hn.
Qed.
Lemma dk : nth_error (shp d) k = Some n.
Proof. rewrite E, nth_error_map, Pk. cbn. now rewrite seq_length. Qed.
Let st r := start_of n size r.
Lemma st_le : forall r, r < size -> st r <= st (S r) <= n.
Proof.
  intros r H. unfold st. split; [apply start_of_mono; lia|]. rewrite <- (start_of_m n size) at 2 by lia. apply start_of_mono. lia.
Qed.
Lemma piece_ok : forall r, r < size -> exists v,
  rbind (share size k r d) (fun d => rbind (rbind (share size k r G) (apply_sels names sel)) (fun a => assign_all d a)) = Ok v /\
  Selected (set_nth k (seq (st r) (st (S r) - st r)) P) G v.
Proof.
  intros r Hr. unfold share. rewrite (nth_error_nth _ _ 0 dk), (nth_error_nth _ _ 0 Hn), split_local_closed by exact Hr. cbn [rbind].
  fold (st r) (st (S r)). pose proof (st_le r Hr) as B.
  destruct (final_takes sel names (shp G) P N Ns U T) as [F1 F2]. pose proof (takes_all_nth _ _ _ _ T) as (L1 & L2 & _).
  destruct (apply_sels_ok names sel (set_nth k (seq (st r) (st (S r) - st r)) (map (seq 0) (shp G))) G
     (view G (upd full_box k (st r, st (S r)))) N Ns) as (R & -> & SR).
  - rewrite length_setn, map_length. congruence.
  - now apply selected_view with n.
  - intros i b s I Hi. destruct (F2 i b s I Hi) as (n' & ps & H1 & H2 & H3). exists n', ps. rewrite nth_error_setn, nth_error_map, H1.
    assert (NE : i <> k). { intros ->. rewrite Ha in Hi. injection Hi as ->. apply Hs. exact (in_map fst _ _ I). }
    apply Nat.eqb_neq in NE. rewrite NE. auto.
  - rewrite (final_skip names sel k _ _ a) in SR; auto; [|rewrite map_length; congruence]. rewrite F1 in SR. cbn [rbind].
    apply assign_all_same; [exact SR|]. pose proof dk as Hd.
    destruct (selected_view d k (st r) (st (S r)) n Hd B) as [V _]. rewrite V, !map_setn. f_equal. rewrite map_map, <- E.
    rewrite <- (map_id (shp d)) at 2. apply map_ext. intros. now rewrite seq_length.
Qed.
Lemma on_ranks_ok : forall (B : Type) (f : nat -> res B) rs, (forall r, In r rs -> exists x, f r = Ok x) ->
  exists l, on_ranks f rs = Ok l /\ map fst l = rs /\ Forall (fun rx => f (fst rx) = Ok (snd rx)) l.
Proof.
  induction rs as [|r rs IH]; intros H; [exists []; repeat split; constructor|].
  destruct (H r (or_introl eq_refl)) as [x Hx]. destruct IH as (l & H1 & H2 & H3); [intros q Hq; apply H; now right|].
  exists ((r, x) :: l). cbn [on_ranks map fst]. rewrite Hx, H1, H2. repeat split; auto.
Qed.
Lemma copy_shares : exists v, assign_shares size k d (fun r => rbind (share size k r G) (apply_sels names sel)) = Ok v /\ Selected P G v.
Proof.
  unfold assign_shares. set (f := fun r => rbind (share size k r d) _).
  destruct (on_ranks_ok _ f (seq 0 size)) as (l & -> & M & F).
  { intros r Hr. apply in_seq in Hr. destruct (piece_ok r ltac:(lia)) as (v & H & _). exists v. exact H. }
  cbn [rbind]. eexists. split; [reflexivity|]. split; [exact E|]. intros idx src Hp. unfold whole. cbn [elt].
  pose proof (takes_all_nth _ _ _ _ T) as (L1 & L2 & _).
  assert (Lk : k < length P) by (rewrite <- L1; apply nth_error_Some; congruence).
  pose proof Hp as Hq. apply picks_iff in Hq as (I1 & I2 & Hq). destruct (Hq k _ Pk) as (x & y & X1 & X2 & X3).
  rewrite (nth_error_nth _ _ 0 X1), (nth_error_nth _ _ 0 dk).
  rewrite nth_error_seq in X3. destruct (Nat.ltb_spec x n) as [Lx|]; [|discriminate]. injection X3 as <-. cbn [Nat.add] in X2.
  destruct (find _ l) as [[r p]|] eqn:Fd.
  - apply find_some in Fd as [I Fr]. assert (Hr : r < size).
    { assert (K : In r (seq 0 size)) by (rewrite <- M; exact (in_map fst _ _ I)). apply in_seq in K. lia. }
    rewrite split_local_closed in Fr |- * by exact Hr. fold (st r) (st (S r)) in Fr |- *. apply andb_true_iff in Fr as [Fr1 Fr2].
    apply Nat.leb_le in Fr1. apply Nat.ltb_lt in Fr2. rewrite Forall_forall in F. specialize (F _ I). cbn [fst snd] in F.
    destruct (piece_ok r Hr) as (v & Hv & [_ Sv]). unfold f in F. rewrite F in Hv. injection Hv as <-. apply Sv.
    apply picks_iff. rewrite !length_setn. split; [auto|]. split; [auto|]. intros i q Hi. rewrite nth_error_setn in Hi |- *.
    destruct (Nat.eqb_spec i k) as [->|]; cbn [andb] in *.
    + rewrite (proj2 (Nat.ltb_lt _ _) Lk) in Hi. injection Hi as <-. exists (x - st r), x. rewrite I1, (proj2 (Nat.ltb_lt _ _) Lk).
      repeat split; auto. rewrite nth_error_seq. destruct (Nat.ltb_spec (x - st r) (st (S r) - st r)); [f_equal; lia|lia].
    + destruct (Hq i q Hi) as (x' & y' & Q). eauto.
  - exfalso. destruct (owner_exists n size size x) as (r & Hr & B); [rewrite start_of_m by lia; exact Lx|].
    assert (K : In r (map fst l)) by (rewrite M; apply in_seq; lia). apply in_map_iff in K as ([r' p] & Er & I). cbn [fst] in Er. subst r'.
    apply (List.find_none _ _ Fd) in I. rewrite split_local_closed in I by exact Hr. apply andb_false_iff in I as [I|I].
    + apply Nat.leb_gt in I. lia.
    + apply Nat.ltb_ge in I. lia.
Qed.
End Ranks.
End Arrays.
