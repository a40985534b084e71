(** Lemmas about conversions between common and distributed datasets. *)
From Coq Require Import List Arith ZArith Bool Lia.
From Verif Require Import PyBase PartModel PartSpec PartProofs PartProps0 SliceModel SliceProofs RedModel RedSpec RedProofs DistModel.
Import ListNotations.
Open Scope nat_scope.

Lemma fits_refl : forall l, fits l l = true.
Proof. induction l as [|x l IH]; [reflexivity|]. cbn. now rewrite Nat.eqb_refl, IH. Qed.
Lemma fits_iff : forall a b, fits a b = true <-> length a = length b /\
  forall j s d, nth_error a j = Some s -> nth_error b j = Some d -> s = d \/ s = 1.
Proof.
  induction a as [|s a IH]; intros [|d b]; cbn [fits].
  - split; [intros _; split; [reflexivity|intros [|j] s d H; discriminate]|reflexivity].
  - split; [discriminate|intros [H _]; discriminate].
  - split; [discriminate|intros [H _]; discriminate].
  - rewrite andb_true_iff, orb_true_iff, !Nat.eqb_eq, IH. split.
    + intros [H1 [H2 H3]]. split; [cbn; lia|]. intros [|j] s' d' Hs Hd; cbn in *; [congruence|eauto].
    + intros [H1 H2]. split; [apply (H2 0); reflexivity|]. split; [cbn in H1; lia|].
      intros j s' d'. apply (H2 (S j)).
Qed.
Lemma spread_id : forall sh idx, InShape idx sh -> spread sh idx = idx.
Proof.
  intros sh idx H. unfold spread. induction H as [|x d idx sh Hx H IH]; [reflexivity|].
  cbn [combine map]. rewrite IH. f_equal. destruct (Nat.eqb_spec d 1); [lia|reflexivity].
Qed.
Lemma set_nth_self : forall k l, set_nth k (nth k l 0) l = l.
Proof.
  intros k l. rewrite set_nth_imap. apply imap_id. intros j x Hj.
  destruct (Nat.eqb_spec j k) as [->|]; [|reflexivity]. now rewrite (nth_error_nth _ _ 0 Hj).
Qed.

Lemma view0_shape : forall A (G : list nat -> A) gshape sd ed,
  shp (view (mknd gshape (fun idx => Some (G idx))) (upd full_box 0 (sd, ed)))
  = set_nth 0 (Nat.min ed (nth 0 gshape 0) - sd) gshape.
Proof.
  intros. cbn [view shp]. rewrite set_nth_imap. apply imap_ext_in. intros j x Hj. unfold upd, full_box.
  destruct (Nat.eqb_spec j 0) as [->|]; [|reflexivity]. cbn [rlen]. now rewrite (nth_error_nth _ _ 0 Hj).
Qed.

Theorem axis0_share : forall A (G : list nat -> A) gshape a m r, r < m -> Names (length gshape) a 0 ->
  exists arr, common_to_distributed gshape a G r m = Ok arr /\ IsShare G gshape m 0 r arr.
Proof.
  intros A G gshape a m r Hr Ha. unfold common_to_distributed. rewrite (pyaxis_names _ _ _ Ha). cbn [rbind].
  rewrite split_local_closed by assumption. cbn [rbind]. unfold assign_all.
  set (n := nth 0 gshape 0).
  pose proof (start_of_mono n m (S r) m ltac:(lia)) as Hle. rewrite start_of_m in Hle by lia. rewrite start_of_S in *.
  assert (HS : shp (view (mknd gshape (fun idx => Some (G idx))) (upd full_box 0 (start_of n m r, start_of n m r + part_of n m r)))
     = set_nth 0 (part_of n m r) gshape).
  { rewrite view0_shape. f_equal. fold n. lia. }
  rewrite HS. change (shp (@nd_empty A (set_nth 0 (part_of n m r) gshape))) with (set_nth 0 (part_of n m r) gshape).
  rewrite fits_refl. eexists. split; [reflexivity|]. split; [reflexivity|]. cbn [elt shp].
  intros idx Hi. rewrite spread_id by assumption. cbn [view elt]. f_equal. f_equal.
  rewrite shift_imap. apply imap_ext_in. intros j x _. unfold upd, full_box. fold n. destruct (j =? 0); cbn [rstart]; lia.
Qed.

Lemma part_of_1 : forall n, part_of n 1 0 = n.
Proof. intro n. unfold part_of. rewrite Nat.mod_1_r, Nat.div_1_r. cbn. lia. Qed.
Theorem single_rank_share : forall A (G : list nat -> A) gshape a k, Names (length gshape) a k ->
  nth 0 gshape 0 <= nth k gshape 0 ->
  exists arr, common_to_distributed gshape a G 0 1 = Ok arr /\ IsShare G gshape 1 k 0 arr.
Proof.
  intros A G gshape a k Ha Hle. unfold common_to_distributed. rewrite (pyaxis_names _ _ _ Ha). cbn [rbind].
  rewrite split_local_closed by lia. cbn [rbind]. unfold assign_all.
  set (n := nth k gshape 0) in *. rewrite start_of_S, start_of_0, part_of_1. cbn [plus].
  assert (HS : shp (view (mknd gshape (fun idx => Some (G idx))) (upd full_box 0 (0, n))) = gshape).
  { rewrite view0_shape. rewrite Nat.sub_0_r, Nat.min_r by assumption. apply set_nth_self. }
  rewrite HS. cbn [nd_empty shp]. unfold n. rewrite set_nth_self, fits_refl.
  eexists. split; [reflexivity|]. split.
  - cbn [shp]. now rewrite part_of_1, set_nth_self.
  - cbn [shp elt]. intros idx Hi. rewrite spread_id by assumption. cbn [view elt]. f_equal. f_equal.
    rewrite shift_imap. apply imap_ext_in. intros j x _. unfold upd, full_box. rewrite start_of_0.
    destruct (j =? 0), (j =? k); cbn [rstart]; lia.
Qed.

Theorem other_axis_fails : forall A (G : list nat -> A) gshape a k m r, r < m -> Names (length gshape) a k -> 1 <= k ->
  nth k gshape 0 <> 1 -> part_of (nth k gshape 0) m r <> nth k gshape 0 ->
  common_to_distributed gshape a G r m = Err ValueError.
Proof.
  intros A G gshape a k m r Hr Ha Hk H1 Hp. unfold common_to_distributed. rewrite (pyaxis_names _ _ _ Ha). cbn [rbind].
  rewrite split_local_closed by assumption. cbn [rbind]. unfold assign_all.
  rewrite view0_shape. cbn [nd_empty shp]. set (n := nth k gshape 0) in *.
  match goal with |- (if ?f then _ else _) = _ => destruct f eqn:EF; [exfalso|reflexivity] end.
  apply fits_iff in EF as [_ EF]. destruct Ha as [Ha _].
  assert (Hn : nth_error gshape k = Some n) by (apply nth_error_nth'; assumption).
  destruct (EF k n (part_of n m r)) as [E|E]; try congruence.
  - rewrite nth_error_set_nth, Hn. cbn. destruct (Nat.eqb_spec k 0); [lia|reflexivity].
  - rewrite nth_error_set_nth, Hn. cbn. now rewrite Nat.eqb_refl.
Qed.

(** *** Back to a common dataset *)
Lemma fold_left_filter : forall A B (f : A -> B -> A) (p : B -> bool) l a,
  fold_left f (filter p l) a = fold_left (fun a x => if p x then f a x else a) l a.
Proof. induction l as [|x l IH]; intro a; [reflexivity|]. cbn [filter fold_left]. destruct (p x); cbn [fold_left]; apply IH. Qed.

Lemma map_zero_imap : forall (l : list nat), map (fun _ => 0) l = imap (fun _ _ => 0) l.
Proof.
  intro l. apply nth_error_ext. intro k. rewrite nth_error_imap.
  revert k. induction l as [|x l IH]; intros [|k]; cbn; auto.
Qed.

Section Back.
Context {A : Type} (G : list nat -> A) (gshape : list nat) (m k : nat) (locals : nat -> nd (option A)).
Context (Hm : 2 <= m) (Hk : k < length gshape).
Context (Hl : forall q, q < m -> IsShare G gshape m k q (locals q)).
Let n := nth k gshape 0.
Let starts q := set_nth k (start_of n m q) (map (fun _ => 0) gshape).

Lemma nth_starts : forall q j, j < length gshape -> nth j (starts q) 0 = if j =? k then start_of n m q else 0.
Proof.
  intros q j Hj. unfold starts. rewrite set_nth_imap, map_zero_imap, imap_imap.
  destruct (nth_error gshape j) as [d|] eqn:E; [|apply nth_error_None in E; lia].
  apply nth_error_nth. rewrite nth_error_imap, E. reflexivity.
Qed.
Lemma nth_part_shape : forall q j d, q < m -> nth_error gshape j = Some d ->
  nth j (shp (locals q)) 0 = if j =? k then part_of n m q else d.
Proof.
  intros q j d Hq Hj. destruct (Hl q Hq) as [-> _]. apply nth_error_nth.
  rewrite nth_error_set_nth, Hj. reflexivity.
Qed.
Lemma len_part_shape : forall q, q < m -> length (shp (locals q)) = length gshape.
Proof. intros q Hq. destruct (Hl q Hq) as [-> _]. apply length_set_nth. Qed.

Lemma part_end : forall q, q < m -> start_of n m q + part_of n m q <= n.
Proof.
  intros q Hq. rewrite <- start_of_S. pose proof (start_of_mono n m (S q) m ltac:(lia)).
  rewrite start_of_m in * by lia. lia.
Qed.

(** One piece put in its place. *)
Lemma place : forall q g, q < m -> shp g = gshape ->
  exists g', assign g (section (starts q) (shp (locals q))) (locals q) = Ok g' /\ shp g' = gshape /\
  forall idx x, InShape idx gshape -> nth_error idx k = Some x ->
    elt g' idx = if (start_of n m q <=? x) && (x <? start_of n m (S q)) then Some (G idx) else elt g idx.
Proof.
  intros q g Hq Hg. unfold assign. rewrite shape_eqb_true.
  2:{ rewrite Hg. apply nth_error_ext. intro j. rewrite nth_error_imap.
      destruct (nth_error gshape j) as [d|] eqn:E.
      - cbn [option_map]. assert (Hj : j < length gshape) by (apply nth_error_Some; congruence).
        unfold section. cbn [rlen]. rewrite nth_starts by assumption. rewrite (nth_part_shape q j d Hq E).
        destruct (Hl q Hq) as [-> _]. rewrite nth_error_set_nth, E. cbn [option_map]. f_equal. fold n.
        pose proof (part_end q Hq).
        destruct (Nat.eqb_spec j k) as [->|]; [|lia].
        assert (d = n) as -> by (unfold n; now rewrite (nth_error_nth _ _ 0 E)). lia.
      - cbn. symmetry. apply nth_error_None. rewrite len_part_shape by assumption. now apply nth_error_None. }
  eexists. split; [reflexivity|]. split; [exact Hg|]. cbn [elt]. intros idx x Hi Hx.
  destruct ((start_of n m q <=? x) && (x <? start_of n m (S q))) eqn:EX.
  - apply andb_prop in EX as [E1 E2]. apply Nat.leb_le in E1. apply Nat.ltb_lt in E2.
    apply inshape_iff in Hi as [Li Hi].
    assert (EB : in_box (section (starts q) (shp (locals q))) idx = true).
    { apply in_box_iff. intros j y Hy. assert (Hj : j < length gshape) by (rewrite <- Li; apply nth_error_Some; congruence).
      destruct (nth_error gshape j) as [d|] eqn:Ed; [|apply nth_error_None in Ed; lia].
      unfold section. cbn [in_range]. rewrite nth_starts by assumption. rewrite (nth_part_shape q j d Hq Ed).
      specialize (Hi j y d Hy Ed). rewrite start_of_S in E2.
      apply andb_true_intro. rewrite Nat.leb_le, Nat.ltb_lt. destruct (Nat.eqb_spec j k) as [->|]; [|lia].
      assert (y = x) as -> by congruence. lia. }
    rewrite EB. destruct (Hl q Hq) as [P1 P2].
    assert (J : imap (fun j y => y - rstart (section (starts q) (shp (locals q)) j)) idx
              = imap (fun j y => if j =? k then y - start_of n m q else y) idx).
    { apply imap_ext_in. intros j y Hy. unfold section. cbn [rstart].
      rewrite nth_starts by (rewrite <- Li; apply nth_error_Some; congruence). destruct (j =? k); lia. }
    rewrite J, P2.
    + f_equal. f_equal. fold n. rewrite shift_imap, imap_imap. apply imap_id. intros j y Hy.
      destruct (Nat.eqb_spec j k) as [->|]; auto. assert (y = x) as -> by congruence. lia.
    + rewrite P1. apply inshape_iff. rewrite length_imap, length_set_nth. split; [assumption|].
      intros j y d Hy Hd. rewrite nth_error_imap in Hy. rewrite nth_error_set_nth in Hd.
      destruct (nth_error gshape j) as [g0|] eqn:Eg; [|discriminate]. cbn in Hd. injection Hd as <-.
      destruct (nth_error idx j) as [z|] eqn:Ez; [|discriminate]. cbn in Hy. injection Hy as <-.
      destruct (Nat.eqb_spec j k) as [->|]; [|eapply Hi; eauto].
      assert (z = x) as -> by congruence. fold n. rewrite start_of_S in E2. lia.
  - destruct (in_box (section (starts q) (shp (locals q))) idx) eqn:EB; [|reflexivity]. exfalso.
    rewrite in_box_iff in EB. specialize (EB k x Hx). unfold section in EB. cbn [in_range] in EB.
    rewrite nth_starts in EB by assumption. rewrite (nth_part_shape q k n Hq (nth_error_nth' _ _ Hk)) in EB.
    rewrite Nat.eqb_refl in EB. rewrite start_of_S in EX. congruence.
Qed.

Lemma gathered : forall g, shp g = gshape ->
  exists g', gather_local m locals starts g = Ok g' /\ IsWhole G gshape g'.
Proof.
  intros g Hg. unfold gather_local. replace (m =? 1) with false by (symmetry; apply Nat.eqb_neq; lia).
  cbv zeta. rewrite fold_left_filter.
  match goal with |- exists g', fold_left ?F _ _ = _ /\ _ => set (f := F) end.
  assert (L : forall j, j <= m -> exists g', fold_left f (seq 0 j) (Ok g) = Ok g' /\ shp g' = gshape /\
    forall idx x, InShape idx gshape -> nth_error idx k = Some x -> x < start_of n m j -> elt g' idx = Some (G idx)).
  { induction j as [|j IH]; intro Hj.
    - exists g. split; [reflexivity|]. split; [assumption|]. intros. rewrite start_of_0 in *. lia.
    - destruct IH as (g' & E & Hs & Hv); [lia|]. rewrite seq_S, fold_left_app, E. cbn [fold_left plus]. unfold f at 1.
      destruct (forallb (Nat.ltb 0) (shp (locals j))) eqn:EN.
      + cbn [rbind]. destruct (place j g' ltac:(lia) Hs) as (g2 & E2 & Hs2 & Hv2). exists g2.
        split; [assumption|]. split; [assumption|]. intros idx x Hi Hx Lx. rewrite (Hv2 idx x Hi Hx).
        destruct ((start_of n m j <=? x) && (x <? start_of n m (S j))) eqn:EX; [reflexivity|].
        eapply Hv; eauto. destruct (Nat.lt_ge_cases x (start_of n m j)); [assumption|].
        rewrite (proj2 (Nat.leb_le _ _)), (proj2 (Nat.ltb_lt _ _)) in EX by lia. discriminate.
      + exists g'. split; [reflexivity|]. split; [assumption|]. intros idx x Hi Hx Lx.
        eapply Hv; eauto. destruct (Nat.lt_ge_cases x (start_of n m j)); [assumption|]. exfalso.
        assert (T : forallb (Nat.ltb 0) (shp (locals j)) = true); [|congruence].
        apply forallb_forall. intros d Hd. apply In_nth_error in Hd as [i Hd].
        destruct (nth_error gshape i) as [d0|] eqn:Ed.
        * pose proof (nth_part_shape j i d0 ltac:(lia) Ed) as Hn. rewrite (nth_error_nth _ _ 0 Hd) in Hn. subst d.
          apply Nat.ltb_lt. destruct (Nat.eqb_spec i k) as [->|]; [rewrite start_of_S in Lx; lia|].
          destruct (inshape_lt idx gshape i d0 Hi Ed) as (y & _ & Hy). lia.
        * exfalso. apply nth_error_None in Ed. rewrite <- (len_part_shape j) in Ed by lia.
          assert (i < length (shp (locals j))) by (apply nth_error_Some; congruence). lia. }
  destruct (L m ltac:(lia)) as (g' & E & Hs & Hv). exists g'. split; [exact E|]. split; [exact Hs|]. intros idx Hi.
  destruct (inshape_lt idx gshape k n Hi) as [x [Hx Lx]]; [apply nth_error_nth'; auto|].
  eapply Hv; eauto. rewrite start_of_m by lia. exact Lx.
Qed.

Theorem to_common : forall zero crank, crank < m ->
  exists arr, distributed_to_common zero gshape m k locals (start_of n m) crank = Ok arr /\ IsWhole G gshape arr.
Proof.
  intros zero crank Hc. unfold distributed_to_common. cbv zeta.
  change (fun q => set_nth k (start_of n m q) (map (fun _ => 0) gshape)) with starts.
  replace (seq 0 m) with (seq 0 crank ++ crank :: seq (S crank) (m - S crank)).
  2:{ replace m with (crank + S (m - S crank)) at 2 by lia. rewrite seq_app. reflexivity. }
  rewrite fold_left_app. cbn [fold_left].
  assert (N1 : (m =? 1) = false) by (apply Nat.eqb_neq; lia).
  rewrite N1.
  assert (SK : forall l g, ~ In crank l -> fold_left (fun acc rank => rbind acc (fun g0 =>
       if rank =? crank then gather_local m locals starts g0 else Ok g0)) l (Ok g) = Ok g).
  { induction l as [|x l IH]; intros g Hi; [reflexivity|]. cbn [fold_left rbind].
    replace (x =? crank) with false by (symmetry; apply Nat.eqb_neq; intros ->; apply Hi; now left).
    apply IH. intro H. apply Hi. now right. }
  rewrite SK by (rewrite in_seq; lia). cbn [rbind]. rewrite Nat.eqb_refl.
  destruct (gathered (mknd gshape (fun _ => Some zero)) eq_refl) as (g' & -> & W).
  rewrite SK by (rewrite in_seq; lia). eauto.
Qed.
End Back.
