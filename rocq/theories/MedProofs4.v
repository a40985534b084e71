(** Histories, tree height, the public functions, the quantile. *)
From Coq Require Import List ZArith Bool Arith Sorted Permutation Lia.
From Verif Require Import PyBase MedModel MedSpec MedProofs MedProofs2 MedProofs3 QselModel QselProofs QselProofs2.
Import ListNotations.
Open Scope Z_scope.

(** *** Histories *)
Lemma drop_one_perm : forall x l, In x l -> Permutation l (x :: drop_one x l).
Proof.
  induction l as [|y l IH]; intro H; [destruct H|]. cbn [drop_one].
  change ((fst y =? fst x) && (snd y =? snd x)) with (deq y x).
  destruct (deq y x) eqn:E1; [apply deq_true in E1 as ->; apply Permutation_refl|].
  destruct H as [->|H]; [now rewrite deq_refl in E1|].
  eapply Permutation_trans; [apply perm_skip, IH, H|apply perm_swap].
Qed.
Lemma drop_one_absent : forall x l, ~ In x l -> drop_one x l = l.
Proof.
  induction l as [|y l IH]; intro H; [reflexivity|]. cbn [drop_one].
  change ((fst y =? fst x) && (snd y =? snd x)) with (deq y x).
  destruct (deq y x) eqn:E1; [apply deq_true in E1 as ->; exfalso; apply H; now left|].
  f_equal. apply IH. intro Hi. apply H. now right.
Qed.

Lemma history_ok : forall ops t acc, avl t -> ordered (inorder t) -> Permutation (inorder t) acc ->
  let t' := fold_left step ops t in
  avl t' /\ ordered (inorder t') /\ Permutation (inorder t') (contents acc ops).
Proof.
  induction ops as [|o ops IH]; intros t acc Ha Ho Hp; cbn [fold_left contents]; [auto|].
  destruct o as [x|x]; cbn [step].
  - destruct (insert_spec x t Ha) as (I1 & _ & I2 & I3). apply IH; auto.
    eapply Permutation_trans; [exact I2|]. now apply perm_skip.
  - pose proof (remove_spec x t Ha Ho) as R. destruct (remove x t) as [t1|].
    + destruct R as (R1 & R2 & R3 & _). apply IH; auto.
      apply Permutation_cons_inv with (a := x).
      eapply Permutation_trans; [exact R2|]. eapply Permutation_trans; [exact Hp|].
      apply drop_one_perm. eapply Permutation_in; [exact Hp|].
      eapply Permutation_in; [exact R2|]. now left.
    + rewrite drop_one_absent; [now apply IH|].
      intro Hi. apply R. eapply Permutation_in; [apply Permutation_sym, Hp|exact Hi].
Qed.

Lemma remove_found : forall x t, avl t -> ordered (inorder t) ->
  (exists t', remove x t = Some t') <-> In x (inorder t).
Proof.
  intros x t Ha Ho. pose proof (remove_spec x t Ha Ho) as R. destruct (remove x t) as [t'|].
  - destruct R as (_ & R & _). split; [|eauto]. intros _. eapply Permutation_in; [exact R|]. now left.
  - split; [intros (t' & H); discriminate|]. tauto.
Qed.

(** *** Height *)
Lemma avl_height_log : forall t, avl t ->
  2 ^ height t <= (Z.of_nat (length (inorder t)) + 1) ^ 2.
Proof.
  induction t as [|l IHl d r IHr a b c e]; intro H; [cbn; lia|].
  apply avl_is_node in H as (_ & Hl & Hr & Hd).
  specialize (IHl Hl). specialize (IHr Hr).
  cbn [height inorder]. rewrite app_length. cbn [length].
  set (nl := Z.of_nat (length (inorder l)) + 1) in *.
  set (nr := Z.of_nat (length (inorder r)) + 1) in *.
  replace (Z.of_nat (length (inorder l) + S (length (inorder r))) + 1) with (nl + nr) by (subst nl nr; lia).
  assert (0 < nl) by (subst nl; lia). assert (0 < nr) by (subst nr; lia).
  pose proof (height_nonneg l). pose proof (height_nonneg r).
  clearbody nl nr. rewrite Z.pow_2_r in *.
  assert (Hmn : exists hm hs, (2 ^ hm <= nl * nl /\ 2 ^ hs <= nr * nr \/ 2 ^ hs <= nl * nl /\ 2 ^ hm <= nr * nr) /\
     hm = Z.max (height l) (height r) /\ (hs = hm \/ hs = hm - 1) /\ 0 <= hs /\ 0 <= hm).
  { destruct (Z_le_gt_dec (height r) (height l)).
    - exists (height l), (height r). split; [left; auto|]. lia.
    - exists (height r), (height l). split; [right; auto|]. lia. }
  destruct Hmn as (hm & hs & Hcase & -> & Hs & Hs0 & Hm0).
  set (hm := Z.max (height l) (height r)) in *. clearbody hm. clear IHl IHr.
  rewrite Z.pow_add_r by lia.
  assert (P1 : 0 < 2 ^ hs) by (apply Z.pow_pos_nonneg; lia).
  assert (P2 : 2 ^ hm <= 2 * 2 ^ hs).
  { destruct Hs as [->|Hs]; [lia|]. replace hm with (hs + 1) by lia. rewrite Z.pow_add_r by lia. lia. }
  assert (P3 : 2 ^ hs <= 2 ^ hm) by (apply Z.pow_le_mono_r; lia).
  change (2 ^ 1) with 2. set (A := 2 ^ hm) in *. set (B := 2 ^ hs) in *. clearbody A B.
  assert (HB : B <= nl * nr).
  { destruct (Z_le_gt_dec B (nl * nr)) as [|G]; [assumption|].
    assert (B * B <= (nl * nl) * (nr * nr)).
    { apply Z.mul_le_mono_nonneg; destruct Hcase as [[? ?]|[? ?]]; lia. }
    nia. }
  destruct Hcase as [[HB1 HB2]|[HB1 HB2]]; nia.
Qed.

(** *** Windows *)
Lemma mwm_rows_any : forall rows half width nan m, rows <> [] ->
  Forall (fun r => length r = width) rows -> Forall nonneg rows ->
  (m = MSplit \/ forall i, (i < length rows)%nat -> ~ window_tie (weighty (window_rows rows half i))) ->
  exists vs, mwm_rows rows half width nan m = Ok vs /\ length vs = length rows /\
    forall i v, nth_error vs i = Some v ->
      cell_ok (if (i =? 0)%nat then false else nan) m (window_rows rows half i) v.
Proof.
  intros rows half width nan m H1 H2 H3 [->|H4].
  - apply (mwm_rows_split rows half width nan); auto.
  - apply (mwm_rows_no_tie rows half width nan m); auto.
Qed.

Lemma lslice_map : forall A B (f : A -> B) a b l, lslice a b (map f l) = map f (lslice a b l).
Proof. intros. unfold lslice. now rewrite skipn_map, firstn_map. Qed.
Lemma concat_singletons : forall A (l : list A), concat (map (fun x => [x]) l) = l.
Proof. induction l as [|x l IH]; cbn; [reflexivity|now rewrite IH]. Qed.

Lemma window_rows_1 : forall data half i,
  window_rows (map (fun x => [x]) data) half i = window1 data half i.
Proof. intros. unfold window_rows, window1. now rewrite lslice_map, concat_singletons. Qed.

Lemma mwm_1D_ok : forall data size m, data <> [] -> nonneg data ->
  (m = MSplit \/ forall i, (i < length data)%nat -> ~ window_tie (weighty (window1 data (size / 2) i))) ->
  exists vs, mwm_1D data size m = Ok vs /\ length vs = length data /\
    forall i v, nth_error vs i = Some v ->
      cell_ok (negb (i =? 0)%nat) m (window1 data (size / 2) i) v.
Proof.
  intros data size m Hne Hn Hm. unfold mwm_1D. destruct data as [|x0 data0] eqn:Ed; [congruence|].
  rewrite <- Ed in *. clear Ed x0 data0.
  destruct (mwm_rows_any (map (fun x => [x]) data) (size / 2) 1 true m) as (vs & E1 & E2 & E3).
  - destruct data; [congruence|discriminate].
  - apply Forall_forall. intros r Hr. apply in_map_iff in Hr as (x & <- & _). reflexivity.
  - apply Forall_forall. intros r Hr. apply in_map_iff in Hr as (x & <- & Hx).
    constructor; [|constructor]. unfold nonneg in Hn. rewrite Forall_forall in Hn. now apply Hn.
  - destruct Hm as [Hm|Hm]; [now left|right]. intros i Hi. rewrite map_length in Hi.
    rewrite window_rows_1. now apply Hm.
  - exists vs. split; [exact E1|]. split; [now rewrite map_length in E2|].
    intros i v Hv. specialize (E3 i v Hv). rewrite window_rows_1 in E3.
    destruct (i =? 0)%nat; exact E3.
Qed.

(** A single element is its own median. *)
Lemma median_single : forall v w m, 0 < w -> median_answer [(v, w)] m (v, 1).
Proof.
  intros v w m Hw.
  assert (Hv : quantile_value [(v, w)] (weight_total [(v, w)]) 2 v).
  { split; [exists w; split; [now left|exact Hw]|].
    unfold weight_below, weight_upto, weight_total; cbn [sum_weights fst snd].
    rewrite Z.ltb_irrefl, Z.leb_refl. lia. }
  assert (Hu : forall u, quantile_value [(v, w)] (weight_total [(v, w)]) 2 u -> u = v).
  { intros u ((w' & [H|[]] & _) & _). congruence. }
  assert (Lo : quantile_lower [(v, w)] (weight_total [(v, w)]) 2 v)
    by (split; [exact Hv|intros u H; rewrite (Hu u H); lia]).
  assert (Hi : quantile_higher [(v, w)] (weight_total [(v, w)]) 2 v)
    by (split; [exact Hv|intros u H; rewrite (Hu u H); lia]).
  split; [lia|]. destruct m.
  - exists v, v. split; [exact Lo|]. split; [exact Hi|lia].
  - exists v. split; [exact Lo|lia].
  - exists v. split; [exact Hi|lia].
Qed.

Lemma window1_zero : forall data i x, nth_error data i = Some x -> window1 data 0 i = [x].
Proof.
  intros data i x H. unfold window1. rewrite Nat.sub_0_r, Nat.add_0_r, lslice_snoc by lia.
  now rewrite lslice_nil, H.
Qed.

Theorem moving_1d_ok : forall data size m, data <> [] -> nonneg data -> Nat.odd size = true ->
  (m = MSplit \/ forall i, (i < length data)%nat -> ~ window_tie (weighty (window1 data (size / 2) i))) ->
  exists vs, moving_1d data size m = Ok vs /\ length vs = length data /\
    forall i v, nth_error vs i = Some v ->
      cell_ok (negb (i =? 0)%nat && negb (size =? 1)%nat) m (window1 data (size / 2) i) v.
Proof.
  intros data size m Hne Hn Hodd Hm. unfold moving_1d.
  rewrite <- Nat.negb_odd, Hodd. cbn [negb].
  destruct (Nat.eqb_spec size 0) as [->|H0]; [discriminate|].
  destruct (Nat.eqb_spec size 1) as [->|H1].
  - eexists. split; [reflexivity|]. split; [apply map_length|].
    intros i v Hv. rewrite nth_error_map in Hv.
    change (nth_error data i) with (@nth_error datum data i) in Hv.
    destruct (@nth_error datum data i) as [x|] eqn:Ex; cbn [option_map] in Hv; [|discriminate Hv]. assert (Hv' : v = if snd x =? 0 then Some (0, 1) else Some (fst x, 1)) by congruence. clear Hv. subst v.
    change (Nat.div 1 2) with 0%nat. rewrite (window1_zero _ _ _ Ex).
    rewrite andb_false_r. unfold cell_ok, weighty. cbn [filter].
    destruct (Z.eqb_spec (snd x) 0); cbn [negb].
    + split; [intro H; exfalso; apply H; reflexivity|reflexivity].
    + split; [|intro H; inversion H]. intros _. exists (fst x, 1). split; [reflexivity|].
      destruct x as [v w]. cbn in *. apply median_single.
      unfold nonneg in Hn. rewrite Forall_forall in Hn. apply nth_error_In in Ex.
      specialize (Hn _ Ex). cbn in Hn. lia.
  - destruct (mwm_1D_ok data size m Hne Hn Hm) as (vs & A & B & C). exists vs.
    split; [exact A|]. split; [exact B|]. intros i v Hv. cbn [negb]. rewrite andb_true_r. now apply C.
Qed.

(** *** Two dimensions *)
Lemma lslice_clip : forall A (l : list A) a b, lslice a (Nat.min b (length l)) l = lslice a b l.
Proof.
  intros A l a b. unfold lslice. destruct (Nat.le_gt_cases b (length l)).
  - now rewrite Nat.min_l by lia.
  - rewrite Nat.min_r by lia.
    rewrite !firstn_all2; [reflexivity| |]; rewrite skipn_length; lia.
Qed.

Lemma res_map_ok : forall A B (f : A -> res B) (Pr : A -> B -> Prop) l,
  (forall x, In x l -> exists y, f x = Ok y /\ Pr x y) ->
  exists ys, res_map f l = Ok ys /\ length ys = length l /\
    forall k y, nth_error ys k = Some y -> exists x, nth_error l k = Some x /\ Pr x y.
Proof.
  intros A B f Pr. induction l as [|x l IH]; intro H; cbn [res_map].
  - exists []. split; [reflexivity|]. split; [reflexivity|]. intros [|k] y Hk; discriminate.
  - destruct (H x (or_introl eq_refl)) as (y & E1 & P1). rewrite E1. cbn [rbind].
    destruct IH as (ys & E2 & L2 & P2); [intros; apply H; now right|]. rewrite E2. cbn [rbind].
    exists (y :: ys). split; [reflexivity|]. split; [cbn; lia|].
    intros [|k] z Hk; cbn [nth_error] in *.
    + injection Hk as <-. exists x. auto.
    + now apply P2.
Qed.

Lemma nth_error_seq : forall n k x, nth_error (seq 0 n) k = Some x -> x = k /\ (k < n)%nat.
Proof.
  intros n k x H. assert (Hk : (k < n)%nat).
  { rewrite <- (seq_length n 0). apply nth_error_Some. congruence. }
  split; [|exact Hk]. rewrite (nth_error_nth' _ 0%nat) in H by (now rewrite seq_length).
  rewrite seq_nth in H by exact Hk. cbn in H. congruence.
Qed.

Lemma mwm_2D_ok : forall data len_x sy sx m, data <> [] -> rect data len_x -> Forall nonneg data ->
  (m = MSplit \/ forall y x, (y < length data)%nat -> (x < len_x)%nat ->
     ~ window_tie (weighty (window2 data (sy / 2) (sx / 2) y x))) ->
  exists cols, mwm_2D data len_x sy sx m = Ok cols /\ length cols = len_x /\
    forall x col, nth_error cols x = Some col -> length col = length data /\
      forall y v, nth_error col y = Some v -> cell_ok false m (window2 data (sy / 2) (sx / 2) y x) v.
Proof.
  intros data len_x sy sx m Hne Hr Hn Hm. unfold mwm_2D.
  destruct (res_map_ok _ _ (fun col => mwm_2D_col data len_x sy sx col m)
    (fun x col => (x < len_x)%nat -> length col = length data /\
      forall y v, nth_error col y = Some v -> cell_ok false m (window2 data (sy / 2) (sx / 2) y x) v)
    (seq 0 len_x)) as (cols & E1 & E2 & E3).
  - intros x Hx. apply in_seq in Hx. unfold mwm_2D_col.
    set (up := (x - sx / 2)%nat). set (lo := Nat.min (x + sx / 2 + 1) len_x).
    assert (Hsl : forall row, In row data -> lslice up lo row = lslice (x - sx / 2) (x + sx / 2 + 1) row).
    { intros row Hin. unfold rect in Hr. rewrite Forall_forall in Hr. specialize (Hr row Hin).
      subst lo up. rewrite <- Hr. apply lslice_clip. }
    assert (Hwin : forall y, window_rows (map (lslice up lo) data) (sy / 2) y = window2 data (sy / 2) (sx / 2) y x).
    { intro y. unfold window_rows, window2. rewrite lslice_map. f_equal. apply map_ext_in.
      intros row Hin. apply Hsl. eapply in_lslice; eauto. }
    destruct (mwm_rows_any (map (lslice up lo) data) (sy / 2) (lo - up) false m) as (vs & A1 & A2 & A3).
    + destruct data; [congruence|discriminate].
    + apply Forall_forall. intros r Hin. apply in_map_iff in Hin as (row & <- & Hin).
      rewrite length_lslice. unfold rect in Hr. rewrite Forall_forall in Hr. rewrite (Hr row Hin). subst lo up. lia.
    + apply Forall_forall. intros r Hin. apply in_map_iff in Hin as (row & <- & Hin).
      apply nonneg_lslice. rewrite Forall_forall in Hn. now apply Hn.
    + destruct Hm as [Hm|Hm]; [now left|right]. intros i Hi. rewrite map_length in Hi.
      rewrite Hwin. apply Hm; lia.
    + exists vs. split; [exact A1|]. intros _. split; [now rewrite map_length in A2|].
      intros y v Hv. specialize (A3 y v Hv). rewrite Hwin in A3. destruct (y =? 0)%nat; exact A3.
  - exists cols. split; [exact E1|]. split; [now rewrite seq_length in E2|].
    intros x col Hx. destruct (E3 x col Hx) as (x' & Hx' & Hp). apply nth_error_seq in Hx' as [-> Hlt].
    now apply Hp.
Qed.

(** Transposed windows hold the same elements. *)
Lemma lslice_index : forall A (d : A) (l : list A) a b,
  lslice a b l = map (fun k => nth k l d) (seq a (Nat.min b (length l) - a)).
Proof.
  intros A d l a b. rewrite <- (lslice_clip _ l a b). set (b' := Nat.min b (length l)).
  assert (Hb : (b' <= length l)%nat) by (subst b'; lia). clearbody b'. clear b.
  destruct (Nat.le_gt_cases a b') as [Hab|Hab].
  2:{ replace (b' - a)%nat with 0%nat by lia. unfold lslice. replace (b' - a)%nat with 0%nat by lia. reflexivity. }
  replace b' with (a + (b' - a))%nat by lia. replace (a + (b' - a) - a)%nat with (b' - a)%nat by lia.
  assert (Hk : (a + (b' - a) <= length l)%nat) by lia. revert Hk. generalize (b' - a)%nat. clear Hab Hb b'.
  induction n as [|n IH]; intro Hk.
  - rewrite Nat.add_0_r. apply lslice_nil.
  - replace (a + S n)%nat with (a + n + 1)%nat by lia. rewrite lslice_snoc by lia.
    rewrite IH by lia. rewrite seq_S, map_app. cbn [map].
    rewrite (nth_error_nth' l d) by lia. reflexivity.
Qed.

Lemma flat_map_cons : forall A B (g : A -> B) (h : A -> list B) l,
  Permutation (flat_map (fun y => g y :: h y) l) (map g l ++ flat_map h l).
Proof.
  intros A B g h. induction l as [|y l IH]; cbn; [constructor|]. apply perm_skip.
  eapply Permutation_trans; [apply Permutation_app_head, IH|].
  rewrite !app_assoc. apply Permutation_app_tail, Permutation_app_comm.
Qed.
Lemma flat_map_nil : forall A B (l : list A), flat_map (fun _ => @nil B) l = [].
Proof. induction l; cbn; auto. Qed.
Lemma flat_map_swap : forall A B C (f : A -> B -> C) xs ys,
  Permutation (flat_map (fun x => map (f x) ys) xs) (flat_map (fun y => map (fun x => f x y) xs) ys).
Proof.
  intros A B C f. induction xs as [|x xs IH]; intro ys; cbn [flat_map map].
  - rewrite flat_map_nil. constructor.
  - eapply Permutation_trans; [apply Permutation_app_head, IH|].
    apply Permutation_sym, flat_map_cons.
Qed.

Lemma nth_transpose : forall A (d : A) n a x, (x < n)%nat ->
  nth x (transpose d n a) [] = map (fun row => nth x row d) a.
Proof.
  intros A d n a x Hx. unfold transpose.
  rewrite (nth_indep _ [] (map (fun row => nth 0%nat row d) a)) by (now rewrite map_length, seq_length).
  rewrite (map_nth (fun k => map (fun row => nth k row d) a)). now rewrite seq_nth.
Qed.
Lemma length_transpose : forall A (d : A) n a, length (transpose d n a) = n.
Proof. intros. unfold transpose. now rewrite map_length, seq_length. Qed.

Lemma window2_index : forall data len_x hy hx y x, rect data len_x ->
  window2 data hy hx y x =
  flat_map (fun y' => map (fun x' => nth x' (nth y' data []) (0, 0))
                          (seq (x - hx) (Nat.min (x + hx + 1) len_x - (x - hx))))
           (seq (y - hy) (Nat.min (y + hy + 1) (length data) - (y - hy))).
Proof.
  intros data len_x hy hx y x Hr. unfold window2. rewrite (lslice_index _ [] data).
  rewrite map_map, flat_map_concat_map. f_equal. apply map_ext_in. intros y' Hy'. apply in_seq in Hy'.
  rewrite (lslice_index datum (0, 0)). unfold rect in Hr. rewrite Forall_forall in Hr.
  assert (Hl : length (nth y' data []) = len_x) by (apply Hr, nth_In; lia).
  unfold datum in *. rewrite Hl. reflexivity.
Qed.

Lemma rect_transpose : forall data len_x, rect (transpose (0, 0) len_x data) (length data).
Proof.
  intros. apply Forall_forall. intros r Hr. unfold transpose in Hr.
  apply in_map_iff in Hr as (k & <- & _). apply map_length.
Qed.

Lemma window2_transpose : forall data len_x hy hx y x, rect data len_x ->
  Permutation (window2 (transpose (0, 0) len_x data) hx hy x y) (window2 data hy hx y x).
Proof.
  intros data len_x hy hx y x Hr.
  rewrite (window2_index _ _ _ _ _ _ (rect_transpose data len_x)), (window2_index _ _ _ _ _ _ Hr).
  rewrite length_transpose.
  eapply Permutation_trans; [|apply flat_map_swap].
  match goal with |- Permutation ?a ?b => assert (a = b) as ->; [|apply Permutation_refl] end.
  rewrite !flat_map_concat_map. f_equal. apply map_ext_in. intros x' Hx'. apply in_seq in Hx'.
  apply map_ext_in. intros y' Hy'. apply in_seq in Hy'.
  rewrite nth_transpose by lia.
  rewrite (nth_indep _ (0, 0) (nth x' [] (0, 0))) by (rewrite map_length; lia).
  apply (map_nth (fun row => nth x' row (0, 0))).
Qed.

Lemma weighty_perm : forall a b, Permutation a b -> Permutation (weighty a) (weighty b).
Proof.
  intros a b H. unfold weighty. induction H; cbn [filter].
  - constructor.
  - destruct (negb (snd x =? 0)); [now constructor|assumption].
  - destruct (negb (snd y =? 0)), (negb (snd x =? 0)); try apply Permutation_refl. apply perm_swap.
  - eapply Permutation_trans; eauto.
Qed.
Lemma cell_ok_perm : forall nan m a b v, Permutation a b -> cell_ok nan m a v -> cell_ok nan m b v.
Proof.
  intros nan m a b v H [H1 H2]. apply weighty_perm in H. split.
  - intro Hne. destruct H1 as (ans & E1 & E2).
    + intro E0. apply Hne. rewrite E0 in H. now apply Permutation_nil in H.
    + exists ans. split; [exact E1|]. eapply median_answer_perm; eauto.
  - intro E0. apply H2. rewrite E0 in H. now apply Permutation_sym, Permutation_nil in H.
Qed.
Lemma window_tie_perm : forall a b, Permutation a b -> window_tie a -> window_tie b.
Proof.
  intros a b H (P & S & H1 & H2 & H3). exists P, S. split; [|split; [|exact H3]].
  - eapply Permutation_trans; [apply Permutation_sym|]; eauto.
  - rewrite H2. unfold weight_total. now apply sum_weights_perm.
Qed.

Lemma nonneg_transpose : forall data len_x, rect data len_x -> Forall nonneg data ->
  Forall nonneg (transpose (0, 0) len_x data).
Proof.
  intros data len_x Hr Hn. apply Forall_forall. intros r Hin. unfold transpose in Hin.
  apply in_map_iff in Hin as (k & <- & Hk). apply in_seq in Hk.
  apply Forall_forall. intros z Hz. apply in_map_iff in Hz as (row & <- & Hrow).
  rewrite Forall_forall in Hn. specialize (Hn row Hrow). unfold nonneg in Hn. rewrite Forall_forall in Hn.
  apply Hn. apply nth_In. unfold rect in Hr. rewrite Forall_forall in Hr.
  specialize (Hr row Hrow). unfold datum in *. lia.
Qed.

Theorem moving_2d_ok : forall data len_x sy sx m, data <> [] -> (0 < len_x)%nat ->
  rect data len_x -> Forall nonneg data ->
  Nat.odd sy = true -> Nat.odd sx = true ->
  (m = MSplit \/ forall y x, (y < length data)%nat -> (x < len_x)%nat ->
     ~ window_tie (weighty (window2 data (sy / 2) (sx / 2) y x))) ->
  exists rows, moving_2d data len_x sy sx m = Ok rows /\ length rows = length data /\
    forall y row, nth_error rows y = Some row -> length row = len_x /\
      forall x v, nth_error row x = Some v -> cell_ok false m (window2 data (sy / 2) (sx / 2) y x) v.
Proof.
  intros data len_x sy sx m Hne Hx0 Hr Hn Hoy Hox Hm. unfold moving_2d.
  rewrite <- !Nat.negb_odd, Hoy, Hox. cbn [negb orb].
  destruct (Nat.ltb_spec sy sx) as [Hlt|Hge].
  - destruct (mwm_2D_ok (transpose (0, 0) len_x data) (length data) sx sy m) as (cols & E1 & E2 & E3).
    + intro H0. apply (f_equal (@length _)) in H0. rewrite length_transpose in H0. cbn in H0. lia.
    + apply rect_transpose.
    + now apply nonneg_transpose.
    + destruct Hm as [Hm|Hm]; [now left|right]. intros x y Hx Hy. rewrite length_transpose in Hx.
      intro Htie. apply (Hm y x Hy Hx). eapply window_tie_perm; [|exact Htie].
      apply weighty_perm, window2_transpose, Hr.
    + exists cols. split; [exact E1|]. split; [exact E2|]. intros y row Hy.
      destruct (E3 y row Hy) as [L1 O1]. rewrite length_transpose in L1. split; [exact L1|].
      intros x v Hv. eapply cell_ok_perm; [apply window2_transpose; exact Hr|]. now apply O1.
  - destruct (mwm_2D_ok data len_x sy sx m Hne Hr Hn Hm) as (cols & E1 & E2 & E3).
    rewrite E1. cbn [rbind]. eexists. split; [reflexivity|]. split; [apply length_transpose|].
    intros y row Hy.
    assert (Hyl : (y < length data)%nat).
    { rewrite <- (length_transpose _ (@None (Z * Z)) (length data) cols). apply nth_error_Some. congruence. }
    unfold transpose in Hy. rewrite nth_error_map in Hy.
    destruct (nth_error (seq 0 (length data)) y) as [y'|] eqn:Ey; [|discriminate].
    apply nth_error_seq in Ey as [-> _]. cbn in Hy. injection Hy as <-.
    split; [now rewrite map_length|]. intros x v Hv. rewrite nth_error_map in Hv.
    destruct (nth_error cols x) as [col|] eqn:Ec; [|discriminate]. cbn in Hv. injection Hv as <-.
    destruct (E3 x col Ec) as [L1 O1]. apply O1. apply nth_error_nth'. lia.
Qed.

(** *** The quantile *)
Definition scale (c : Z) (l : list datum) : list datum := map (fun x => (fst x, c * snd x)) l.

Lemma sum_weights_scale : forall f c l, sum_weights f (scale c l) = c * sum_weights f l.
Proof.
  intros f c. induction l as [|x l IH]; cbn [scale map sum_weights]; [lia|].
  cbn [fst snd]. unfold scale in IH. rewrite IH. destruct (f (fst x)); lia.
Qed.

Lemma quantile_value_scale : forall l c n v, 0 < c ->
  quantile_value (scale c l) n 1 v <-> quantile_value l n c v.
Proof.
  intros l c n v Hc. unfold quantile_value, weight_below, weight_upto. rewrite !sum_weights_scale.
  assert (H : (exists w, In (v, w) (scale c l) /\ 0 < w) <-> (exists w, In (v, w) l /\ 0 < w)).
  { split; intros (w & H1 & H2).
    - unfold scale in H1. apply in_map_iff in H1 as ([v' w'] & E1 & H1). cbn in E1.
      injection E1 as -> <-. exists w'. split; [exact H1|]. nia.
    - exists (c * w). split; [|nia]. unfold scale. apply in_map_iff. exists (v, w). auto. }
  rewrite H. rewrite !Z.mul_1_l. tauto.
Qed.
Lemma quantile_answer_scale : forall l c n m ans, 0 < c ->
  quantile_answer (scale c l) n 1 m ans <-> quantile_answer l n c m ans.
Proof.
  intros l c n m [a b] Hc.
  assert (HL : forall v, quantile_lower (scale c l) n 1 v <-> quantile_lower l n c v).
  { intro v. unfold quantile_lower. rewrite quantile_value_scale by exact Hc.
    split; intros [H1 H2]; split; auto; intros u Hu; apply H2; now apply quantile_value_scale. }
  assert (HH : forall v, quantile_higher (scale c l) n 1 v <-> quantile_higher l n c v).
  { intro v. unfold quantile_higher. rewrite quantile_value_scale by exact Hc.
    split; intros [H1 H2]; split; auto; intros u Hu; apply H2; now apply quantile_value_scale. }
  unfold quantile_answer. destruct m.
  - split; intros (H0 & lo & hi & H1 & H2 & H3); (split; [exact H0|]); exists lo, hi;
      (split; [now apply HL|]); (split; [now apply HH|exact H3]).
  - split; intros (H0 & v & H1 & H2); (split; [exact H0|]); exists v; (split; [now apply HL|exact H2]).
  - split; intros (H0 & v & H1 & H2); (split; [exact H0|]); exists v; (split; [now apply HH|exact H2]).
Qed.

Lemma fold_weights : forall l a, fold_left Z.add (map snd l) a = a + weight_total l.
Proof.
  induction l as [|x l IH]; intro a; cbn [map fold_left]; [change (weight_total []) with 0; lia|].
  rewrite IH, weight_total_cons. lia.
Qed.
Lemma row_weights_effective : forall l, row_weights l = effective l.
Proof. intro l. unfold row_weights, effective. now rewrite fold_weights. Qed.

Lemma weight_total_ones : forall l : list datum,
  weight_total (map (fun x => (fst x, 1)) l) = Z.of_nat (length l).
Proof.
  induction l as [|x l IH]; cbn [map]; [reflexivity|]. rewrite weight_total_cons, IH. cbn [snd length]. lia.
Qed.
Lemma effective_facts : forall l, l <> [] -> nonneg l ->
  nonneg (effective l) /\ 0 < weight_total (effective l) /\ length (effective l) = length l.
Proof.
  intros l Hne Hn. unfold effective. destruct (Z.eqb_spec (weight_total l) 0) as [H0|H0].
  - split; [|split].
    + apply Forall_forall. intros x Hx. apply in_map_iff in Hx as (y & <- & _). cbn. lia.
    + rewrite weight_total_ones. destruct l; [congruence|cbn; lia].
    + apply map_length.
  - split; [exact Hn|]. split; [|reflexivity].
    pose proof (sum_weights_bounds (fun _ => true) l Hn). unfold weight_total in *. lia.
Qed.

Theorem quantile_ok : forall l qn qd m, l <> [] -> nonneg l -> 0 < qd -> 0 <= qn <= qd ->
  if ((length l =? 1)%nat && (qn =? qd))%bool then quantile l qn qd m = Err IndexError
  else exists ans, quantile l qn qd m = Ok ans /\
    ((m = MLower -> 0 < qn \/ positive (effective l)) ->
     quantile_answer (effective l) (qn * weight_total (effective l)) qd m ans).
Proof.
  intros l qn qd m Hne Hn Hqd Hq.
  destruct (effective_facts l Hne Hn) as (En & Ew & El).
  unfold quantile. destruct (Z.ltb_spec qn 0); [lia|]. destruct (Z.ltb_spec qd qn); [lia|]. cbn [orb].
  rewrite row_weights_effective, fold_weights, Z.add_0_l.
  change (map (fun x : Z * Z => (fst x, qd * snd x)) (effective l)) with (scale qd (effective l)).
  set (L := effective l) in *. clearbody L.
  assert (Sn : nonneg (scale qd L)).
  { apply Forall_forall. intros x Hx. apply in_map_iff in Hx as (y & <- & Hy). cbn.
    unfold nonneg in En. rewrite Forall_forall in En. specialize (En y Hy). nia. }
  assert (Sw : weight_total (scale qd L) = qd * weight_total L) by apply sum_weights_scale.
  assert (Sl : length (scale qd L) = length l) by (unfold scale; now rewrite map_length).
  destruct (Nat.eqb_spec (length l) 1) as [H1|H1]; cbn [andb].
  - (* one element *)
    destruct L as [|[v w] [|? ?]]; cbn in El; try lia. cbn [scale map fst snd] in *.
    rewrite weight_total_cons, weight_total_nil in *. cbn [snd] in *. rewrite Z.add_0_r in *.
    rewrite quickselect_one by nia.
    destruct (Z.eqb_spec qn qd) as [E0|E0].
    + subst qn. rewrite (proj2 (Z.eqb_eq (w * qd) (qd * w))) by lia. reflexivity.
    + rewrite (proj2 (Z.eqb_neq (w * qn) (qd * w))) by nia.
      exists (v, 1). split; [reflexivity|]. intros _.
      assert (Hv : quantile_value [(v, w)] (qn * w) qd v).
      { split; [exists w; split; [now left|lia]|].
        unfold weight_below, weight_upto; cbn [sum_weights fst snd]. rewrite Z.ltb_irrefl, Z.leb_refl. nia. }
      assert (Hu : forall u, quantile_value [(v, w)] (qn * w) qd u -> u = v).
      { intros u ((w' & [H2|[]] & _) & _). congruence. }
      split; [lia|]. destruct m.
      * exists v, v. split; [split; [exact Hv|]; intros u H2; rewrite (Hu u H2); lia|].
        split; [split; [exact Hv|]; intros u H2; rewrite (Hu u H2); lia|lia].
      * exists v. split; [split; [exact Hv|]; intros u H2; rewrite (Hu u H2); lia|lia].
      * exists v. split; [split; [exact Hv|]; intros u H2; rewrite (Hu u H2); lia|lia].
  - destruct (quickselect_ok (scale qd L) (weight_total L * qn) m) as (ans & E1 & A1); auto.
    + rewrite Sl. destruct l as [|? [|? ?]]; cbn in *; [congruence|lia|lia].
    + rewrite Sw. nia.
    + rewrite Sw. nia.
    + exists ans. split; [exact E1|]. intro Hml.
      apply quantile_answer_scale; [exact Hqd|]. rewrite (Z.mul_comm qn). apply A1.
      intro Hm. destruct (Hml Hm) as [Hp|Hp]; [left; nia|right].
      apply Forall_forall. intros x Hx. apply in_map_iff in Hx as (y & <- & Hy). cbn.
      unfold positive in Hp. rewrite Forall_forall in Hp. specialize (Hp y Hy). nia.
Qed.
