(** Proofs about the symmetries of moving weighted medians. *)
From Coq Require Import List ZArith Bool Arith Permutation Lia.
From Verif Require Import PyBase MedModel MedSpec MedProofs MedProofs2 MedProofs3 MedProofs4 MsySpec.
Import ListNotations.
Open Scope Z_scope.

Lemma sw_affine : forall c d k f l, sum_weights f (map (affine c d k) l) = k * sum_weights (fun u => f (c * u + d)) l.
Proof.
  intros c d k f l. induction l as [|x l IH]; [cbn; lia|]. cbn [map sum_weights]. rewrite IH. unfold affine. cbn [fst snd].
  destruct (f (c * fst x + d)); lia.
Qed.
Lemma sw_ext : forall f g l, (forall u, f u = g u) -> sum_weights f l = sum_weights g l.
Proof. intros f g l H. induction l as [|x l IH]; [reflexivity|]. cbn [sum_weights]. now rewrite IH, H. Qed.
Lemma sw_split : forall f l, sum_weights f l + sum_weights (fun u => negb (f u)) l = weight_total l.
Proof.
  intros f l. unfold weight_total. induction l as [|x l IH]; [reflexivity|]. cbn [sum_weights]. destruct (f (fst x)); cbn [negb]; lia.
Qed.
Lemma below_affine : forall c d k l v, c <> 0 -> weight_below (map (affine c d k) l) (c * v + d) =
  k * (if 0 <? c then weight_below l v else weight_total l - weight_upto l v).
Proof.
  intros c d k l v Hc. unfold weight_below at 1. rewrite sw_affine. f_equal. destruct (Z.ltb_spec 0 c).
  - apply sw_ext. intro u. destruct (Z.ltb_spec (c * u + d) (c * v + d)), (Z.ltb_spec u v); auto; nia.
  - pose proof (sw_split (fun u => u <=? v) l) as K. unfold weight_upto. rewrite <- K.
    rewrite (sw_ext (fun u => c * u + d <? c * v + d) (fun u => negb (u <=? v))); [lia|].
    intro u. destruct (Z.ltb_spec (c * u + d) (c * v + d)), (Z.leb_spec u v); cbn; auto; nia.
Qed.
Lemma upto_affine : forall c d k l v, c <> 0 -> weight_upto (map (affine c d k) l) (c * v + d) =
  k * (if 0 <? c then weight_upto l v else weight_total l - weight_below l v).
Proof.
  intros c d k l v Hc. unfold weight_upto at 1. rewrite sw_affine. f_equal. destruct (Z.ltb_spec 0 c).
  - apply sw_ext. intro u. destruct (Z.leb_spec (c * u + d) (c * v + d)), (Z.leb_spec u v); auto; nia.
  - pose proof (sw_split (fun u => u <? v) l) as K. unfold weight_below. rewrite <- K.
    rewrite (sw_ext (fun u => c * u + d <=? c * v + d) (fun u => negb (u <? v))); [lia|].
    intro u. destruct (Z.leb_spec (c * u + d) (c * v + d)), (Z.ltb_spec u v); cbn; auto; nia.
Qed.
Lemma total_affine : forall c d k l, weight_total (map (affine c d k) l) = k * weight_total l.
Proof. intros. unfold weight_total. apply sw_affine. Qed.
Lemma value_affine : forall c d k l v, c <> 0 -> 0 < k ->
  quantile_value (map (affine c d k) l) (weight_total (map (affine c d k) l)) 2 (c * v + d) <-> quantile_value l (weight_total l) 2 v.
Proof.
  intros c d k l v Hc Hk. unfold quantile_value. rewrite below_affine, upto_affine, total_affine by exact Hc.
  assert (P : (exists w, In (c * v + d, w) (map (affine c d k) l) /\ 0 < w) <-> (exists w, In (v, w) l /\ 0 < w)).
  { split; intros (w & H1 & H2).
    - apply in_map_iff in H1 as ([u w'] & E & H1). unfold affine in E. cbn [fst snd] in E. injection E as E1 E2. assert (u = v) by nia. subst u.
      exists w'. split; [exact H1|nia].
    - exists (k * w). split; [|nia]. apply in_map_iff. exists (v, w). split; [reflexivity|exact H1]. }
  rewrite P. destruct (Z.ltb_spec 0 c); split; intros (H1 & H2 & H3); (split; [exact H1|]); split; nia.
Qed.
Lemma value_affine_inv : forall c d k l num den u, quantile_value (map (affine c d k) l) num den u -> exists v, u = c * v + d.
Proof.
  intros c d k l num den u ((w & H1 & _) & _). apply in_map_iff in H1 as ([v w'] & E & _). unfold affine in E. cbn [fst snd] in E.
  injection E as E1 _. exists v. now symmetry.
Qed.
Lemma median_affine : forall c d k l l' ans ans', c <> 0 -> 0 < k -> Permutation l' (map (affine c d k) l) ->
  median_answer l MSplit ans -> median_answer l' MSplit ans' -> Related c d (Some ans) (Some ans').
Proof.
  intros c d k l l' [a b] [a' b'] Hc Hk P H H'. apply (median_answer_perm _ _ _ _ P) in H'.
  destruct H as (Hb & lo & hi & L & U & E). destruct H' as (Hb' & lo' & hi' & L' & U' & E').
  exists a, b, a', b'. do 4 (split; [auto|]).
  destruct L as [L1 L2], U as [U1 U2], L' as [L1' L2'], U' as [U1' U2'].
  destruct (value_affine_inv _ _ _ _ _ _ _ L1') as (x & Ex). destruct (value_affine_inv _ _ _ _ _ _ _ U1') as (y & Ey).
  assert (K : lo' + hi' = c * (lo + hi) + 2 * d).
  { pose proof (proj1 (value_affine c d k l x Hc Hk)) as X. rewrite <- Ex in X. specialize (X L1').
    pose proof (proj1 (value_affine c d k l y Hc Hk)) as Y. rewrite <- Ey in Y. specialize (Y U1').
    pose proof (L2' _ (proj2 (value_affine c d k l lo Hc Hk) L1)). pose proof (L2' _ (proj2 (value_affine c d k l hi Hc Hk) U1)).
    pose proof (U2' _ (proj2 (value_affine c d k l lo Hc Hk) L1)). pose proof (U2' _ (proj2 (value_affine c d k l hi Hc Hk) U1)).
    pose proof (L2 _ X). pose proof (U2 _ X). pose proof (L2 _ Y). pose proof (U2 _ Y). subst lo' hi'.
    destruct (Z.lt_ge_cases 0 c).
    - assert (x = lo) by nia. assert (y = hi) by nia. subst. lia.
    - assert (x = hi) by nia. assert (y = lo) by nia. subst. lia. }
  assert (2 * (a' * b) = 2 * ((c * a + d * b) * b')); [|lia].
  replace (2 * (a' * b)) with (2 * a' * b) by ring. rewrite E', K.
  replace (2 * ((c * a + d * b) * b')) with (b' * (c * (2 * a) + 2 * d * b)) by ring. rewrite E. ring.
Qed.

(** ** Windows *)
Lemma weighty_affine : forall c d k l, 0 < k -> weighty (map (affine c d k) l) = map (affine c d k) (weighty l).
Proof.
  intros c d k l Hk. induction l as [|x l IH]; [reflexivity|]. cbn [map]. unfold weighty in *. cbn [filter].
  assert (E : (snd (affine c d k x) =? 0) = (snd x =? 0)).
  { unfold affine. cbn [snd]. destruct (Z.eqb_spec (k * snd x) 0), (Z.eqb_spec (snd x) 0); auto; nia. }
  rewrite E. destruct (snd x =? 0); cbn [negb]; [exact IH|]. cbn [map]. f_equal. exact IH.
Qed.
Lemma window1_affine : forall c d k l h i, window1 (map (affine c d k) l) h i = map (affine c d k) (window1 l h i).
Proof. intros. unfold window1, lslice. now rewrite skipn_map, firstn_map. Qed.
Lemma window1_rev : forall l h i, (i < length l)%nat -> window1 (rev l) h (length l - 1 - i) = rev (window1 l h i).
Proof.
  intros l h i Hi. unfold window1, lslice. set (n := length l) in *. rewrite skipn_rev, firstn_rev. f_equal.
  rewrite firstn_length. fold n. rewrite skipn_firstn_comm.
  replace (Nat.min (n - (n - 1 - i - h)) n - (n - 1 - i + h + 1 - (n - 1 - i - h)))%nat with (i - h)%nat by lia.
  destruct (Nat.le_gt_cases (i + h + 1) n).
  - f_equal. lia.
  - rewrite !firstn_all2; [reflexivity| |]; rewrite skipn_length; fold n; lia.
Qed.
Lemma affine_nonneg : forall c d k l, 0 < k -> nonneg l -> nonneg (map (affine c d k) l).
Proof. intros c d k l Hk H. unfold nonneg in *. rewrite Forall_map. eapply Forall_impl; [|exact H]. intros x Hx. unfold affine. cbn beta in *. cbn [snd]. apply Z.mul_nonneg_nonneg; [lia|exact Hx]. Qed.
Lemma affine_id : forall l, map (affine 1 0 1) l = l.
Proof. intro l. rewrite <- (map_id l) at 2. apply map_ext. intros [u w]. unfold affine. cbn [fst snd]. f_equal; lia. Qed.
Lemma perm_rev_weighty : forall l, Permutation (weighty (rev l)) (weighty l).
Proof. intro l. apply weighty_perm, Permutation_sym, Permutation_rev. Qed.

Lemma nth_error_rev : forall A (l : list A) i, (i < length l)%nat -> nth_error (rev l) i = nth_error l (length l - S i).
Proof.
  intros A l i Hi. assert (D : exists a : A, True) by (destruct l as [|a l]; [cbn in Hi; lia|exists a; exact I]). destruct D as [a _].
  rewrite (nth_error_nth' (rev l) a) by (rewrite rev_length; exact Hi). rewrite (nth_error_nth' l a) by lia. f_equal. now apply rev_nth.
Qed.

Theorem moving_affine : forall data size c d k, data <> [] -> nonneg data -> Nat.odd size = true -> c <> 0 -> 0 < k ->
  exists vs vs', moving_1d data size MSplit = Ok vs /\ moving_1d (map (affine c d k) data) size MSplit = Ok vs' /\ length vs' = length vs /\
    forall i v v', nth_error vs i = Some v -> nth_error vs' i = Some v' -> weighty (window1 data (size / 2) i) <> [] -> Related c d v v'.
Proof.
  intros data size c d k Hne Hn Ho Hc Hk.
  destruct (moving_1d_ok data size MSplit Hne Hn Ho (or_introl eq_refl)) as (vs & E & L & C).
  destruct (moving_1d_ok (map (affine c d k) data) size MSplit) as (vs' & E' & L' & C'); auto.
  - destruct data; [congruence|discriminate].
  - now apply affine_nonneg.
  - exists vs, vs'. split; [exact E|]. split; [exact E'|]. split; [rewrite L', L; apply map_length|]. intros i v v' Hv Hv' Hw.
    destruct (proj1 (C i v Hv) Hw) as (ans & -> & A). specialize (C' i v' Hv'). rewrite window1_affine in C'. destruct C' as [C' _].
    rewrite (weighty_affine c d k _ Hk) in C'. destruct C' as (ans' & -> & A'); [destruct (weighty _); [congruence|discriminate]|].
    eapply median_affine; [exact Hc|exact Hk|apply Permutation_refl|exact A|exact A'].
Qed.
Theorem moving_reverse : forall data size, data <> [] -> nonneg data -> Nat.odd size = true ->
  exists vs vs', moving_1d data size MSplit = Ok vs /\ moving_1d (rev data) size MSplit = Ok vs' /\ length vs' = length vs /\
    forall i v v', nth_error vs i = Some v -> nth_error (rev vs') i = Some v' -> weighty (window1 data (size / 2) i) <> [] -> Related 1 0 v v'.
Proof.
  intros data size Hne Hn Ho.
  destruct (moving_1d_ok data size MSplit Hne Hn Ho (or_introl eq_refl)) as (vs & E & L & C).
  destruct (moving_1d_ok (rev data) size MSplit) as (vs' & E' & L' & C'); auto.
  - intro K. apply Hne. rewrite <- (rev_involutive data), K. reflexivity.
  - unfold nonneg in *. apply Forall_rev. exact Hn.
  - exists vs, vs'. split; [exact E|]. split; [exact E'|]. rewrite rev_length in L'. split; [congruence|]. intros i v v' Hv Hv' Hw.
    destruct (proj1 (C i v Hv) Hw) as (ans & -> & A).
    assert (Hi : (i < length data)%nat) by (rewrite <- L; apply nth_error_Some; congruence).
    assert (Hv2 : nth_error vs' (length data - 1 - i) = Some v').
    { rewrite nth_error_rev in Hv' by lia. rewrite <- Hv'. f_equal. lia. }
    specialize (C' _ v' Hv2). rewrite window1_rev in C' by exact Hi. destruct C' as [C' _].
    destruct C' as (ans' & -> & A').
    + intro K. apply Hw. pose proof (perm_rev_weighty (window1 data (size / 2) i)) as Q. rewrite K in Q. now apply Permutation_nil in Q.
    + eapply (median_affine 1 0 1); [lia|lia| |exact A|exact A']. rewrite affine_id. apply perm_rev_weighty.
Qed.
Lemma nth_error_transpose : forall A (dflt : A) n a x l, nth_error (transpose dflt n a) x = Some l -> l = map (fun row => nth x row dflt) a /\ (x < n)%nat.
Proof.
  intros A dflt n a x l H. unfold transpose in H. rewrite nth_error_map in H. destruct (nth_error (seq 0 n) x) as [x'|] eqn:E; [|discriminate].
  apply nth_error_seq in E as [-> K]. cbn in H. injection H as <-. split; [reflexivity|exact K].
Qed.
Theorem moving_transpose : forall data len_x sy sx, data <> [] -> (0 < len_x)%nat -> rect data len_x -> Forall nonneg data ->
  Nat.odd sy = true -> Nat.odd sx = true ->
  exists rows cols, moving_2d data len_x sy sx MSplit = Ok rows /\
    moving_2d (transpose (0, 0) len_x data) (length data) sx sy MSplit = Ok cols /\
    forall y x row col v v', nth_error rows y = Some row -> nth_error row x = Some v -> nth_error cols x = Some col -> nth_error col y = Some v' ->
      weighty (window2 data (sy / 2) (sx / 2) y x) <> [] -> Related 1 0 v v'.
Proof.
  intros data len_x sy sx Hne Hx Hr Hn Ho1 Ho2.
  destruct (moving_2d_ok data len_x sy sx MSplit Hne Hx Hr Hn Ho1 Ho2 (or_introl eq_refl)) as (rows & E & L & C).
  destruct (moving_2d_ok (transpose (0, 0) len_x data) (length data) sx sy MSplit) as (cols & E' & L' & C'); auto.
  - intro K. apply (f_equal (@length _)) in K. rewrite length_transpose in K. cbn in K. lia.
  - destruct data; [congruence|cbn; lia].
  - apply rect_transpose.
  - apply Forall_forall. intros l Hl. apply In_nth_error in Hl as (x & Hl). apply nth_error_transpose in Hl as [-> K].
    unfold nonneg. rewrite Forall_map. rewrite Forall_forall in *. intros row Hrow. specialize (Hn row Hrow). unfold nonneg in Hn. rewrite Forall_forall in Hn.
    apply Hn. apply nth_In. unfold rect in Hr. rewrite Forall_forall in Hr. specialize (Hr row Hrow). unfold datum in *. lia.
  - exists rows, cols. split; [exact E|]. split; [exact E'|]. intros y x row col v v' H1 H2 H3 H4 Hw.
    destruct (C y row H1) as [_ C1]. destruct (proj1 (C1 x v H2) Hw) as (ans & -> & A). destruct (C' x col H3) as [_ C2].
    pose proof (weighty_perm _ _ (window2_transpose data len_x (sy / 2) (sx / 2) y x Hr)) as P.
    destruct (proj1 (C2 y v' H4)) as (ans' & -> & A'). { intro K. rewrite K in P. apply Hw. now apply Permutation_nil in P. }
    eapply (median_affine 1 0 1); [lia|lia| |exact A|exact A']. rewrite affine_id. exact P.
Qed.
