(** C48-C53: weighted quantiles, the moving-median tree and moving medians. *)
From Coq Require Import List ZArith Bool Arith Sorted Permutation Lia.
From Verif Require Import PyBase MedModel MedSpec MedProofs MedProofs2 MedProofs3 MedProofs4 QselModel QselProofs QselProofs2.
Import ListNotations.
Open Scope Z_scope.

(** ** C48 *)

(** Full statement: the same without the last two hypotheses.  They are needed:
    see [C49_single_element_refuted] and [C48_zero_weight_returned_refuted]. *)
Theorem C48_quantile_partial : forall l qn qd m,
  l <> [] -> nonneg l -> 0 < qd -> 0 <= qn <= qd ->
  (length l = 1%nat -> qn < qd) ->
  (m = MLower -> 0 < qn \/ positive (effective l)) ->
  exists ans, quantile l qn qd m = Ok ans /\
    quantile_answer (effective l) (qn * weight_total (effective l)) qd m ans.
Proof.
  intros l qn qd m Hne Hn Hd Hq H1 H2. pose proof (quantile_ok l qn qd m Hne Hn Hd Hq) as H.
  destruct ((length l =? 1)%nat && (qn =? qd)) eqn:E0.
  - apply andb_prop in E0 as [E1 E2]. apply Nat.eqb_eq in E1. apply Z.eqb_eq in E2.
    specialize (H1 E1). lia.
  - destruct H as (ans & E1 & H). exists ans. split; [exact E1|]. now apply H.
Qed.
Print Assumptions C48_quantile_partial.

Lemma scale_half : forall l m ans,
  quantile_answer l (1 * weight_total l) 2 m ans -> median_answer l m ans.
Proof. intros l m ans H. now rewrite Z.mul_1_l in H. Qed.

(** The weighted median, for every array and method. *)
Theorem C48_weighted_median : forall l m, l <> [] -> nonneg l ->
  exists ans, weighted_median_of l m = Ok ans /\ median_answer (effective l) m ans.
Proof.
  intros l m Hne Hn. destruct (C48_quantile_partial l 1 2 m Hne Hn) as (ans & E1 & H);
    [lia|lia|lia|intros _; left; lia|].
  exists ans. split; [exact E1|]. now apply scale_half.
Qed.
Print Assumptions C48_weighted_median.

Theorem C48_rejects_other_quantiles : forall l qn qd m, 0 < qd -> qn < 0 \/ qd < qn ->
  quantile l qn qd m = Err ValueError.
Proof.
  intros l qn qd m Hd H. unfold quantile.
  destruct (Z.ltb_spec qn 0); [reflexivity|]. destruct (Z.ltb_spec qd qn); [reflexivity|lia].
Qed.
Print Assumptions C48_rejects_other_quantiles.

(** An element of zero weight is returned for the quantile 0 with "lower". *)
Theorem C48_zero_weight_returned_refuted : exists l v, nonneg l /\ weight_total l <> 0 /\
  quantile l 0 1 MLower = Ok (v, 1) /\ (forall w, In (v, w) l -> w = 0).
Proof.
  exists [(1, 0); (2, 1)], 1. split; [repeat constructor; cbn; lia|].
  split; [cbn; lia|]. split; [reflexivity|].
  intros w [H|[H|[]]]; congruence.
Qed.
Print Assumptions C48_zero_weight_returned_refuted.

(** 10 of weight 1, 20 of weight 2, 30 of weight 3: half the weight is passed
    exactly between 20 and 30. *)
Example C48_example :
  quantile [(30, 3); (10, 1); (20, 2)] 1 2 MSplit = Ok (50, 2) /\
  quantile [(30, 3); (10, 1); (20, 2)] 1 2 MLower = Ok (20, 1) /\
  quantile [(30, 3); (10, 1); (20, 2)] 1 2 MHigher = Ok (30, 1) /\
  quantile [(30, 3); (10, 1); (20, 2)] 1 4 MSplit = Ok (20, 1) /\
  quantile [(30, 0); (10, 0)] 1 2 MSplit = Ok (40, 2) /\
  quantile [(30, 3); (10, 1)] 3 2 MSplit = Err ValueError.
Proof. repeat split. Qed.

(** ** C49 *)
Theorem C49_single_element_refuted : exists l m, l <> [] /\ nonneg l /\
  quantile l 1 1 m = Err IndexError.
Proof.
  exists [(7, 1)], MSplit. split; [discriminate|]. split; [repeat constructor; cbn; lia|reflexivity].
Qed.
Print Assumptions C49_single_element_refuted.

(** It is the only case: all other selections stay inside the array (and end). *)
Theorem C49_out_of_bounds_exactly : forall l qn qd m,
  l <> [] -> nonneg l -> 0 < qd -> 0 <= qn <= qd ->
  (length l = 1%nat /\ qn = qd /\ quantile l qn qd m = Err IndexError) \/
  (~ (length l = 1%nat /\ qn = qd) /\ exists ans, quantile l qn qd m = Ok ans).
Proof.
  intros l qn qd m Hne Hn Hd Hq. pose proof (quantile_ok l qn qd m Hne Hn Hd Hq) as H.
  destruct (Nat.eqb_spec (length l) 1); destruct (Z.eqb_spec qn qd); cbn [andb] in H; auto;
    right; (split; [tauto|]); destruct H as (ans & E1 & _); eauto.
Qed.
Print Assumptions C49_out_of_bounds_exactly.

Theorem C49_median_in_bounds : forall l m, l <> [] -> nonneg l ->
  exists ans, weighted_median_of l m = Ok ans.
Proof. intros l m H1 H2. destruct (C48_weighted_median l m H1 H2) as (ans & E1 & _). eauto. Qed.
Print Assumptions C49_median_in_bounds.

Example C49_example :
  quantile [(7, 1)] 99 100 MHigher = Ok (7, 1) /\ quantile [(7, 1); (7, 1)] 1 1 MHigher = Ok (7, 1).
Proof. repeat split. Qed.

(** ** C50 *)
Theorem C50_tree_is_balanced_ordered_multiset : forall ops,
  let t := fold_left step ops E in
  avl t /\ ordered (inorder t) /\ Permutation (inorder t) (contents [] ops).
Proof.
  intro ops. apply history_ok; [exact I|constructor|constructor].
Qed.
Print Assumptions C50_tree_is_balanced_ordered_multiset.

(** A removal succeeds exactly when the element is present. *)
Theorem C50_remove_succeeds_iff_present : forall ops x,
  let t := fold_left step ops E in
  (exists t', remove x t = Some t') <-> In x (contents [] ops).
Proof.
  intros ops x t. destruct (C50_tree_is_balanced_ordered_multiset ops) as (H1 & H2 & H3).
  fold t in H1, H2, H3. rewrite (remove_found x t H1 H2).
  split; apply Permutation_in; [exact H3|apply Permutation_sym, H3].
Qed.
Print Assumptions C50_remove_succeeds_iff_present.

(** The height is at most twice the logarithm of the size plus one. *)
Theorem C50_height_logarithmic : forall ops,
  2 ^ height (fold_left step ops E) <= (Z.of_nat (length (contents [] ops)) + 1) ^ 2.
Proof.
  intro ops. destruct (C50_tree_is_balanced_ordered_multiset ops) as (H1 & _ & H3).
  rewrite <- (Permutation_length H3). now apply avl_height_log.
Qed.
Print Assumptions C50_height_logarithmic.

Example C50_example :
  let ops := [Ins (5, 1); Ins (4, 1); Ins (3, 2); Ins (2, 1); Ins (1, 1); Ins (3, 1); Rem (4, 1)] in
  inorder (fold_left step ops E) = [(1, 1); (2, 1); (3, 1); (3, 2); (5, 1)] /\
  height (fold_left step ops E) = 3.
Proof. repeat split. Qed.

(** ** C51 *)
Theorem C51_moving_median_1d : forall data size, data <> [] -> nonneg data -> Nat.odd size = true ->
  exists vs, moving_1d data size MSplit = Ok vs /\ length vs = length data /\
    forall i v, nth_error vs i = Some v -> weighty (window1 data (size / 2) i) <> [] ->
      exists ans, v = Some ans /\ median_answer (weighty (window1 data (size / 2) i)) MSplit ans.
Proof.
  intros data size H1 H2 H3.
  destruct (moving_1d_ok data size MSplit H1 H2 H3 (or_introl eq_refl)) as (vs & A & B & C).
  exists vs. split; [exact A|]. split; [exact B|]. intros i v Hv Hw. exact (proj1 (C i v Hv) Hw).
Qed.
Print Assumptions C51_moving_median_1d.

Theorem C51_moving_median_2d : forall data len_x size_y size_x,
  data <> [] -> (0 < len_x)%nat -> rect data len_x -> Forall nonneg data ->
  Nat.odd size_y = true -> Nat.odd size_x = true ->
  exists rows, moving_2d data len_x size_y size_x MSplit = Ok rows /\ length rows = length data /\
    forall y row, nth_error rows y = Some row -> length row = len_x /\
      forall x v, nth_error row x = Some v ->
        weighty (window2 data (size_y / 2) (size_x / 2) y x) <> [] ->
        exists ans, v = Some ans /\
          median_answer (weighty (window2 data (size_y / 2) (size_x / 2) y x)) MSplit ans.
Proof.
  intros data len_x sy sx H1 H2 H3 H4 H5 H6.
  destruct (moving_2d_ok data len_x sy sx MSplit H1 H2 H3 H4 H5 H6 (or_introl eq_refl)) as (rows & A & B & C).
  exists rows. split; [exact A|]. split; [exact B|]. intros y row Hy. destruct (C y row Hy) as [C1 C2].
  split; [exact C1|]. intros x v Hv Hw. exact (proj1 (C2 x v Hv) Hw).
Qed.
Print Assumptions C51_moving_median_2d.

(** Even and empty windows are refused. *)
Theorem C51_even_window_rejected : forall data size m, Nat.even size = true ->
  moving_1d data size m = Err ValueError.
Proof.
  intros data size m H. unfold moving_1d. destruct (Nat.eqb_spec size 0); [reflexivity|].
  destruct (Nat.eqb_spec size 1) as [->|]; [discriminate|]. now rewrite H.
Qed.
Print Assumptions C51_even_window_rejected.
Theorem C51_even_window_rejected_2d : forall data len_x size_y size_x m,
  Nat.even size_y = true \/ Nat.even size_x = true ->
  moving_2d data len_x size_y size_x m = Err ValueError.
Proof.
  intros data len_x sy sx m H. unfold moving_2d. destruct H as [H|H]; rewrite H; [reflexivity|].
  now rewrite orb_true_r.
Qed.
Print Assumptions C51_even_window_rejected_2d.

Example C51_example :
  moving_1d [(4, 1); (1, 1); (9, 2); (3, 0); (5, 1)] 3 MSplit =
    Ok [Some (5, 2); Some (13, 2); Some (9, 1); Some (9, 1); Some (5, 1)] /\
  moving_2d [[(4, 1); (1, 1)]; [(9, 2); (3, 0)]] 2 3 1 MSplit =
    Ok [[Some (9, 1); Some (1, 1)]; [Some (9, 1); Some (1, 1)]] /\
  moving_2d [[(4, 1); (1, 1)]; [(9, 2); (3, 0)]] 2 1 3 MHigher =
    Ok [[Some (4, 1); Some (4, 1)]; [Some (9, 1); Some (9, 1)]].
Proof. repeat split. Qed.

(** ** C52 *)

(** Equal weights, window covering 1, 2, 3, 4: "higher" answers 4, the higher
    median is 3. *)
Theorem C52_higher_refuted : exists data size i v u,
  nonneg data /\ Nat.odd size = true /\
  (exists vs, moving_1d data size MHigher = Ok vs /\ nth_error vs i = Some (Some (v, 1))) /\
  quantile_higher (window1 data (size / 2) i) (weight_total (window1 data (size / 2) i)) 2 u /\
  u < v.
Proof.
  exists [(1, 1); (2, 1); (3, 1); (4, 1)], 7%nat, 0%nat, 4, 3.
  split; [repeat constructor; cbn; lia|]. split; [reflexivity|].
  split; [eexists; split; [reflexivity|reflexivity]|]. split; [|lia].
  split; [split; [exists 1; cbn; split; [tauto|lia]|cbn; lia]|].
  intros u ((w & Hin & _) & H1 & H2).
  repeat (destruct Hin as [Hin|Hin]; [injection Hin as <- <-; cbn in *; lia|]). destruct Hin.
Qed.
Print Assumptions C52_higher_refuted.

Theorem C52_lower_refuted : exists data size i v u,
  nonneg data /\ Nat.odd size = true /\
  (exists vs, moving_1d data size MLower = Ok vs /\ nth_error vs i = Some (Some (v, 1))) /\
  quantile_lower (window1 data (size / 2) i) (weight_total (window1 data (size / 2) i)) 2 u /\
  v < u.
Proof.
  exists [(1, 1); (2, 1); (3, 1); (4, 1); (5, 1); (6, 1)], 11%nat, 0%nat, 1, 3.
  split; [repeat constructor; cbn; lia|]. split; [reflexivity|].
  split; [eexists; split; [reflexivity|reflexivity]|]. split; [|lia].
  split; [split; [exists 1; cbn; split; [tauto|lia]|cbn; lia]|].
  intros u ((w & Hin & _) & H1 & H2).
  repeat (destruct Hin as [Hin|Hin]; [injection Hin as <- <-; cbn in *; lia|]). destruct Hin.
Qed.
Print Assumptions C52_lower_refuted.

(** Full statement: the same without the hypothesis on ties. *)
Theorem C52_no_tie_1d_partial : forall data size m, data <> [] -> nonneg data -> Nat.odd size = true ->
  (forall i, (i < length data)%nat -> ~ window_tie (weighty (window1 data (size / 2) i))) ->
  exists vs, moving_1d data size m = Ok vs /\ length vs = length data /\
    forall i v, nth_error vs i = Some v -> weighty (window1 data (size / 2) i) <> [] ->
      exists ans, v = Some ans /\ median_answer (weighty (window1 data (size / 2) i)) m ans.
Proof.
  intros data size m H1 H2 H3 H4.
  destruct (moving_1d_ok data size m H1 H2 H3 (or_intror H4)) as (vs & A & B & C).
  exists vs. split; [exact A|]. split; [exact B|]. intros i v Hv Hw. exact (proj1 (C i v Hv) Hw).
Qed.
Print Assumptions C52_no_tie_1d_partial.

Theorem C52_no_tie_2d_partial : forall data len_x size_y size_x m,
  data <> [] -> (0 < len_x)%nat -> rect data len_x -> Forall nonneg data ->
  Nat.odd size_y = true -> Nat.odd size_x = true ->
  (forall y x, (y < length data)%nat -> (x < len_x)%nat ->
     ~ window_tie (weighty (window2 data (size_y / 2) (size_x / 2) y x))) ->
  exists rows, moving_2d data len_x size_y size_x m = Ok rows /\ length rows = length data /\
    forall y row, nth_error rows y = Some row -> length row = len_x /\
      forall x v, nth_error row x = Some v ->
        weighty (window2 data (size_y / 2) (size_x / 2) y x) <> [] ->
        exists ans, v = Some ans /\
          median_answer (weighty (window2 data (size_y / 2) (size_x / 2) y x)) m ans.
Proof.
  intros data len_x sy sx m H1 H2 H3 H4 H5 H6 H7.
  destruct (moving_2d_ok data len_x sy sx m H1 H2 H3 H4 H5 H6 (or_intror H7)) as (rows & A & B & C).
  exists rows. split; [exact A|]. split; [exact B|]. intros y row Hy. destruct (C y row Hy) as [C1 C2].
  split; [exact C1|]. intros x v Hv Hw. exact (proj1 (C2 x v Hv) Hw).
Qed.
Print Assumptions C52_no_tie_2d_partial.

(** Odd total weights have no tie: the hypothesis is met by real windows. *)
Lemma odd_weight_no_tie : forall w, Z.odd (weight_total w) = true -> ~ window_tie w.
Proof.
  intros w H (P & S & _ & H2 & _). rewrite <- H2 in H. rewrite Z.odd_mul in H. discriminate.
Qed.
Example C52_example :
  (forall i, (i < 3)%nat -> ~ window_tie (weighty (window1 [(1, 2); (2, 1); (3, 2)] (3 / 2) i))) /\
  moving_1d [(1, 2); (2, 1); (3, 2)] 3 MLower = Ok [Some (1, 1); Some (2, 1); Some (3, 1)] /\
  moving_1d [(1, 2); (2, 1); (3, 2)] 3 MHigher = Ok [Some (1, 1); Some (2, 1); Some (3, 1)].
Proof.
  split; [|split; reflexivity]. intros i Hi. apply odd_weight_no_tie.
  destruct i as [|[|[|i]]]; [reflexivity|reflexivity|reflexivity|lia].
Qed.

(** ** C53 *)

(** Two windows without weight in one output, reported as 0 and as NaN. *)
Theorem C53_zero_windows_refuted : exists data size,
  nonneg data /\ (forall i, weighty (window1 data (size / 2) i) = []) /\
  moving_1d data size MSplit = Ok [Some (0, 1); None].
Proof.
  exists [(5, 0); (5, 0)], 3%nat. split; [repeat constructor; cbn; lia|].
  split; [|reflexivity]. intro i.
  unfold weighty. destruct (filter _ _) as [|x r] eqn:E0; [reflexivity|]. exfalso.
  assert (Hx : In x (x :: r)) by now left. rewrite <- E0 in Hx. apply filter_In in Hx as [H1 H2].
  apply in_lslice in H1. destruct H1 as [<-|[<-|[]]]; discriminate.
Qed.
Print Assumptions C53_zero_windows_refuted.

(** Full statement: NaN at every position.  It holds in one dimension for
    windows of at least three elements and every position except the first. *)
Theorem C53_nan_after_first_partial : forall data size i v vs,
  data <> [] -> nonneg data -> Nat.odd size = true -> size <> 1%nat ->
  moving_1d data size MSplit = Ok vs -> nth_error vs i = Some v ->
  weighty (window1 data (size / 2) i) = [] ->
  v = if (i =? 0)%nat then Some (0, 1) else None.
Proof.
  intros data size i v vs H1 H2 H3 Hs E1 Hv Hw.
  destruct (moving_1d_ok data size MSplit H1 H2 H3 (or_introl eq_refl)) as (vs' & A & B & C).
  assert (vs' = vs) as -> by congruence. rewrite (proj2 (C i v Hv) Hw).
  destruct (Nat.eqb_spec size 1); [congruence|]. destruct (i =? 0)%nat; reflexivity.
Qed.
Print Assumptions C53_nan_after_first_partial.

(** In two dimensions, and with a window of one element, it is always 0. *)
Theorem C53_zero_in_2d : forall data len_x size_y size_x rows y row x v,
  data <> [] -> (0 < len_x)%nat -> rect data len_x -> Forall nonneg data ->
  Nat.odd size_y = true -> Nat.odd size_x = true ->
  moving_2d data len_x size_y size_x MSplit = Ok rows ->
  nth_error rows y = Some row -> nth_error row x = Some v ->
  weighty (window2 data (size_y / 2) (size_x / 2) y x) = [] -> v = Some (0, 1).
Proof.
  intros data len_x sy sx rows y row x v H1 H2 H3 H4 H5 H6 E1 Hy Hx Hw.
  destruct (moving_2d_ok data len_x sy sx MSplit H1 H2 H3 H4 H5 H6 (or_introl eq_refl)) as (rows' & A & B & C).
  assert (rows' = rows) as -> by congruence. destruct (C y row Hy) as [_ C2].
  exact (proj2 (C2 x v Hx) Hw).
Qed.
Print Assumptions C53_zero_in_2d.
Theorem C53_zero_for_single_window : forall data m i x,
  nth_error data i = Some x -> snd x = 0 ->
  exists vs, moving_1d data 1 m = Ok vs /\ nth_error vs i = Some (Some (0, 1)).
Proof.
  intros data m i x Hx H0. eexists. split; [reflexivity|].
  rewrite (map_nth_error _ _ _ Hx). now rewrite H0.
Qed.
Print Assumptions C53_zero_for_single_window.

Example C53_example :
  moving_1d [(5, 0); (6, 0); (7, 0); (8, 1)] 3 MSplit = Ok [Some (0, 1); None; Some (8, 1); Some (8, 1)] /\
  moving_2d [[(5, 0)]; [(6, 0)]] 1 3 3 MSplit = Ok [[Some (0, 1)]; [Some (0, 1)]].
Proof. repeat split. Qed.
