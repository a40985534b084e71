(** Proofs about the quickselect over any numbers: what the partition does. *)
From Coq Require Import List ZArith Bool Arith Permutation Lia.
From Verif Require Import PyBase MedModel MedProofs MedProofs2 MedProofs3 QselModel QselProofs GqModel GqSpec GqProofs.
Import ListNotations.
Open Scope nat_scope.

Section Full.
Context {D W S : Type} (o : ops D W S).
Notation datum := (D * W)%type.
Context (Has : asymmetric (d_lt o)).

Lemma slice_snoc : forall (l : list datum) a b x, a <= b -> nth_error l b = Some x ->
  lslice a (b + 1) l = lslice a b l ++ [x].
Proof. intros l a b x H E. rewrite lslice_snoc by lia. now rewrite E. Qed.
Lemma swap_slice : forall i j x y (l : list datum) a b, a <= i -> i < j -> j < b ->
  nth_error l i = Some x -> nth_error l j = Some y ->
  Permutation (lslice a b (gset j x (gset i y l))) (lslice a b l).
Proof.
  intros i j x y l a b Ha Hij Hb Hi Hj.
  pose proof (gswap_nth i j x y l) as G.
  set (l' := gset j x (gset i y l)) in *.
  assert (E : forall (m : list datum) u v, nth_error m i = Some u -> nth_error m j = Some v ->
    lslice a b m = lslice a i m ++ [u] ++ lslice (i + 1) j m ++ [v] ++ lslice (j + 1) b m).
  { intros m u v Hu Hv.
    rewrite <- (lslice_app _ a i b), <- (lslice_app _ i (i + 1) b), <- (lslice_app _ (i + 1) j b),
      <- (lslice_app _ j (j + 1) b) by lia.
    rewrite (slice_snoc m i i u), (slice_snoc m j j v) by (auto; lia). now rewrite !lslice_nil. }
  rewrite (E l x y Hi Hj). rewrite (E l' y x).
  2:{ rewrite G by assumption. destruct (Nat.eqb_spec i j); [lia|]. now rewrite Nat.eqb_refl. }
  2:{ rewrite G by assumption. now rewrite Nat.eqb_refl. }
  rewrite (lslice_ext _ l' l a i), (lslice_ext _ l' l (i + 1) j), (lslice_ext _ l' l (j + 1) b).
  2,3,4: intros k Hk; rewrite G by assumption;
    destruct (Nat.eqb_spec k j); [lia|]; destruct (Nat.eqb_spec k i); [lia|reflexivity].
  apply Permutation_app_head. cbn [app].
  set (M := lslice (i + 1) j l). set (R := lslice (j + 1) b l).
  eapply Permutation_trans; [apply perm_skip; apply Permutation_sym; apply (Permutation_middle M R x)|].
  eapply Permutation_trans; [apply perm_swap|]. apply perm_skip. apply Permutation_middle.
Qed.

(** the sum of a list in its order *)
Definition fsum (ws : list W) : S := fold_left (s_add o) ws (s_zero o).
Lemma fsum_snoc : forall ws w, fsum (ws ++ [w]) = s_add o (fsum ws) w.
Proof. intros. unfold fsum. now rewrite fold_left_app. Qed.
Definition weights (l : list datum) (a b : nat) : list W := map snd (lslice a b l).
Lemma weights_snoc : forall (l : list datum) a b x, a <= b -> nth_error l b = Some x ->
  weights l a (b + 1) = weights l a b ++ [snd x].
Proof. intros l a b x H E. unfold weights. rewrite (slice_snoc l a b x H E). now rewrite map_app. Qed.

Lemma gup_sum : forall fuel (l : list datum) p i ii wl ii' wl', i <= ii -> wl = fsum (weights l i ii) ->
  gup o fuel l p ii wl = Ok (ii', wl') -> wl' = fsum (weights l i ii').
Proof.
  induction fuel as [|fuel IH]; intros l p i ii wl ii' wl' Hi Hw E; [discriminate|]. cbn [gup] in E.
  unfold gread in E. destruct (nth_error l ii) as [x|] eqn:Ex; [|discriminate]. cbn [rbind] in E.
  destruct (d_lt o (fst x) p).
  - eapply IH; [|..|exact E]; [lia|]. rewrite (weights_snoc l i ii x Hi Ex), fsum_snoc. now rewrite Hw.
  - now inversion E; subst.
Qed.

Record pfull (L0 : list datum) (p : D) (i j : nat) (l : list datum) (jj : nat) (wl : S) : Prop := {
  pf_len : length l = length L0;
  pf_out : forall k, k < i \/ j < k -> nth_error l k = nth_error L0 k;
  pf_perm : Permutation (lslice i (j + 1) l) (lslice i (j + 1) L0);
  pf_left : forall k, i <= k <= jj -> low o l p k;
  pf_right : forall k, jj < k <= j -> high o l p k;
  pf_wl : wl = fsum (weights l i (jj + 1));
  pf_jj : i <= jj <= j;
  pf_last : i = j \/ jj < j
}.

Section Partition.
Context (L0 : list datum) (p : D) (i j : nat) (Hij : i <= j) (Hj : j < length L0).

Lemma gpartition_full : forall fuel (l : list datum) ii jj wl,
  length l = length L0 -> (forall k, k < i \/ j < k -> nth_error l k = nth_error L0 k) ->
  Permutation (lslice i (j + 1) l) (lslice i (j + 1) L0) -> i <= ii -> jj <= j -> ii <= jj + 1 ->
  (forall k, i <= k < ii -> low o l p k) -> (forall k, jj < k <= j -> high o l p k) ->
  (exists k, ii <= k <= j /\ high o l p k) -> (exists k, i <= k <= jj /\ low o l p k) ->
  (i = j \/ jj < j \/ exists k, ii <= k < j /\ high o l p k) ->
  wl = fsum (weights l i ii) -> jj + 1 - ii < fuel ->
  exists l' jj' wl', gpartition o fuel l p ii jj wl = Ok (l', jj', wl') /\ pfull L0 p i j l' jj' wl'.
Proof.
  induction fuel as [|fuel IH]; intros l ii jj wl Hlen Iout HP Iii Ijj Imeet Ileft Iright Iup Idown Ilast Iwl Hf; [lia|].
  cbn [gpartition].
  destruct Iup as (ku & Hku & Vku). destruct Idown as (kd & Hkd & Vkd).
  destruct (gup_ok o (Datatypes.S (length l)) l p ii wl ku) as (ii' & wl1 & E1 & B1 & B2 & B3); [lia|exact Vku|lia|].
  pose proof (gup_sum _ _ _ i _ _ _ _ Iii Iwl E1) as Ewl.
  rewrite E1. cbn [rbind].
  destruct (gdown_ok o (Datatypes.S (length l)) l p jj kd) as (jj' & E2 & C1 & C2 & C3); [lia|lia|exact Vkd|lia|].
  rewrite E2. cbn [rbind].
  assert (Lleft : forall k, i <= k < ii' -> low o l p k).
  { intros k Hk. destruct (le_lt_dec ii k); [|apply Ileft; lia].
    destruct (B3 k) as (d & Hd & Vd); [lia|]. exists d. split; [exact Hd|]. now apply Has. }
  assert (Lright : forall k, jj' < k <= j -> high o l p k).
  { intros k Hk. destruct (le_lt_dec k jj); [|apply Iright; lia].
    destruct (C3 k) as (d & Hd & Vd); [lia|]. exists d. split; [exact Hd|]. now apply Has. }
  assert (Hmeet : ii' <= jj' + 1).
  { destruct (le_lt_dec ii' (jj' + 1)) as [|Hgt]; [assumption|exfalso].
    destruct (le_lt_dec (jj' + 1) jj) as [Hle|Hgt2].
    - destruct (C3 (jj' + 1)) as (d & Hd & Vd); [lia|].
      destruct (Lleft (jj' + 1)) as (d2 & Hd2 & Vd2); [lia|]. congruence.
    - assert (jj' = jj) by lia. subst jj'.
      destruct (Iright (jj + 1)) as (d & Hd & Vd); [lia|].
      destruct (B3 (jj + 1)) as (d2 & Hd2 & Vd2); [lia|]. congruence. }
  assert (Hlast : i = j \/ jj' < j \/ ii' < j).
  { destruct Ilast as [|[|(k & Hk & (d & Hd & Vd))]]; [now left|right; left; lia|].
    right; right. destruct (le_lt_dec ii' k); [lia|].
    destruct (B3 k) as (d2 & Hd2 & Vd2); [lia|]. congruence. }
  destruct (Nat.leb_spec jj' ii') as [Hstop|Hgo].
  - destruct (Nat.eqb_spec ii' jj') as [Heq|Hne].
    + destruct (gread_ok l ii') as (x & E & Ex); [lia|]. rewrite E. cbn [rbind].
      do 3 eexists. split; [reflexivity|]. subst jj'. constructor; auto; try lia.
      * intros k Hk. destruct (Nat.eq_dec k ii') as [->|]; [exact C2|apply Lleft; lia].
      * rewrite (weights_snoc l i ii' x) by (auto; lia). rewrite fsum_snoc. now rewrite Ewl.
    + do 3 eexists. split; [reflexivity|]. assert (ii' = jj' + 1) by lia. subst ii'.
      constructor; auto; try lia. intros k Hk. apply Lleft. lia.
  - destruct (gread_ok l ii') as (x & E & Ex); [lia|]. rewrite E. cbn [rbind].
    destruct (gread_ok l jj') as (y & E' & Ey); [lia|]. rewrite E'. cbn [rbind].
    assert (Hx : d_lt o (fst x) p = false) by (destruct B2 as (z & Hz & Vz); congruence).
    assert (Hy : d_lt o p (fst y) = false) by (destruct C2 as (z & Hz & Vz); congruence).
    pose proof (gswap_nth ii' jj' x y l) as G.
    apply IH; [|..|lia].
    + now rewrite !gset_length.
    + intros k Hk. rewrite G by assumption.
      destruct (Nat.eqb_spec k jj'); [lia|]. destruct (Nat.eqb_spec k ii'); [lia|]. now apply Iout.
    + eapply perm_trans; [apply swap_slice; auto; lia|exact HP].
    + lia.
    + lia.
    + lia.
    + intros k Hk. destruct (Nat.eq_dec k ii') as [->|Hk2].
      * exists y. split; [|exact Hy]. rewrite G by assumption.
        destruct (Nat.eqb_spec ii' jj'); [lia|]. now rewrite Nat.eqb_refl.
      * destruct (Lleft k) as (d & Hd & Vd); [lia|]. exists d. split; [|exact Vd].
        rewrite G by assumption. destruct (Nat.eqb_spec k jj'); [lia|]. destruct (Nat.eqb_spec k ii'); [lia|exact Hd].
    + intros k Hk. destruct (Nat.eq_dec k jj') as [->|Hk2].
      * exists x. split; [|exact Hx]. rewrite G by assumption. now rewrite Nat.eqb_refl.
      * destruct (Lright k) as (d & Hd & Vd); [lia|]. exists d. split; [|exact Vd].
        rewrite G by assumption. destruct (Nat.eqb_spec k jj'); [lia|]. destruct (Nat.eqb_spec k ii'); [lia|exact Hd].
    + exists jj'. split; [lia|]. exists x. split; [|exact Hx]. rewrite G by assumption. now rewrite Nat.eqb_refl.
    + exists ii'. split; [lia|]. exists y. split; [|exact Hy]. rewrite G by assumption.
      destruct (Nat.eqb_spec ii' jj'); [lia|]. now rewrite Nat.eqb_refl.
    + right. left. lia.
    + assert (N : nth_error (gset jj' x (gset ii' y l)) ii' = Some y).
      { rewrite G by assumption. destruct (Nat.eqb_spec ii' jj'); [lia|]. now rewrite Nat.eqb_refl. }
      rewrite (weights_snoc _ i ii' y) by (auto; lia). rewrite fsum_snoc, Ewl. f_equal. f_equal.
      unfold weights. f_equal. apply lslice_ext. intros k Hk. rewrite G by assumption.
      destruct (Nat.eqb_spec k jj'); [lia|]. destruct (Nat.eqb_spec k ii'); [lia|reflexivity].
Qed.
End Partition.

Lemma gpartition_begin : forall (l : list datum) i j pv, i <= j -> j < length l ->
  nth_error l ((i + j) / 2) = Some pv ->
  exists l' jj' wl', gpartition o (Datatypes.S (length l)) l (fst pv) i j (s_zero o) = Ok (l', jj', wl') /\
    pfull l (fst pv) i j l' jj' wl'.
Proof.
  intros l i j pv Hij Hj Hpv.
  assert (Hm : i <= (i + j) / 2 <= j).
  { split; [apply Nat.div_le_lower_bound|apply Nat.div_le_upper_bound]; lia. }
  assert (Hlow : low o l (fst pv) ((i + j) / 2)) by (exists pv; split; [exact Hpv|now apply irreflexive]).
  assert (Hhigh : high o l (fst pv) ((i + j) / 2)) by (exists pv; split; [exact Hpv|now apply irreflexive]).
  apply gpartition_full; auto; try lia.
  - exists ((i + j) / 2). split; [lia|exact Hhigh].
  - exists ((i + j) / 2). split; [lia|exact Hlow].
  - destruct (Nat.eq_dec i j); [now left|]. right. right. exists ((i + j) / 2). split; [|exact Hhigh].
    split; [lia|]. apply Nat.div_lt_upper_bound; lia.
  - unfold weights. rewrite lslice_nil. reflexivity.
Qed.
End Full.
