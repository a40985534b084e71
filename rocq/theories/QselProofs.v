(** Proofs about the weighted quickselect: the partition. *)
From Coq Require Import List ZArith Bool Arith Permutation Lia.
From Verif Require Import PyBase MedModel MedSpec MedProofs MedProofs2 MedProofs3 QselModel.
Import ListNotations.
Open Scope Z_scope.

Definition get (l : list datum) (k : nat) : datum := nth k l (0, 0).

Lemma rd_get : forall l k, (k < length l)%nat -> rd l k = Ok (get l k).
Proof. intros l k H. unfold rd, get. now rewrite (nth_error_nth' l (0, 0) H). Qed.
Lemma get_error : forall l k, (k < length l)%nat -> nth_error l k = Some (get l k).
Proof. intros l k H. apply nth_error_nth'. exact H. Qed.

Lemma length_upd : forall k x l, length (upd k x l) = length l.
Proof. intros k x l. revert k. induction l as [|y l IH]; intros [|k]; cbn; auto. Qed.
Lemma nth_upd : forall k x l j, (k < length l)%nat ->
  nth_error (upd k x l) j = if (j =? k)%nat then Some x else nth_error l j.
Proof.
  intros k x l. revert k. induction l as [|y l IH]; intros [|k] j H; cbn in *; try lia.
  - destruct j; reflexivity.
  - destruct j; cbn; [reflexivity|]. apply IH. lia.
Qed.

(** *** Slices *)
Lemma in_lslice_iff : forall A (l : list A) a b x,
  In x (lslice a b l) <-> exists k, (a <= k < b)%nat /\ nth_error l k = Some x.
Proof.
  intros A l a b x. split.
  - intro H. apply In_nth_error in H as [k Hk]. rewrite nth_error_lslice in Hk.
    destruct (Nat.ltb_spec (a + k) b); [|discriminate]. exists (a + k)%nat. split; [lia|exact Hk].
  - intros (k & Hk & Hx). apply (nth_error_In _ (k - a)). rewrite nth_error_lslice.
    replace (a + (k - a))%nat with k by lia. destruct (Nat.ltb_spec k b); [exact Hx|lia].
Qed.
Lemma lslice_ext : forall A (l l' : list A) a b,
  (forall k, (a <= k < b)%nat -> nth_error l k = nth_error l' k) -> lslice a b l = lslice a b l'.
Proof.
  intros A l l' a b H.
  assert (Hext : forall (u v : list A), (forall k, nth_error u k = nth_error v k) -> u = v).
  { induction u as [|x u IH]; intros v Hv.
    - destruct v; [reflexivity|]. specialize (Hv 0%nat). discriminate.
    - destruct v as [|y v]; [specialize (Hv 0%nat); discriminate|].
      pose proof (Hv 0%nat) as H0. cbn in H0. injection H0 as ->. f_equal.
      apply IH. intro k. exact (Hv (S k)). }
  apply Hext. intro k. rewrite !nth_error_lslice.
  destruct (Nat.ltb_spec (a + k) b); [apply H; lia|reflexivity].
Qed.
Lemma lslice_one : forall (l : list datum) a, (a < length l)%nat -> lslice a (a + 1) l = [get l a].
Proof.
  intros l a H. rewrite lslice_snoc by lia. rewrite get_error by exact H.
  unfold lslice. rewrite Nat.sub_diag. reflexivity.
Qed.
Lemma lslice_step : forall (l : list datum) a b, (a <= b)%nat -> (b < length l)%nat ->
  lslice a (b + 1) l = lslice a b l ++ [get l b].
Proof. intros. rewrite lslice_snoc by lia. now rewrite get_error. Qed.
Lemma lslice_nil : forall A (l : list A) a, lslice a a l = [].
Proof. intros. unfold lslice. now rewrite Nat.sub_diag. Qed.

(** *** Swapping *)
Definition swap (l : list datum) (i j : nat) : list datum := upd j (get l i) (upd i (get l j) l).

Lemma length_swap : forall l i j, length (swap l i j) = length l.
Proof. intros. unfold swap. now rewrite !length_upd. Qed.
Lemma nth_swap : forall l i j k, (i < length l)%nat -> (j < length l)%nat ->
  nth_error (swap l i j) k =
  if (k =? j)%nat then Some (get l i) else if (k =? i)%nat then Some (get l j) else nth_error l k.
Proof.
  intros l i j k Hi Hj. unfold swap. rewrite nth_upd by (rewrite length_upd; exact Hj).
  destruct (k =? j)%nat; [reflexivity|]. now apply nth_upd.
Qed.
Lemma get_swap : forall l i j k, (i < length l)%nat -> (j < length l)%nat -> (k < length l)%nat ->
  get (swap l i j) k = if (k =? j)%nat then get l i else if (k =? i)%nat then get l j else get l k.
Proof.
  intros l i j k Hi Hj Hk.
  assert (H : nth_error (swap l i j) k = Some (get (swap l i j) k))
    by (apply get_error; now rewrite length_swap).
  rewrite nth_swap in H by assumption.
  destruct (k =? j)%nat; [congruence|]. destruct (k =? i)%nat; [congruence|].
  rewrite get_error in H by assumption. congruence.
Qed.
Lemma swap_perm : forall l i j a b, (a <= i)%nat -> (i < j)%nat -> (j < b)%nat -> (b <= length l)%nat ->
  Permutation (lslice a b (swap l i j)) (lslice a b l).
Proof.
  intros l i j a b Ha Hij Hb Hl.
  assert (D : forall m, length m = length l ->
    lslice a b m = lslice a i m ++ [get m i] ++ lslice (i + 1) j m ++ [get m j] ++ lslice (j + 1) b m).
  { intros m Hm.
    rewrite <- (lslice_app _ a i b), <- (lslice_app _ i (i + 1) b), <- (lslice_app _ (i + 1) j b),
      <- (lslice_app _ j (j + 1) b) by lia.
    rewrite !lslice_one by lia. reflexivity. }
  rewrite (D (swap l i j)) by apply length_swap. rewrite (D l) by reflexivity.
  rewrite (lslice_ext _ (swap l i j) l a i), (lslice_ext _ (swap l i j) l (i + 1) j),
    (lslice_ext _ (swap l i j) l (j + 1) b).
  2,3,4: intros k Hk; rewrite nth_swap by lia;
    destruct (Nat.eqb_spec k j); [lia|]; destruct (Nat.eqb_spec k i); [lia|reflexivity].
  rewrite !get_swap by lia. rewrite Nat.eqb_refl.
  destruct (Nat.eqb_spec i j); [lia|]. rewrite Nat.eqb_refl.
  apply Permutation_app_head.
  set (M := lslice (i + 1) j l). set (R := lslice (j + 1) b l). cbn [app].
  eapply Permutation_trans; [apply perm_skip; apply Permutation_sym; apply (Permutation_middle M R (get l i))|].
  eapply Permutation_trans; [apply perm_swap|]. apply perm_skip. apply Permutation_middle.
Qed.

(** *** The two scans *)
Lemma scan_up_ok : forall fuel l p ii wl k,
  (ii <= k)%nat -> (k < length l)%nat -> p <= fst (get l k) -> (k - ii < fuel)%nat ->
  exists ii', scan_up fuel l p ii wl = Ok (ii', wl + weight_total (lslice ii ii' l)) /\
    (ii <= ii' <= k)%nat /\ p <= fst (get l ii') /\
    forall x, (ii <= x < ii')%nat -> fst (get l x) < p.
Proof.
  induction fuel as [|fuel IH]; intros l p ii wl k H1 H2 H3 H4; [lia|]. cbn [scan_up].
  rewrite rd_get by lia. cbn [rbind].
  destruct (Z.ltb_spec (fst (get l ii)) p) as [Hlt|Hge].
  - assert (ii <> k) by (intros ->; lia).
    destruct (IH l p (ii + 1)%nat (wl + snd (get l ii)) k) as (ii' & E1 & B1 & B2 & B3); try lia.
    exists ii'. split; [|split; [lia|split; [exact B2|]]].
    + rewrite E1. f_equal. f_equal.
      rewrite <- (lslice_app _ ii (ii + 1) ii') by lia.
      rewrite weight_total_app, lslice_one by lia.
      rewrite weight_total_cons, weight_total_nil. lia.
    + intros x Hx. destruct (Nat.eq_dec x ii) as [->|]; [exact Hlt|]. apply B3. lia.
  - exists ii. split; [|split; [lia|split; [exact Hge|]]].
    + rewrite lslice_nil, weight_total_nil. f_equal. f_equal. lia.
    + intros x Hx. lia.
Qed.

Lemma scan_down_ok : forall fuel l p jj k,
  (k <= jj)%nat -> (jj < length l)%nat -> fst (get l k) <= p -> (jj - k < fuel)%nat ->
  exists jj', scan_down fuel l p jj = Ok jj' /\ (k <= jj' <= jj)%nat /\ fst (get l jj') <= p /\
    forall x, (jj' < x <= jj)%nat -> p < fst (get l x).
Proof.
  induction fuel as [|fuel IH]; intros l p jj k H1 H2 H3 H4; [lia|]. cbn [scan_down].
  rewrite rd_get by lia. cbn [rbind].
  destruct (Z.ltb_spec p (fst (get l jj))) as [Hlt|Hge].
  - assert (jj <> k) by (intros ->; lia).
    destruct jj as [|jj]; [lia|].
    destruct (IH l p jj k) as (jj' & E1 & B1 & B2 & B3); try lia.
    exists jj'. split; [exact E1|]. split; [lia|]. split; [exact B2|].
    intros x Hx. destruct (Nat.eq_dec x (S jj)) as [->|]; [exact Hlt|]. apply B3. lia.
  - exists jj. split; [reflexivity|]. split; [lia|]. split; [exact Hge|]. intros x Hx. lia.
Qed.

(** *** The partition *)
Section Partition.
  Context (L0 : list datum) (p : Z) (i j : nat).
  Context (Hij : (i <= j)%nat) (Hj : (j < length L0)%nat).

  Record pinv (L : list datum) (ii jj : nat) (wl : Z) : Prop := {
    pi_len : length L = length L0;
    pi_out : forall k, (k < i \/ j < k)%nat -> nth_error L k = nth_error L0 k;
    pi_perm : Permutation (lslice i (j + 1) L) (lslice i (j + 1) L0);
    pi_left : forall k, (i <= k < ii)%nat -> fst (get L k) <= p;
    pi_right : forall k, (jj < k <= j)%nat -> p <= fst (get L k);
    pi_wl : wl = weight_total (lslice i ii L);
    pi_ii : (i <= ii)%nat;
    pi_jj : (jj <= j)%nat;
    pi_up : exists k, (ii <= k <= j)%nat /\ p <= fst (get L k);
    pi_down : exists k, (i <= k <= jj)%nat /\ fst (get L k) <= p;
    pi_last : i = j \/ (jj < j)%nat \/ (exists k, (ii <= k < j)%nat /\ p <= fst (get L k));
    pi_meet : (ii <= jj + 1)%nat
  }.

  Record pdone (L : list datum) (jj : nat) (wl : Z) : Prop := {
    pd_len : length L = length L0;
    pd_out : forall k, (k < i \/ j < k)%nat -> nth_error L k = nth_error L0 k;
    pd_perm : Permutation (lslice i (j + 1) L) (lslice i (j + 1) L0);
    pd_left : forall k, (i <= k <= jj)%nat -> fst (get L k) <= p;
    pd_right : forall k, (jj < k <= j)%nat -> p <= fst (get L k);
    pd_wl : wl = weight_total (lslice i (jj + 1) L);
    pd_jj : (i <= jj <= j)%nat;
    pd_last : i = j \/ (jj < j)%nat
  }.

  Lemma partition_ok : forall fuel L ii jj wl, pinv L ii jj wl -> (jj + 1 - ii < fuel)%nat ->
    exists L' jj' wl', partition fuel L p ii jj wl = Ok (L', jj', wl') /\ pdone L' jj' wl'.
  Proof.
    induction fuel as [|fuel IH]; intros L ii jj wl I Hf; [lia|].
    destruct I as [Ilen Iout Iperm Ileft Iright Iwl Iii Ijj Iup Idown Ilast Imeet].
    cbn [partition].
    destruct Iup as (ku & Hku & Vku). destruct Idown as (kd & Hkd & Vkd).
    destruct (scan_up_ok (S (length L)) L p ii wl ku) as (ii' & E1 & B1 & B2 & B3); try lia.
    rewrite E1. cbn [rbind].
    destruct (scan_down_ok (S (length L)) L p jj kd) as (jj' & E2 & C1 & C2 & C3); try lia.
    rewrite E2. cbn [rbind].
    assert (Hwl : wl + weight_total (lslice ii ii' L) = weight_total (lslice i ii' L)).
    { rewrite Iwl, <- weight_total_app, lslice_app by lia. reflexivity. }
    rewrite Hwl. clear Hwl.
    assert (Lleft : forall k, (i <= k < ii')%nat -> fst (get L k) <= p).
    { intros k Hk. destruct (le_lt_dec ii k); [specialize (B3 k); lia|apply Ileft; lia]. }
    assert (Lright : forall k, (jj' < k <= j)%nat -> p <= fst (get L k)).
    { intros k Hk. destruct (le_lt_dec k jj); [specialize (C3 k); lia|apply Iright; lia]. }
    assert (Hmeet : (ii' <= jj' + 1)%nat).
    { destruct (le_lt_dec ii' (jj' + 1)) as [|Hgt]; [assumption|exfalso].
      destruct (le_lt_dec (jj' + 1) jj) as [Hle|Hgt2].
      - (* position jj'+1 was passed by the right pointer *)
        pose proof (C3 (jj' + 1)%nat ltac:(lia)) as V1.
        pose proof (Lleft (jj' + 1)%nat ltac:(lia)). lia.
      - (* the right pointer did not move *)
        assert (jj' = jj) by lia. subst jj'.
        pose proof (Iright (jj + 1)%nat ltac:(lia)).
        pose proof (B3 (jj + 1)%nat ltac:(lia)). lia. }
    assert (Hlast : i = j \/ (jj' < j)%nat \/ (ii' < j)%nat).
    { destruct Ilast as [|[|(k & Hk & Vk)]]; [now left|right; left; lia|].
      right; right. destruct (le_lt_dec ii' k); [lia|]. pose proof (B3 k ltac:(lia)). lia. }
    destruct (Nat.leb_spec jj' ii') as [Hstop|Hgo].
    - destruct (Nat.eqb_spec ii' jj') as [Heq|Hne].
      + rewrite rd_get by lia. cbn [rbind]. do 3 eexists. split; [reflexivity|].
        subst jj'. constructor; auto; try lia.
        * intros k Hk. destruct (Nat.eq_dec k ii') as [->|]; [exact C2|apply Lleft; lia].
        * rewrite lslice_step by lia. rewrite weight_total_app, weight_total_cons, weight_total_nil. lia.
      + do 3 eexists. split; [reflexivity|]. assert (ii' = jj' + 1)%nat by lia. subst ii'.
        constructor; auto; try lia.
        intros k Hk. apply Lleft. lia.
    - rewrite !rd_get by lia. cbn [rbind].
      change (upd jj' (get L ii') (upd ii' (get L jj') L)) with (swap L ii' jj').
      assert (Hl1 : (ii' < length L)%nat) by lia. assert (Hl2 : (jj' < length L)%nat) by lia.
      apply IH; [|lia]. constructor.
      + now rewrite length_swap.
      + intros k Hk. rewrite nth_swap by assumption.
        destruct (Nat.eqb_spec k jj'); [lia|]. destruct (Nat.eqb_spec k ii'); [lia|]. now apply Iout.
      + eapply Permutation_trans; [apply swap_perm; lia|exact Iperm].
      + intros k Hk. rewrite get_swap by lia.
        destruct (Nat.eqb_spec k jj'); [lia|]. destruct (Nat.eqb_spec k ii'); [exact C2|].
        apply Lleft. lia.
      + intros k Hk. rewrite get_swap by lia.
        destruct (Nat.eqb_spec k jj'); [exact B2|]. destruct (Nat.eqb_spec k ii'); [lia|].
        apply Lright. lia.
      + rewrite lslice_step by (rewrite ?length_swap; lia).
        rewrite weight_total_app, weight_total_cons, weight_total_nil.
        rewrite (lslice_ext _ (swap L ii' jj') L i ii').
        2:{ intros k Hk. rewrite nth_swap by assumption.
            destruct (Nat.eqb_spec k jj'); [lia|]. destruct (Nat.eqb_spec k ii'); [lia|reflexivity]. }
        rewrite get_swap by lia. destruct (Nat.eqb_spec ii' jj'); [lia|]. rewrite Nat.eqb_refl. lia.
      + lia.
      + lia.
      + exists jj'. split; [lia|]. rewrite get_swap by lia. rewrite Nat.eqb_refl. exact B2.
      + exists ii'. split; [lia|]. rewrite get_swap by lia.
        destruct (Nat.eqb_spec ii' jj'); [lia|]. rewrite Nat.eqb_refl. exact C2.
      + right. left. lia.
      + lia.
  Qed.
End Partition.

Lemma partition_start : forall L i j, (i <= j)%nat -> (j < length L)%nat ->
  exists L' jj wl, partition (S (length L)) L (fst (get L ((i + j) / 2))) i j 0 = Ok (L', jj, wl) /\
    pdone L (fst (get L ((i + j) / 2))) i j L' jj wl.
Proof.
  intros L i j Hij Hj.
  assert (Hm : (i <= (i + j) / 2 <= j)%nat).
  { split; [apply Nat.div_le_lower_bound|apply Nat.div_le_upper_bound]; lia. }
  apply partition_ok; auto; [|lia].
  constructor; auto; try lia.
  - rewrite lslice_nil. reflexivity.
  - exists ((i + j) / 2)%nat. split; [lia|lia].
  - exists ((i + j) / 2)%nat. split; [lia|lia].
  - destruct (Nat.eq_dec i j); [now left|]. right. right. exists ((i + j) / 2)%nat. split; [|lia].
    split; [lia|]. apply Nat.div_lt_upper_bound; lia.
Qed.
