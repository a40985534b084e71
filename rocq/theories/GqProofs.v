(** Proofs about the quickselect over any numbers: it stays inside the array and ends. *)
From Coq Require Import List ZArith Bool Arith Permutation Lia.
From Verif Require Import PyBase MedModel GqModel GqSpec.
Import ListNotations.
Open Scope nat_scope.

Section Bounds.
Context {D W S : Type} (o : ops D W S).
Notation datum := (D * W)%type.

Lemma gread_ok : forall (l : list datum) k, k < length l -> exists x, gread l k = Ok x /\ nth_error l k = Some x.
Proof.
  intros l k H. unfold gread. destruct (nth_error l k) as [x|] eqn:E; [now exists x|].
  apply nth_error_None in E. lia.
Qed.
Lemma gread_some : forall (l : list datum) k x, nth_error l k = Some x -> gread l k = Ok x.
Proof. intros l k x H. unfold gread. now rewrite H. Qed.
Lemma gset_length : forall k x (l : list datum), length (gset k x l) = length l.
Proof. intros k x l. revert k. induction l as [|y l IH]; intros [|k]; cbn; auto. Qed.
Lemma gset_nth : forall k x (l : list datum) j, k < length l ->
  nth_error (gset k x l) j = if j =? k then Some x else nth_error l j.
Proof.
  intros k x l. revert k. induction l as [|y l IH]; intros [|k] j H; cbn in *; try lia.
  - destruct j; reflexivity.
  - destruct j; cbn; [reflexivity|]. apply IH. lia.
Qed.
Lemma gswap_nth : forall i j x y (l : list datum) k, nth_error l i = Some x -> nth_error l j = Some y ->
  nth_error (gset j x (gset i y l)) k = if k =? j then Some x else if k =? i then Some y else nth_error l k.
Proof.
  intros i j x y l k Hi Hj.
  assert (i < length l) by (apply nth_error_Some; congruence).
  assert (j < length l) by (apply nth_error_Some; congruence).
  rewrite gset_nth by (rewrite gset_length; lia). destruct (k =? j); [reflexivity|]. now apply gset_nth.
Qed.

(** the data below and above a pivot *)
Definition low (l : list datum) (p : D) (k : nat) : Prop :=
  exists x, nth_error l k = Some x /\ d_lt o p (fst x) = false.
Definition high (l : list datum) (p : D) (k : nat) : Prop :=
  exists x, nth_error l k = Some x /\ d_lt o (fst x) p = false.

Lemma gup_ok : forall fuel (l : list datum) p ii wl k, ii <= k -> high l p k -> k - ii < fuel ->
  exists ii' wl', gup o fuel l p ii wl = Ok (ii', wl') /\ ii <= ii' <= k /\ high l p ii' /\
    forall x, ii <= x < ii' -> exists d, nth_error l x = Some d /\ d_lt o (fst d) p = true.
Proof.
  induction fuel as [|fuel IH]; intros l p ii wl k H1 H2 H3; [lia|]. cbn [gup].
  destruct H2 as (z & Hz & Vz).
  assert (k < length l) by (apply nth_error_Some; congruence).
  destruct (gread_ok l ii) as (x & E & Ex); [lia|]. rewrite E. cbn [rbind].
  destruct (d_lt o (fst x) p) eqn:Hlt.
  - assert (ii <> k) by (intros ->; congruence).
    destruct (IH l p (ii + 1) (s_add o wl (snd x)) k) as (ii' & wl' & E1 & B1 & B2 & B3);
      [lia|now exists z|lia|].
    exists ii', wl'. split; [exact E1|]. split; [lia|]. split; [exact B2|].
    intros y Hy. destruct (Nat.eq_dec y ii) as [->|]; [now exists x|]. apply B3. lia.
  - exists ii, wl. split; [reflexivity|]. split; [lia|]. split; [now exists x|]. intros y Hy. lia.
Qed.
Lemma gdown_ok : forall fuel (l : list datum) p jj k, k <= jj -> jj < length l -> low l p k -> jj - k < fuel ->
  exists jj', gdown o fuel l p jj = Ok jj' /\ k <= jj' <= jj /\ low l p jj' /\
    forall x, jj' < x <= jj -> exists d, nth_error l x = Some d /\ d_lt o p (fst d) = true.
Proof.
  induction fuel as [|fuel IH]; intros l p jj k H1 H2 H3 H4; [lia|]. cbn [gdown].
  destruct (gread_ok l jj) as (x & E & Ex); [lia|]. rewrite E. cbn [rbind].
  destruct (d_lt o p (fst x)) eqn:Hlt.
  - assert (jj <> k) by (intros ->; destruct H3 as (z & Hz & Vz); congruence).
    destruct jj as [|jj]; [lia|].
    destruct (IH l p jj k) as (jj' & E1 & B1 & B2 & B3); [lia|lia|exact H3|lia|].
    exists jj'. split; [exact E1|]. split; [lia|]. split; [exact B2|].
    intros y Hy. destruct (Nat.eq_dec y (Datatypes.S jj)) as [->|]; [now exists x|]. apply B3. lia.
  - exists jj. split; [reflexivity|]. split; [lia|]. split; [now exists x|]. intros y Hy. lia.
Qed.

Context (Has : asymmetric (d_lt o)).
Lemma irreflexive : forall x, d_lt o x x = false.
Proof. intro x. destruct (d_lt o x x) eqn:E; [|reflexivity]. pose proof (Has x x E). congruence. Qed.

Lemma swap_permutation : forall i j x y (l : list datum), i < j -> nth_error l i = Some x ->
  nth_error l j = Some y -> Permutation (gset j x (gset i y l)) l.
Proof.
  intros i j x y l. revert i j. induction l as [|z l IH]; intros i j Hij Hi Hj.
  - destruct i; discriminate.
  - destruct j as [|j]; [lia|]. destruct i as [|i]; cbn in *.
    + injection Hi as ->. clear IH Hij. revert l Hj. clear. intros l Hj.
      assert (G : forall l j, nth_error l j = Some y -> Permutation (y :: gset j x l) (x :: l)).
      { induction l0 as [|a l0 IH]; intros [|k] H; cbn in *; try discriminate.
        - injection H as ->. apply perm_swap.
        - eapply perm_trans; [apply perm_swap|]. eapply perm_trans; [apply perm_skip, IH, H|]. apply perm_swap. }
      now apply G.
    + apply perm_skip, IH; [lia|assumption|assumption].
Qed.

Section Partition.
Context (L0 : list datum) (p : D) (i j : nat) (Hij : i <= j) (Hj : j < length L0).

Lemma gpartition_ok : forall fuel (l : list datum) ii jj wl,
  Permutation l L0 -> i <= ii -> jj <= j -> ii <= jj + 1 ->
  (forall k, i <= k < ii -> low l p k) -> (forall k, jj < k <= j -> high l p k) ->
  (exists k, ii <= k <= j /\ high l p k) -> (exists k, i <= k <= jj /\ low l p k) ->
  (i = j \/ jj < j \/ exists k, ii <= k < j /\ high l p k) ->
  jj + 1 - ii < fuel ->
  exists l' jj' wl', gpartition o fuel l p ii jj wl = Ok (l', jj', wl') /\ Permutation l' L0 /\
    i <= jj' <= j /\ (i = j \/ jj' < j).
Proof.
  induction fuel as [|fuel IH]; intros l ii jj wl HP Iii Ijj Imeet Ileft Iright Iup Idown Ilast Hf; [lia|].
  cbn [gpartition]. pose proof (Permutation_length HP) as Hlen.
  destruct Iup as (ku & Hku & Vku). destruct Idown as (kd & Hkd & Vkd).
  destruct (gup_ok (Datatypes.S (length l)) l p ii wl ku) as (ii' & wl1 & E1 & B1 & B2 & B3); [lia|exact Vku|lia|].
  rewrite E1. cbn [rbind].
  destruct (gdown_ok (Datatypes.S (length l)) l p jj kd) as (jj' & E2 & C1 & C2 & C3); [lia|lia|exact Vkd|lia|].
  rewrite E2. cbn [rbind].
  assert (Lleft : forall k, i <= k < ii' -> low l p k).
  { intros k Hk. destruct (le_lt_dec ii k); [|apply Ileft; lia].
    destruct (B3 k) as (d & Hd & Vd); [lia|]. exists d. split; [exact Hd|]. now apply Has. }
  assert (Lright : forall k, jj' < k <= j -> high l p k).
  { intros k Hk. destruct (le_lt_dec k jj); [|apply Iright; lia].
    destruct (C3 k) as (d & Hd & Vd); [lia|]. exists d. split; [exact Hd|]. now apply Has. }
  assert (Hmeet : ii' <= jj' + 1).
  { destruct (le_lt_dec ii' (jj' + 1)) as [|Hgt]; [assumption|exfalso].
    destruct (le_lt_dec (jj' + 1) jj) as [Hle|Hgt2].
    - destruct (C3 (jj' + 1)) as (d & Hd & Vd); [lia|].
      destruct (Lleft (jj' + 1)) as (d2 & Hd2 & Vd2); [lia|]. congruence.
    - assert (jj' = jj) by lia. subst jj'.
      destruct (Iright (jj + 1)) as (d & Hd & Vd); [lia|].
      destruct (B3 (jj + 1)) as (d2 & Hd2 & Vd2); [lia|]. congruence. }
  assert (Hlast : i = j \/ jj' < j \/ ii' < j).
  { destruct Ilast as [|[|(k & Hk & (d & Hd & Vd))]]; [now left|right; left; lia|].
    right; right. destruct (le_lt_dec ii' k); [lia|].
    destruct (B3 k) as (d2 & Hd2 & Vd2); [lia|]. congruence. }
  destruct (Nat.leb_spec jj' ii') as [Hstop|Hgo].
  - destruct (Nat.eqb_spec ii' jj') as [Heq|Hne].
    + destruct (gread_ok l ii') as (x & E & _); [lia|]. rewrite E. cbn [rbind].
      do 3 eexists. split; [reflexivity|]. split; [exact HP|]. lia.
    + do 3 eexists. split; [reflexivity|]. split; [exact HP|]. lia.
  - destruct (gread_ok l ii') as (x & E & Ex); [lia|]. rewrite E. cbn [rbind].
    destruct (gread_ok l jj') as (y & E' & Ey); [lia|]. rewrite E'. cbn [rbind].
    assert (Hx : d_lt o (fst x) p = false) by (destruct B2 as (z & Hz & Vz); congruence).
    assert (Hy : d_lt o p (fst y) = false) by (destruct C2 as (z & Hz & Vz); congruence).
    pose proof (gswap_nth ii' jj' x y l) as G.
    apply IH; [|lia|lia|lia| | | | | |lia].
    + eapply perm_trans; [apply swap_permutation; eauto|exact HP].
    + intros k Hk. destruct (Nat.eq_dec k ii') as [->|Hk2].
      * exists y. split; [|exact Hy]. rewrite G by assumption.
        destruct (Nat.eqb_spec ii' jj'); [lia|]. now rewrite Nat.eqb_refl.
      * destruct (Lleft k) as (d & Hd & Vd); [lia|]. exists d. split; [|exact Vd].
        rewrite G by assumption. destruct (Nat.eqb_spec k jj'); [lia|]. destruct (Nat.eqb_spec k ii'); [lia|exact Hd].
    + intros k Hk. destruct (Nat.eq_dec k jj') as [->|Hk2].
      * exists x. split; [|exact Hx]. rewrite G by assumption. now rewrite Nat.eqb_refl.
      * destruct (Lright k) as (d & Hd & Vd); [lia|]. exists d. split; [|exact Vd].
        rewrite G by assumption. destruct (Nat.eqb_spec k jj'); [lia|]. destruct (Nat.eqb_spec k ii'); [lia|exact Hd].
    + exists jj'. split; [lia|]. exists x. split; [|exact Hx]. rewrite G by assumption. now rewrite Nat.eqb_refl.
    + exists ii'. split; [lia|]. exists y. split; [|exact Hy]. rewrite G by assumption.
      destruct (Nat.eqb_spec ii' jj'); [lia|]. now rewrite Nat.eqb_refl.
    + right. left. lia.
Qed.
End Partition.

Lemma gpartition_start : forall (l : list datum) i j pv wl, i <= j -> j < length l ->
  nth_error l ((i + j) / 2) = Some pv ->
  exists l' jj' wl', gpartition o (Datatypes.S (length l)) l (fst pv) i j wl = Ok (l', jj', wl') /\
    Permutation l' l /\ i <= jj' <= j /\ (i = j \/ jj' < j).
Proof.
  intros l i j pv wl Hij Hj Hpv.
  assert (Hm : i <= (i + j) / 2 <= j).
  { split; [apply Nat.div_le_lower_bound|apply Nat.div_le_upper_bound]; lia. }
  assert (Hlow : low l (fst pv) ((i + j) / 2)) by (exists pv; split; [exact Hpv|apply irreflexive]).
  assert (Hhigh : high l (fst pv) ((i + j) / 2)) by (exists pv; split; [exact Hpv|apply irreflexive]).
  apply gpartition_ok; auto; try lia.
  - exists ((i + j) / 2). split; [lia|exact Hhigh].
  - exists ((i + j) / 2). split; [lia|exact Hlow].
  - destruct (Nat.eq_dec i j); [now left|]. right. right. exists ((i + j) / 2). split; [|exact Hhigh].
    split; [lia|]. apply Nat.div_lt_upper_bound; lia.
Qed.

Lemma gbest_ok : forall better (l : list datum) iis cur, cur < length l -> (forall k, In k iis -> k < length l) ->
  exists k, gbest o better l cur iis = Ok k /\ k < length l.
Proof.
  intros better l iis. induction iis as [|ii iis IH]; intros cur Hc Hk; cbn [gbest]; [now exists cur|].
  destruct (gread_ok l cur Hc) as (c & E & _). rewrite E. cbn [rbind].
  assert (Hii : ii < length l) by (apply Hk; now left).
  destruct (gread_ok l ii Hii) as (x & E' & _). rewrite E'. cbn [rbind].
  assert (H : forall k, In k iis -> k < length l) by (intros; apply Hk; now right).
  destruct (Bool.eqb _ _); [destruct (better _ _); now apply IH|]. destruct (w_pos o (snd x)); now apply IH.
Qed.
Lemma in_fst : forall (l : list datum) k x, nth_error l k = Some x -> In (fst x) (map fst l).
Proof. intros l k x H. apply in_map. eapply nth_error_In. exact H. Qed.

Lemma gboundary_ok : forall (l : list datum) jj m, jj + 1 < length l ->
  exists a, gboundary o l jj m = Ok a /\ of_data l a.
Proof.
  intros l jj m H. unfold gboundary, gmax, gmin.
  destruct (gbest_ok (fun a b => d_lt o b a) l (seq (0 + 1) (jj - 0)) 0) as (i & E1 & Hi); [lia| |].
  { intros k Hk. apply in_seq in Hk. lia. }
  rewrite E1. cbn [rbind].
  destruct (gbest_ok (fun a b => d_lt o a b) l (seq (jj + 1 + 1) (length l - 1 - (jj + 1))) (jj + 1)) as (j & E2 & Hj); [lia| |].
  { intros k Hk. apply in_seq in Hk. lia. }
  rewrite E2. cbn [rbind].
  destruct (gread_ok l j Hj) as (y & Ey & Ny). rewrite Ey. cbn [rbind].
  destruct (gread_ok l i Hi) as (x & Ex & Nx). rewrite Ex. cbn [rbind].
  apply in_fst in Nx, Ny.
  destruct (_ || _); [eexists; split; [reflexivity|exact Nx]|].
  destruct (_ || _); eexists; (split; [reflexivity|]); cbn; auto.
Qed.
Lemma of_data_perm : forall (l l' : list datum) a, Permutation l l' -> of_data l a -> of_data l' a.
Proof.
  intros l l' a H. assert (P : forall x, In x (map fst l) -> In x (map fst l')).
  { intro x. apply Permutation_in. now apply Permutation_map. }
  destruct a; cbn; [apply P|]. intros [A B]. split; now apply P.
Qed.

Theorem gselect_ok : forall fuel (l : list datum) i j qs m, i < j -> j < length l -> j - i < fuel ->
  exists a, gselect o fuel l i j qs m = Ok a /\ of_data l a.
Proof.
  induction fuel as [|fuel IH]; intros l i j qs m Hij Hj Hf; [lia|]. cbn [gselect].
  assert (Hm : (i + j) / 2 < length l).
  { apply Nat.le_lt_trans with j; [apply Nat.div_le_upper_bound; lia|exact Hj]. }
  destruct (gread_ok l _ Hm) as (pv & E & Epv). rewrite E. cbn [rbind].
  destruct (gpartition_start l i j pv (s_zero o)) as (l' & jj & wl & E1 & HP & Hjj & Hl); [lia|lia|exact Epv|].
  rewrite E1. cbn [rbind]. pose proof (Permutation_length HP) as Hlen.
  destruct (s_eq o qs wl).
  - destruct (gboundary_ok l' jj m) as (a & Ea & Ha); [lia|]. exists a. split; [exact Ea|].
    now apply (of_data_perm l').
  - assert (G : forall i' j' qs', i' <= j' -> j' < length l -> j' - i' < fuel ->
      exists a, (if i' =? j' then rbind (gread l' i') (fun x => Ok (One (fst x))) else gselect o fuel l' i' j' qs' m) = Ok a
        /\ of_data l a).
    { intros i' j' qs' A B C. destruct (Nat.eqb_spec i' j') as [Heq|Hne].
      - destruct (gread_ok l' i') as (x & Ex & Nx); [lia|]. rewrite Ex. cbn [rbind].
        eexists. split; [reflexivity|]. apply in_fst in Nx. now apply (of_data_perm l').
      - destruct (IH l' i' j' qs' m) as (a & Ea & Ha); [lia|lia|lia|]. exists a. split; [exact Ea|].
        now apply (of_data_perm l'). }
    destruct (s_le o qs wl); apply G; lia.
Qed.

Theorem gquickselect_ok : forall (l : list datum) qs m, 2 <= length l ->
  exists a, gquickselect o l qs m = Ok a /\ of_data l a.
Proof.
  intros l qs m H. unfold gquickselect. destruct l as [|x l]; [cbn in H; lia|].
  apply gselect_ok; lia.
Qed.
Theorem grow_ok : forall (l : list datum) q m, 2 <= length l -> exists a, grow o l q m = Ok a /\ of_data l a.
Proof.
  intros l q m H. unfold grow. destruct (s_eq o _ _).
  - destruct (gquickselect_ok (map (fun x => (fst x, w_one o)) l) (s_mul o (s_nat o (length l)) q) m) as (a & E & Ha).
    + now rewrite map_length.
    + exists a. split; [exact E|]. destruct a; cbn in *; rewrite map_map in Ha; exact Ha.
  - now apply gquickselect_ok.
Qed.

(** One element *)
Theorem gone_ok : forall (x : datum) qs m,
  (exists a, gquickselect o [x] qs m = Ok a) <->
  s_eq o qs (s_add o (s_zero o) (snd x)) = false /\ s_le o qs (s_add o (s_zero o) (snd x)) = true.
Proof.
  intros x qs m. cbn -[gboundary]. rewrite irreflexive. cbn -[gboundary].
  destruct (s_eq o qs _) eqn:E.
  - split; [|intros [H _]; discriminate]. intros [a H]. cbn in H. discriminate.
  - destruct (s_le o qs _) eqn:E2; cbn; [split; eauto|].
    split; [|intros [_ H]; discriminate]. intros [a H]. cbn in H. discriminate.
Qed.
End Bounds.
