(** Shared vocabulary: Python exceptions as values, list slicing, ranges,
    running sums, stable sorting, and facts about them. *)
From Coq Require Import List Arith ZArith Lia Bool Permutation Sorted.
Import ListNotations.

(** Exceptions raised by the code, as values. *)
Inductive exn :=
| ZeroDivisionError | IndexError | ValueError | KeyError | TypeError
| RuntimeError | AttributeError | FileNotFoundError | CaputConfigError
| PipelineConfigError | PipelineRuntimeError | PipelineStopIteration
| AxisException | UnsupportedOperation | UnboundLocalError | OtherException.

Inductive res (A : Type) :=
| Ok (a : A)
| Err (e : exn).
Arguments Ok {A} a.
Arguments Err {A} e.

Definition rbind {A B} (r : res A) (f : A -> res B) : res B :=
  match r with Ok a => f a | Err e => Err e end.

(** [l[a:b]] for [0 <= a], [0 <= b] (Python clips to the length). *)
Definition lslice {A} (a b : nat) (l : list A) : list A :=
  firstn (b - a) (skipn a l).

(** [range(a, b, s)] for [s >= 1]: CPython computes the number of entries
    first and then [a + k*s]. *)
Definition range_count (a b s : nat) : nat :=
  if a <? b then (b - a + (s - 1)) / s else 0.

Definition nrange (a b s : nat) : list nat :=
  map (fun k => a + k * s) (seq 0 (range_count a b s)).

(** Elements of [l] at the given positions. *)
Definition pick {A} (l : list A) (idx : list nat) : list A :=
  flat_map (fun i => match nth_error l i with Some x => [x] | None => [] end) idx.

(** [np.cumsum]. *)
Fixpoint cumsum_from (acc : nat) (l : list nat) : list nat :=
  match l with
  | [] => []
  | x :: t => (acc + x) :: cumsum_from (acc + x) t
  end.
Definition cumsum (l : list nat) : list nat := cumsum_from 0 l.

(** [list(enumerate(l))]. *)
Definition enumerate {A} (l : list A) : list (nat * A) :=
  combine (seq 0 (length l)) l.

(** [sorted(l, key=...)]: any stable sort computes the same list; this is
    insertion sort.  [leb] compares keys. *)
Section Sort.
  Context {A : Type} (leb : A -> A -> bool).
  Fixpoint sort_insert (x : A) (l : list A) : list A :=
    match l with
    | [] => [x]
    | y :: t => if leb x y then x :: y :: t else y :: sort_insert x t
    end.
  Definition py_sorted (l : list A) : list A := fold_right sort_insert [] l.

  Lemma sort_insert_perm : forall x l, Permutation (x :: l) (sort_insert x l).
  Proof.
    induction l as [|y t IH]; simpl; auto.
    destruct (leb x y); auto.
    eapply perm_trans; [apply perm_swap|]. now apply perm_skip.
  Qed.

  Lemma py_sorted_perm : forall l, Permutation l (py_sorted l).
  Proof.
    induction l as [|x l IH]; simpl; auto.
    eapply perm_trans; [apply perm_skip, IH|]. apply sort_insert_perm.
  Qed.

  Hypothesis leb_total : forall x y, leb x y = true \/ leb y x = true.
  Hypothesis leb_trans :
    forall x y z, leb x y = true -> leb y z = true -> leb x z = true.

  Lemma sort_insert_sorted : forall x l,
    StronglySorted (fun a b => leb a b = true) l ->
    StronglySorted (fun a b => leb a b = true) (sort_insert x l).
  Proof.
    induction l as [|y t IH]; simpl; intros H.
    - repeat constructor.
    - inversion H as [|? ? Ht Hall]; subst.
      destruct (leb x y) eqn:E.
      + constructor; auto. constructor; auto.
        rewrite Forall_forall in *. intros z Hz. eapply leb_trans; eauto.
      + constructor; auto.
        assert (Hyx : leb y x = true) by (destruct (leb_total x y); congruence).
        rewrite Forall_forall in *. intros z Hz.
        apply Permutation_in with (l' := x :: t) in Hz.
        2: apply Permutation_sym, sort_insert_perm.
        destruct Hz as [->|Hz]; auto.
  Qed.

  Lemma py_sorted_sorted : forall l,
    StronglySorted (fun a b => leb a b = true) (py_sorted l).
  Proof.
    induction l; simpl; [constructor|]. now apply sort_insert_sorted.
  Qed.
End Sort.

(** *** Facts *)

Lemma length_lslice : forall A a b (l : list A),
  length (lslice a b l) = Nat.min (b - a) (length l - a).
Proof. intros. unfold lslice. now rewrite firstn_length, skipn_length. Qed.

Lemma nth_error_lslice : forall A a b (l : list A) k,
  nth_error (lslice a b l) k =
  if a + k <? b then nth_error l (a + k) else None.
Proof.
  intros. unfold lslice. destruct (Nat.ltb_spec (a + k) b).
  - rewrite <- (firstn_skipn a l) at 2.
    destruct (le_lt_dec (length l) a) as [Hl|Hl].
    + rewrite skipn_all2 by lia. rewrite firstn_nil, app_nil_r.
      rewrite (proj2 (nth_error_None (firstn a l) (a + k))).
      * destruct k; reflexivity.
      * rewrite firstn_length. lia.
    + rewrite nth_error_app2 by (rewrite firstn_length; lia).
      rewrite firstn_length, Nat.min_l by lia.
      replace (a + k - a) with k by lia.
      assert (k < b - a) by lia. clear -H0.
      revert k H0. generalize (b - a) (skipn a l).
      intros n; induction n as [|n IH]; intros l' k Hk; [lia|].
      destruct l' as [|y t]; destruct k as [|k]; simpl; auto.
      apply IH. lia.
  - apply nth_error_None. rewrite firstn_length. lia.
Qed.

Lemma skipn_plus : forall A a b (l : list A), skipn a (skipn b l) = skipn (b + a) l.
Proof.
  intros A a b. induction b as [|b IH]; intros l; simpl; auto.
  destruct l; simpl; auto. now destruct a.
Qed.

Lemma lslice_app : forall A a b c (l : list A),
  a <= b -> b <= c -> lslice a b l ++ lslice b c l = lslice a c l.
Proof.
  intros A a b c l Hab Hbc. unfold lslice.
  replace (c - a) with ((b - a) + (c - b)) by lia.
  assert (E : skipn b l = skipn (b - a) (skipn a l)).
  { rewrite skipn_plus. f_equal. lia. }
  rewrite E. generalize (skipn a l) as m. generalize (b - a) as p.
  intros p m. revert m.
  induction p as [|p IH]; intros m; simpl; auto.
  destruct m as [|x m]; simpl.
  - now rewrite firstn_nil.
  - f_equal. apply IH.
Qed.

Lemma lslice_full : forall A (l : list A) b, length l <= b -> lslice 0 b l = l.
Proof.
  intros. unfold lslice. simpl. rewrite Nat.sub_0_r. now apply firstn_all2.
Qed.

Lemma lslice_empty : forall A a b (l : list A), b <= a -> lslice a b l = [].
Proof. intros. unfold lslice. now replace (b - a) with 0 by lia. Qed.

Lemma length_cumsum_from : forall l acc, length (cumsum_from acc l) = length l.
Proof. induction l; simpl; auto. Qed.

Lemma nth_cumsum_from : forall l acc k, k < length l ->
  nth k (cumsum_from acc l) 0 = acc + list_sum (firstn (S k) l).
Proof.
  induction l as [|x l IH]; intros acc k Hk; simpl in Hk; [lia|].
  destruct k as [|k]; [simpl; lia|].
  cbn [cumsum_from nth]. rewrite IH by lia.
  change (firstn (S (S k)) (x :: l)) with (x :: firstn (S k) l).
  change (list_sum (x :: firstn (S k) l)) with (x + list_sum (firstn (S k) l)). lia.
Qed.

Lemma list_sum_cons : forall x l, list_sum (x :: l) = x + list_sum l.
Proof. reflexivity. Qed.

Lemma list_sum_firstn_S : forall l k, k < length l ->
  list_sum (firstn (S k) l) = list_sum (firstn k l) + nth k l 0.
Proof.
  induction l as [|x l IH]; intros k Hk; simpl in Hk; [lia|].
  destruct k as [|k]; [simpl; lia|].
  change (firstn (S (S k)) (x :: l)) with (x :: firstn (S k) l).
  change (firstn (S k) (x :: l)) with (x :: firstn k l).
  rewrite !list_sum_cons, IH by lia. cbn [nth]. lia.
Qed.

Lemma length_enumerate : forall A (l : list A), length (enumerate l) = length l.
Proof. intros. unfold enumerate. rewrite combine_length, seq_length. lia. Qed.

Lemma nth_error_combine : forall A B (l : list A) (m : list B) k,
  nth_error (combine l m) k =
  match nth_error l k, nth_error m k with
  | Some a, Some b => Some (a, b) | _, _ => None end.
Proof.
  induction l as [|x l IH]; intros m k; destruct m as [|y m]; destruct k; simpl; auto.
  - now destruct (nth_error l k).
Qed.

Lemma nth_error_seq : forall a n k,
  nth_error (seq a n) k = if k <? n then Some (a + k) else None.
Proof.
  intros a n k. destruct (Nat.ltb_spec k n).
  - rewrite (nth_error_nth' _ 0) by (rewrite seq_length; lia).
    now rewrite seq_nth by lia.
  - apply nth_error_None. now rewrite seq_length.
Qed.

Lemma nth_error_enumerate : forall A (l : list A) k,
  nth_error (enumerate l) k =
  match nth_error l k with Some x => Some (k, x) | None => None end.
Proof.
  intros. unfold enumerate. rewrite nth_error_combine, nth_error_seq.
  destruct (Nat.ltb_spec k (length l)); simpl.
  - now destruct (nth_error l k).
  - now rewrite (proj2 (nth_error_None l k)) by lia.
Qed.

Lemma map_fst_enumerate : forall A (l : list A),
  map fst (enumerate l) = seq 0 (length l).
Proof.
  intros A l. unfold enumerate. generalize 0.
  induction l as [|x l IH]; intros s; simpl; auto. f_equal. apply IH.
Qed.

Lemma map_snd_enumerate : forall A (l : list A), map snd (enumerate l) = l.
Proof.
  intros A l. unfold enumerate. generalize 0.
  induction l as [|x l IH]; intros s; simpl; auto. f_equal. apply IH.
Qed.

Lemma nth_error_ext : forall A (l m : list A),
  (forall k, nth_error l k = nth_error m k) -> l = m.
Proof.
  induction l as [|x l IH]; intros [|y m] H; auto.
  - specialize (H 0); discriminate.
  - specialize (H 0); discriminate.
  - f_equal.
    + specialize (H 0). now inversion H.
    + apply IH. intros k. exact (H (S k)).
Qed.

Lemma nth_error_map' : forall A B (f : A -> B) l k,
  nth_error (map f l) k = match nth_error l k with Some x => Some (f x) | None => None end.
Proof. intros. rewrite nth_error_map. now destruct (nth_error l k). Qed.

Lemma NoDup_nth_error_inj : forall A (l : list A), NoDup l ->
  forall i j x, nth_error l i = Some x -> nth_error l j = Some x -> i = j.
Proof.
  intros A l H i j x Hi Hj. rewrite NoDup_nth_error in H. apply H.
  - apply nth_error_Some. congruence.
  - congruence.
Qed.

(** Two lists sorted strictly by a key with the same members are equal. *)
Lemma strictly_sorted_unique : forall A (key : A -> nat) (l m : list A),
  StronglySorted (fun a b => key a < key b) l ->
  StronglySorted (fun a b => key a < key b) m ->
  Permutation l m -> l = m.
Proof.
  intros A key. induction l as [|x l IH]; intros m Hl Hm P.
  - apply Permutation_nil in P. now subst.
  - destruct m as [|y m].
    + apply Permutation_sym, Permutation_nil in P. discriminate.
    + inversion Hl as [|? ? Hl' Fl]; inversion Hm as [|? ? Hm' Fm]; subst.
      rewrite Forall_forall in *.
      assert (x = y).
      { assert (Ix : In x (y :: m)) by (eapply Permutation_in; [exact P|now left]).
        assert (Iy : In y (x :: l))
          by (eapply Permutation_in; [apply Permutation_sym, P|now left]).
        destruct Ix as [->|Ix]; auto. destruct Iy as [->|Iy]; auto.
        specialize (Fl _ Iy). specialize (Fm _ Ix). lia. }
      subst y. f_equal. apply IH; auto.
      eapply Permutation_cons_inv; eauto.
Qed.

Lemma NoDup_nodup_keys : forall A (key : A -> nat) (l : list A),
  StronglySorted (fun a b => key a <= key b) l -> NoDup (map key l) ->
  StronglySorted (fun a b => key a < key b) l.
Proof.
  induction l as [|x l IH]; intros H N; [constructor|].
  inversion H; inversion N; subst. constructor; auto.
  rewrite Forall_forall in *. intros y Hy.
  assert (key x <> key y) by (intros E; apply H6; rewrite E; now apply in_map).
  specialize (H3 _ Hy). lia.
Qed.
