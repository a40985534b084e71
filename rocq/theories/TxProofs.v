(** Proofs for whole containers of time-ordered data: the walk. *)
From Coq Require Import String.
From Coq Require Import List Ascii Bool Arith ZArith Permutation Lia Sorted.
From Verif Require Import PyBase PyStr MemModel AttrModel AttrProofs MemProofs2 TodModel TodSpec TodProofs TxModel TxSpec.
Import ListNotations.
Open Scope list_scope.
Open Scope nat_scope.

Lemma mem_iff : forall x l, mem x l = true <-> In x l.
Proof.
  intros x l. unfold mem. rewrite existsb_exists. split.
  - intros (y & H & E). apply seqb_eq in E. now subst.
  - intros H. exists x. split; [exact H|apply seqb_refl].
Qed.
Lemma mem_not : forall x l, mem x l = false <-> ~ In x l.
Proof. intros x l. rewrite <- mem_iff. destruct (mem x l); split; congruence. Qed.

Lemma has_axis_iff : forall e axes, dset_has_axis e axes = true <-> OnAxis axes e.
Proof.
  intros [n a|n kids] axes; cbn [dset_has_axis].
  - rewrite existsb_exists. split.
    + intros (x & H & E). exists n, a, x. apply mem_iff in E. auto.
    + intros (n' & a' & x & E & H1 & H2). injection E as <- <-. exists x. split; [exact H1|now apply mem_iff].
  - split; [discriminate|]. intros (n' & a' & x & E & _). discriminate E.
Qed.

(** The order in which the walk comes past the entries. *)
Definition kids_up (kids : list (str * entry)) : list entry := map snd (py_sorted key_le kids).
Fixpoint pre (fuel : nat) (e : entry) : list entry :=
  match fuel with
  | 0 => []
  | S fuel => e :: match e with EDset _ _ => [] | EGroup _ kids => flat_map (pre fuel) (kids_up kids) end
  end.

Lemma size_pos : forall e, 1 <= entry_size e.
Proof. intros [n a|n kids]; cbn [entry_size]; lia. Qed.

Lemma list_sum_perm : forall l l', Permutation l l' -> list_sum l = list_sum l'.
Proof. induction 1; cbn [list_sum fold_right] in *; unfold list_sum in *; cbn; lia. Qed.
Lemma kids_up_perm : forall kids, Permutation (map snd kids) (kids_up kids).
Proof. intros kids. unfold kids_up. apply Permutation_map, py_sorted_perm. Qed.
Lemma kids_up_size : forall kids,
  list_sum (map entry_size (kids_up kids)) = list_sum (map (fun p => entry_size (snd p)) kids).
Proof.
  intros kids. symmetry. rewrite <- (map_map snd entry_size). apply list_sum_perm, Permutation_map, kids_up_perm.
Qed.
Lemma sum_in : forall (l : list entry) x, In x l -> entry_size x <= list_sum (map entry_size l).
Proof.
  induction l as [|y l IH]; intros x Hx; [destruct Hx|]. destruct Hx as [->|H]; cbn [map list_sum fold_right]; [lia|].
  specialize (IH x H). unfold list_sum in *. lia.
Qed.
Lemma pre_enough : forall f e, entry_size e <= f -> pre f e = pre (entry_size e) e.
Proof.
  assert (G : forall f f' e, entry_size e <= f -> entry_size e <= f' -> pre f e = pre f' e).
  { induction f as [|f IH]; intros f' e H H'; [pose proof (size_pos e); lia|].
    destruct f' as [|f']; [pose proof (size_pos e); lia|]. cbn [pre]. f_equal.
    destruct e as [n a|n kids]; [reflexivity|]. cbn [entry_size] in H, H'. rewrite <- kids_up_size in H, H'.
    assert (K : forall l, list_sum (map entry_size l) <= f -> list_sum (map entry_size l) <= f' ->
                flat_map (pre f) l = flat_map (pre f') l).
    { induction l as [|x l IHl]; intros A B; [reflexivity|]. cbn [flat_map map list_sum fold_right] in *.
      change (fold_right Nat.add 0 (map entry_size l)) with (list_sum (map entry_size l)) in *.
      f_equal; [apply IH; lia|apply IHl; lia]. }
    apply K; lia. }
  intros f e H. apply G; lia.
Qed.
Definition order (e : entry) : list entry := pre (entry_size e) e.
Lemma order_group : forall n kids, order (EGroup n kids) = EGroup n kids :: flat_map order (kids_up kids).
Proof.
  intros n kids. unfold order at 1. cbn [entry_size pre]. f_equal.
  rewrite <- kids_up_size. set (t := list_sum (map entry_size (kids_up kids))).
  assert (G : forall l, list_sum (map entry_size l) <= t -> flat_map (pre t) l = flat_map order l).
  { induction l as [|x l IH]; intros H; [reflexivity|]. cbn [flat_map map list_sum fold_right] in *.
    change (fold_right Nat.add 0 (map entry_size l)) with (list_sum (map entry_size l)) in *.
    f_equal; [apply pre_enough; lia|apply IH; lia]. }
  apply G. apply Nat.le_refl.
Qed.

Lemma flat_perm : forall (f g : entry -> list entry) l l',
  (forall x, In x l -> Permutation (f x) (g x)) -> Permutation l l' -> Permutation (flat_map f l) (flat_map g l').
Proof.
  intros f g l l' H P. transitivity (flat_map g l).
  - clear P. induction l as [|x l IH]; [reflexivity|]. cbn [flat_map]. apply Permutation_app; [apply H; now left|].
    apply IH. intros y Hy. apply H. now right.
  - clear H. induction P; cbn [flat_map]; [reflexivity|now apply Permutation_app_head| |now transitivity (flat_map g l')].
    rewrite !app_assoc. apply Permutation_app_tail, Permutation_app_comm.
Qed.
Lemma order_flatten : forall m e, entry_size e <= m -> Permutation (order e) (flatten e).
Proof.
  induction m as [|m IH]; intros e H; [pose proof (size_pos e); lia|].
  destruct e as [n a|n kids]; [reflexivity|]. rewrite order_group. cbn [flatten]. apply perm_skip.
  assert (E : flat_map (fun p : str * entry => flatten (snd p)) kids = flat_map flatten (map snd kids))
    by (clear; induction kids as [|p l IH]; [reflexivity|]; cbn [flat_map map]; now rewrite IH).
  rewrite E.
  apply flat_perm; [|apply Permutation_sym, kids_up_perm].
  intros x Hx. apply IH. cbn [entry_size] in H. rewrite <- kids_up_size in H.
  pose proof (sum_in _ _ Hx). lia.
Qed.

(** The walk. *)
Definition Named (e : entry) : Prop := forall x, In x (order e) -> mem (ename x) [s_ "index_map"; s_ "reverse_map"] = false.
Lemma absolute_named : forall e, Absolute e -> Named e.
Proof.
  intros e H x Hx. apply (Permutation_in x (order_flatten _ e (Nat.le_refl _))) in Hx.
  destruct (H x Hx) as (r & ->). reflexivity.
Qed.
Lemma walk_ok : forall axes fuel stack times copies,
  list_sum (map entry_size stack) <= fuel -> (forall e, In e stack -> Named e) ->
  walk fuel axes stack times copies
  = (times ++ map ename (filter (fun e => dset_has_axis e axes) (flat_map order stack)),
     copies ++ filter (fun e => negb (dset_has_axis e axes)) (flat_map order stack)).
Proof.
  intros axes. induction fuel as [|fuel IH]; intros stack times copies H HN.
  - destruct stack as [|e stack]; [cbn; now rewrite !app_nil_r|].
    cbn [map list_sum fold_right] in H. pose proof (size_pos e). unfold list_sum in H. lia.
  - destruct stack as [|e stack]; [cbn; now rewrite !app_nil_r|].
    cbn [walk]. assert (Hs : In e (order e)).
    { unfold order. pose proof (size_pos e). destruct (entry_size e); [lia|]. cbn [pre]. now left. }
    rewrite (HN e (or_introl eq_refl) e Hs).
    cbn [map list_sum fold_right] in H. change (fold_right Nat.add 0 (map entry_size stack)) with (list_sum (map entry_size stack)) in H.
    assert (HN' : forall x, In x stack -> Named x) by (intros x Hx; apply HN; now right).
    destruct e as [n a|n kids].
    + cbn [flat_map]. change (order (EDset n a)) with [EDset n a]. cbn [app filter]. cbn [entry_size] in H.
      destruct (dset_has_axis (EDset n a) axes); cbn [negb map]; rewrite IH by (lia || exact HN');
        f_equal; rewrite <- ?app_assoc; reflexivity.
    + cbn [dset_has_axis]. cbn [entry_size] in H. rewrite <- kids_up_size in H.
      unfold kids_down. fold (kids_up kids). rewrite rev_involutive. rewrite IH.
      * cbn [flat_map]. rewrite order_group, flat_map_app. cbn [app filter dset_has_axis negb].
        rewrite <- app_assoc. reflexivity.
      * rewrite map_app. assert (E : forall p q, list_sum (p ++ q) = list_sum p + list_sum q) by (intros; apply list_sum_app).
        rewrite E. lia.
      * intros x Hx. apply in_app_or in Hx. destruct Hx as [Hx|Hx]; [|now apply HN'].
        intros y Hy. apply (HN _ (or_introl eq_refl)). rewrite order_group. right. apply in_flat_map. exists x. auto.
Qed.

Lemma rmap_strip : forall l, (forall n, In n l -> exists r, n = slash :: r) ->
  exists l', rmap strip_slash l = Ok l' /\ map (cons slash) l' = l.
Proof.
  induction l as [|n l IH]; intros H; [exists []; auto|].
  destruct (H n (or_introl eq_refl)) as (r & ->). destruct IH as (l' & E & M); [intros m Hm; apply H; now right|].
  exists (r :: l'). cbn [rmap strip_slash]. rewrite Ascii.eqb_refl. cbn [rbind]. rewrite E. cbn [rbind map]. now rewrite M.
Qed.

Lemma filter_perm : forall {A} (f : A -> bool) l l', Permutation l l' -> Permutation (filter f l) (filter f l').
Proof.
  intros A f l l' P. induction P; cbn [filter]; [reflexivity| | |now transitivity (filter f l')].
  - destruct (f x); [now apply perm_skip|assumption].
  - destruct (f x), (f y); try reflexivity. apply perm_swap.
Qed.

Lemma walk_all : forall axes e, Absolute e ->
  exists l, walk_names axes e = Ok l
    /\ map (cons slash) l = map ename (filter (fun x => dset_has_axis x axes) (order e))
    /\ walk_copies axes e = filter (fun x => negb (dset_has_axis x axes)) (order e).
Proof.
  intros axes e HA. unfold walk_names, walk_copies. rewrite walk_ok.
  - cbn [fst snd app flat_map]. rewrite app_nil_r.
    destruct (rmap_strip (map ename (filter (fun x => dset_has_axis x axes) (order e)))) as (l & E & M).
    + intros n Hn. apply in_map_iff in Hn. destruct Hn as (x & <- & Hx). apply filter_In in Hx.
      apply HA. apply (Permutation_in x (order_flatten _ e (Nat.le_refl _))). tauto.
    + exists l. auto.
  - cbn. lia.
  - intros x [<-|[]]. now apply absolute_named.
Qed.

(** Parents come first. *)
Lemma order_parent : forall m e n kids k c, entry_size e <= m -> In (EGroup n kids) (flatten e) -> In (k, c) kids ->
  exists l1 l2 l3, order e = l1 ++ EGroup n kids :: l2 ++ c :: l3.
Proof.
  induction m as [|m IH]; intros e n kids k c H HI HK; [pose proof (size_pos e); lia|].
  destruct e as [n' a|n' kids']; cbn [flatten] in HI.
  - destruct HI as [HI|[]]. discriminate HI.
  - rewrite order_group. assert (Hc : forall ks c', In c' (map snd ks) -> exists u v, kids_up ks = u ++ c' :: v).
    { intros ks c' Hx. apply in_split. apply (Permutation_in c' (kids_up_perm ks)). exact Hx. }
    destruct HI as [HI|HI].
    + injection HI as -> ->. destruct (Hc kids c) as (u & v & E).
      { apply in_map_iff. exists (k, c). auto. }
      rewrite E, flat_map_app. cbn [flat_map].
      assert (Ho : exists w, order c = c :: w).
      { unfold order. pose proof (size_pos c). destruct (entry_size c); [lia|]. cbn [pre]. eexists. reflexivity. }
      destruct Ho as (w & Ho). rewrite Ho.
      exists [], (flat_map order u), (w ++ flat_map order v). reflexivity.
    + apply in_flat_map in HI. destruct HI as ((k0, x) & Hx1 & Hx2). cbn [snd] in Hx2.
      destruct (Hc kids' x) as (u & v & E).
      { apply in_map_iff. exists (k0, x). auto. }
      assert (Sx : entry_size x <= m).
      { cbn [entry_size] in H. rewrite <- kids_up_size in H. pose proof (sum_in (kids_up kids') x) as Sx.
        rewrite E in Sx at 1. specialize (Sx ltac:(apply in_or_app; right; now left)). lia. }
      destruct (IH x n kids k c Sx Hx2 HK) as (l1 & l2 & l3 & Eo).
      rewrite E, flat_map_app. cbn [flat_map]. rewrite Eo.
      exists (EGroup n' kids' :: flat_map order u ++ l1), l2, (l3 ++ flat_map order v).
      cbn [app]. f_equal. rewrite <- !app_assoc. cbn [app]. rewrite <- !app_assoc. reflexivity.
Qed.
