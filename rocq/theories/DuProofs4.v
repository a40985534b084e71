(** Lemmas about the elements combined by reductions. *)
From Coq Require Import List Arith ZArith Bool Lia Sorted.
From Verif Require Import PyBase PartSpec PartModel PartProofs SliceModel RedModel RedSpec RedProofs AxModel AxSpec AxProofs AxProofs2 DuModel DuSpec DuProofs DuProofs2 DuProofs3.
Import ListNotations.
Open Scope nat_scope.

(** ** Order *)
Lemma lex_irrefl : forall a, ~ LexLt a a.
Proof. induction a as [|x a IH]; cbn; [auto|]. intros [H|[_ H]]; [lia|auto]. Qed.
Lemma lex_trans : forall a b c, LexLt a b -> LexLt b c -> LexLt a c.
Proof.
  induction a as [|x a IH]; intros [|y b] [|z c]; cbn; try contradiction.
  intros [H1|[-> H1]] [H2|[-> H2]]; [left; lia|left; lia|left; lia|right; split; eauto].
Qed.
Lemma sorted_unique : forall X (R : X -> X -> Prop), (forall a, ~ R a a) -> (forall a b c, R a b -> R b c -> R a c) ->
  forall l1 l2, StronglySorted R l1 -> StronglySorted R l2 -> (forall x, In x l1 <-> In x l2) -> l1 = l2.
Proof.
  intros X R IR TR. induction l1 as [|a l1 IH]; intros l2 H1 H2 HI.
  - destruct l2 as [|b l2]; [reflexivity|]. exfalso. apply (proj2 (HI b)). now left.
  - destruct l2 as [|b l2]; [exfalso; apply (proj1 (HI a)); now left|].
    apply StronglySorted_inv in H1. destruct H1 as [H1 F1]. apply StronglySorted_inv in H2. destruct H2 as [H2 F2].
    rewrite Forall_forall in F1, F2.
    assert (a = b) as <-.
    { destruct (proj1 (HI a) (or_introl eq_refl)) as [E|Ha]; [auto|].
      destruct (proj2 (HI b) (or_introl eq_refl)) as [E|Hb]; [auto|].
      exfalso. apply (IR a). eapply TR; [apply F1, Hb|apply F2, Ha]. }
    f_equal. apply IH; auto. intros x. split; intros Hx.
    + destruct (proj1 (HI x) (or_intror Hx)) as [<-|]; [|auto]. exfalso. exact (IR _ (F1 _ Hx)).
    + destruct (proj2 (HI x) (or_intror Hx)) as [<-|]; [|auto]. exfalso. exact (IR _ (F2 _ Hx)).
Qed.
Lemma ss_app : forall X (R : X -> X -> Prop) l1 l2, StronglySorted R l1 -> StronglySorted R l2 ->
  (forall a b, In a l1 -> In b l2 -> R a b) -> StronglySorted R (l1 ++ l2).
Proof.
  intros X R. induction l1 as [|a l1 IH]; intros l2 H1 H2 H; [exact H2|].
  apply StronglySorted_inv in H1. destruct H1 as [H1 F1]. cbn [app]. constructor.
  - apply IH; auto. intros; apply H; auto. now right.
  - apply Forall_app. split; [exact F1|]. apply Forall_forall. intros b Hb. apply H; [now left|exact Hb].
Qed.
Lemma ss_cons : forall x l, StronglySorted LexLt l -> StronglySorted LexLt (map (cons x) l).
Proof.
  intros x l H. induction H as [|a l H IH F]; cbn; constructor; auto.
  apply Forall_map. eapply Forall_impl; [|exact F]. cbn. auto.
Qed.
Lemma ss_flat : forall l n s, StronglySorted LexLt l ->
  StronglySorted LexLt (flat_map (fun i => map (cons i) l) (seq s n)).
Proof.
  intros l n. induction n as [|n IH]; intros s H; cbn [seq flat_map]; [constructor|].
  apply ss_app; [now apply ss_cons|now apply IH|].
  intros a b Ha Hb. apply in_map_iff in Ha. destruct Ha as (a' & <- & _).
  apply in_flat_map in Hb. destruct Hb as (i & Hi & Hb). apply in_map_iff in Hb. destruct Hb as (b' & <- & _).
  apply in_seq in Hi. left. lia.
Qed.
Lemma red_sorted : forall sh bm keep idx, StronglySorted LexLt (red_indices sh bm keep idx).
Proof.
  induction sh as [|n sh IH]; intros [|[] bm] keep idx; cbn [red_indices]; try (repeat constructor).
  - apply ss_flat, IH.
  - apply ss_cons, IH.
Qed.

(** ** Kept axes *)
Definition bkept (bm : list bool) : list nat := filter (fun k => negb (nth k bm false)) (seq 0 (length bm)).
Lemma filter_map_S : forall (P : nat -> bool) l, filter P (map S l) = map S (filter (fun k => P (S k)) l).
Proof. induction l as [|x l IH]; cbn; [reflexivity|]. destruct (P (S x)); cbn; now rewrite IH. Qed.
Lemma bkept_cons : forall b bm, bkept (b :: bm) = (if b then [] else [0]) ++ map S (bkept bm).
Proof.
  intros b bm. unfold bkept. cbn [length seq filter nth]. rewrite <- seq_shift, filter_map_S.
  cbn [nth]. destruct b; reflexivity.
Qed.
Lemma kept_mask : forall ndim red, kept ndim red = bkept (mask ndim red).
Proof.
  intros ndim red. unfold kept, bkept, mask. rewrite map_length, seq_length. apply filter_ext_in.
  intros k Hk. apply in_seq in Hk. f_equal.
  symmetry. apply nth_error_nth. rewrite nth_error_map_seq by lia. reflexivity.
Qed.
Lemma mask_length : forall ndim red, length (mask ndim red) = ndim.
Proof. intros. unfold mask. now rewrite map_length, seq_length. Qed.
Lemma mask_nth : forall ndim red k, k < ndim -> nth k (mask ndim red) false = existsb (Nat.eqb k) red.
Proof.
  intros ndim red k H. apply nth_error_nth. unfold mask. rewrite nth_error_map_seq by lia. reflexivity.
Qed.
Lemma red_shape_spec : forall sh bm keep, length bm = length sh -> red_shape sh bm keep =
  if keep then map (fun k => if nth k bm false then 1 else nth k sh 0) (seq 0 (length sh))
  else map (fun k => nth k sh 0) (bkept bm).
Proof.
  induction sh as [|n sh IH]; intros [|b bm] keep H; try discriminate; [destruct keep; reflexivity|].
  cbn in H. specialize (IH bm keep ltac:(lia)).
  destruct keep.
  - cbn [length seq map nth red_shape]. rewrite <- seq_shift, map_map. cbn [nth]. rewrite IH. destruct b; reflexivity.
  - rewrite bkept_cons, map_app, map_map. cbn [nth red_shape]. rewrite IH. destruct b; reflexivity.
Qed.

(** ** Membership *)
Definition bbelongs (bm : list bool) (keep : bool) (idx i : list nat) : Prop :=
  if keep then forall k, In k (bkept bm) -> nth k i 0 = nth k idx 0
  else map (fun k => nth k i 0) (bkept bm) = idx.
Lemma red_in : forall sh bm keep idx i, length bm = length sh -> InShape idx (red_shape sh bm keep) ->
  (In i (red_indices sh bm keep idx) <-> InShape i sh /\ bbelongs bm keep idx i).
Proof.
  induction sh as [|n sh IH]; intros [|b bm] keep idx i HL HI; try discriminate.
  - cbn [red_indices]. cbn [red_shape] in HI. inversion HI; subst. split.
    + intros [<-|[]]. split; [constructor|]. destruct keep; cbn; [contradiction|reflexivity].
    + intros [H _]. inversion H; subst. now left.
  - cbn in HL. assert (HL' : length bm = length sh) by lia.
    assert (KC : forall x t idx', bbelongs (b :: bm) true idx' (x :: t) <->
              (b = false -> x = nth 0 idx' 0) /\ bbelongs bm true (tl idx') t).
    { intros x t idx'. unfold bbelongs. rewrite bkept_cons. split.
      - intros H. split.
        + intros ->. exact (H 0 (or_introl eq_refl)).
        + intros k Hk. specialize (H (S k)). cbn [nth] in H. rewrite H; [destruct idx'; [destruct k|]; reflexivity|].
          apply in_or_app. right. now apply in_map.
      - intros [H1 H2] k Hk. apply in_app_or in Hk. destruct Hk as [Hk|Hk].
        + destruct b; [contradiction|]. destruct Hk as [<-|[]]. cbn [nth]. now apply H1.
        + apply in_map_iff in Hk. destruct Hk as (k' & <- & Hk). cbn [nth]. rewrite (H2 _ Hk). destruct idx'; [destruct k'|]; reflexivity. }
    destruct b; cbn [red_indices red_shape] in *.
    + assert (HI' : InShape (if keep then tl idx else idx) (red_shape sh bm keep)).
      { destruct keep; [inversion HI; subst; assumption|exact HI]. }
      rewrite in_flat_map. split.
      * intros (x & Hx & Hin). apply in_map_iff in Hin. destruct Hin as (t & <- & Ht). apply in_seq in Hx.
        apply (IH _ _ _ _ HL' HI') in Ht. destruct Ht as [H1 H2]. split; [constructor; [lia|exact H1]|].
        destruct keep.
        -- apply KC. split; [discriminate|exact H2].
        -- unfold bbelongs in *. rewrite bkept_cons. cbn [app]. rewrite map_map. exact H2.
      * intros [H1 H2]. inversion H1 as [|x m t sh' Hx Ht]; subst. exists x. split; [apply in_seq; lia|].
        apply in_map. apply (IH _ _ _ _ HL' HI'). split; [exact Ht|].
        destruct keep.
        -- apply KC in H2. exact (proj2 H2).
        -- unfold bbelongs in *. rewrite bkept_cons in H2. cbn [app] in H2. rewrite map_map in H2. exact H2.
    + inversion HI as [|y m idx' sh' Hy HI']; subst. cbn [hd tl].
      rewrite in_map_iff. split.
      * intros (t & <- & Ht). apply (IH _ _ _ _ HL' HI') in Ht. destruct Ht as [H1 H2]. split; [constructor; auto|].
        destruct keep.
        -- apply KC. split; [reflexivity|exact H2].
        -- unfold bbelongs in *. rewrite bkept_cons. cbn [app map nth]. rewrite map_map. cbn [nth]. now rewrite H2.
      * intros [H1 H2]. inversion H1 as [|x m' t sh'' Hx Ht]; subst. exists t. destruct keep.
        -- apply KC in H2. destruct H2 as [H2 H3]. rewrite (H2 eq_refl). split; [reflexivity|]. apply (IH _ _ _ _ HL' HI'). split; auto.
        -- unfold bbelongs in *. rewrite bkept_cons in H2. cbn [app map nth] in H2. rewrite map_map in H2. cbn [nth] in H2.
           injection H2 as E1 E2. subst y. split; [reflexivity|]. apply (IH _ _ _ _ HL' HI'). split; auto.
Qed.

(** ** The distributed axis *)
Fixpoint bpos (bm : list bool) (keep : bool) (k : nat) : nat :=
  match k, bm with
  | S k, b :: bm => if b && negb keep then bpos bm keep k else S (bpos bm keep k)
  | _, _ => 0
  end.
Lemma bpos_keep : forall bm k, k < length bm -> bpos bm true k = k.
Proof.
  induction bm as [|b bm IH]; intros [|k] H; cbn in *; try lia. rewrite andb_false_r. rewrite IH by lia. reflexivity.
Qed.
Lemma bpos_nth : forall bm (keep : bool) k, k < length bm -> nth k bm false = false ->
  nth_error (if keep then seq 0 (length bm) else bkept bm) (bpos bm keep k) = Some k.
Proof.
  intros bm [] k H Hk.
  - rewrite bpos_keep by exact H. rewrite (nth_error_nth' _ 0) by (rewrite seq_length; lia). now rewrite seq_nth.
  - revert k H Hk. induction bm as [|b bm IH]; intros [|k] H Hk; cbn in H; try lia.
    + cbn in Hk. subst b. rewrite bkept_cons. reflexivity.
    + cbn [nth] in Hk. rewrite bkept_cons. cbn [bpos]. specialize (IH k ltac:(lia) Hk). destruct b; cbn [andb negb app nth_error];
        now apply map_nth_error.
Qed.
Lemma set_nth_S : forall X k (x y : X) l, set_nth (S k) x (y :: l) = y :: set_nth k x l.
Proof. reflexivity. Qed.
Lemma set_nth_0 : forall X (x y : X) l, set_nth 0 x (y :: l) = x :: l.
Proof. reflexivity. Qed.
Lemma shift_S : forall k n x l, shift (S k) n (x :: l) = x :: shift k n l.
Proof. reflexivity. Qed.
Lemma red_shape_length : forall sh bm (keep : bool), length bm = length sh ->
  length (red_shape sh bm keep) = length (if keep then seq 0 (length bm) else bkept bm).
Proof.
  intros sh bm keep H. rewrite red_shape_spec by exact H. destruct keep; rewrite map_length; [|reflexivity].
  now rewrite H.
Qed.
Lemma red_indices_set : forall sh bm keep idx k n, length bm = length sh -> nth k bm false = false ->
  red_indices (set_nth k n sh) bm keep idx = red_indices sh bm keep idx.
Proof.
  induction sh as [|m sh IH]; intros [|b bm] keep idx k n HL Hk; try discriminate; [destruct k; reflexivity|].
  cbn in HL. destruct k as [|k].
  - cbn in Hk. subst b. reflexivity.
  - rewrite set_nth_S. cbn [nth] in Hk. destruct b; cbn [red_indices].
    + now rewrite IH by (auto; lia).
    + now rewrite IH by (auto; lia).
Qed.
Lemma red_shape_set : forall sh bm keep k n, length bm = length sh -> k < length sh -> nth k bm false = false ->
  red_shape (set_nth k n sh) bm keep = set_nth (bpos bm keep k) n (red_shape sh bm keep)
  /\ nth (bpos bm keep k) (red_shape sh bm keep) 0 = nth k sh 0
  /\ bpos bm keep k < length (red_shape sh bm keep).
Proof.
  induction sh as [|m sh IH]; intros [|b bm] keep k n HL Hlt Hk; try discriminate; [cbn in Hlt; lia|].
  cbn in HL. destruct k as [|k].
  - cbn in Hk. subst b. cbn. repeat split; lia.
  - rewrite set_nth_S. cbn [nth] in Hk. cbn in Hlt. destruct (IH bm keep k n) as (E1 & E2 & E3); auto; try lia.
    destruct b; cbn [red_shape bpos andb negb].
    + destruct keep; cbn [negb].
      * rewrite set_nth_S, E1. cbn [nth length]. repeat split; auto; lia.
      * rewrite E1. repeat split; auto.
    + rewrite set_nth_S, E1. cbn [nth length]. repeat split; auto; lia.
Qed.
Lemma red_indices_shift : forall sh bm keep idx k s, length bm = length sh -> k < length sh -> nth k bm false = false ->
  length idx = length (red_shape sh bm keep) ->
  red_indices sh bm keep (shift (bpos bm keep k) s idx) = map (shift k s) (red_indices sh bm keep idx).
Proof.
  induction sh as [|m sh IH]; intros [|b bm] keep idx k s HL Hlt Hk HI; try discriminate; [cbn in Hlt; lia|].
  cbn in HL. destruct k as [|k].
  - cbn in Hk. subst b. cbn [bpos red_indices]. destruct idx as [|x idx]; [discriminate|].
    cbn [shift nth set_nth firstn skipn app hd tl]. rewrite map_map. apply map_ext. intros a. reflexivity.
  - cbn [nth] in Hk. cbn in Hlt. destruct b; cbn [red_indices bpos andb negb].
    + assert (E : forall L, map (shift (S k) s) (flat_map (fun i => map (cons i) L) (seq 0 m))
                 = flat_map (fun i => map (cons i) (map (shift k s) L)) (seq 0 m)).
      { intros L. generalize (seq 0 m) as q. induction q as [|i q IHq]; [reflexivity|].
        cbn [flat_map]. rewrite map_app, IHq, !map_map. f_equal. }
      destruct keep; cbn [negb].
      * destruct idx as [|x idx]; [discriminate|]. rewrite shift_S. cbn [tl]. rewrite E. rewrite IH; auto; try lia.
        all: cbn [red_shape length] in HI; lia.
      * rewrite E. rewrite IH; auto; try lia.
    + destruct idx as [|x idx]; [discriminate|]. rewrite shift_S. cbn [hd tl]. rewrite IH; auto; try lia.
      rewrite !map_map. apply map_ext. intros a. reflexivity.
Qed.
