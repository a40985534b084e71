(** Proofs about the AVL tree of MedModel. *)
From Coq Require Import List ZArith Bool Sorted Permutation Lia.
From Verif Require Import PyBase MedModel MedSpec.
Import ListNotations.
Open Scope Z_scope.

(** *** Sums *)
Lemma sum_weights_app : forall f a b,
  sum_weights f (a ++ b) = sum_weights f a + sum_weights f b.
Proof. induction a as [|x a IH]; intro b; cbn; [lia|rewrite IH; lia]. Qed.
Lemma sum_weights_perm : forall f a b, Permutation a b -> sum_weights f a = sum_weights f b.
Proof. induction 1; cbn; lia. Qed.
Lemma weight_total_app : forall a b, weight_total (a ++ b) = weight_total a + weight_total b.
Proof. intros. apply sum_weights_app. Qed.
Lemma weight_total_cons : forall x l, weight_total (x :: l) = snd x + weight_total l.
Proof. reflexivity. Qed.
Lemma weight_total_nil : weight_total [] = 0. Proof. reflexivity. Qed.

(** *** The caches *)
Lemma height_nonneg : forall t, 0 <= height t.
Proof. induction t; cbn [height]; lia. Qed.

Lemma avl_height : forall t, avl t -> total_height t = height t.
Proof.
  destruct t; cbn [avl total_height height]; [reflexivity|].
  intros (_ & _ & -> & -> & _). lia.
Qed.
Lemma avl_weight : forall t, avl t -> total_weight t = weight_total (inorder t).
Proof.
  destruct t; cbn [avl total_weight inorder]; [reflexivity|].
  intros (_ & _ & _ & _ & -> & -> & _).
  rewrite weight_total_app, weight_total_cons. lia.
Qed.

(** The node rebuilt with true caches. *)
Definition node (l : tree) (d : datum) (r : tree) : tree :=
  N l d r (height l) (height r) (weight_total (inorder l)) (weight_total (inorder r)).

Lemma update_node : forall l d r a b c e, avl l -> avl r ->
  update (N l d r a b c e) = node l d r.
Proof. intros. cbn [update]. unfold node. rewrite !avl_height, !avl_weight by assumption. reflexivity. Qed.

Lemma avl_node : forall l d r, avl l -> avl r -> -1 <= height l - height r <= 1 -> avl (node l d r).
Proof. intros. cbn. repeat split; auto; lia. Qed.
Lemma avl_is_node : forall l d r a b c e, avl (N l d r a b c e) ->
  N l d r a b c e = node l d r /\ avl l /\ avl r /\ -1 <= height l - height r <= 1.
Proof. intros * (Hl & Hr & -> & -> & -> & -> & H). unfold node. auto. Qed.

(** One balancing step on a node whose sides differ by at most two. *)
Lemma balance_node : forall l d r, avl l -> avl r -> -2 <= height l - height r <= 2 ->
  forall t, t = balance (node l d r) ->
  avl t /\ inorder t = inorder l ++ d :: inorder r /\
  (Z.max (height l) (height r) <= height t <= 1 + Z.max (height l) (height r)) /\
  (-1 <= height l - height r <= 1 -> t = node l d r).
Proof.
  intros l d r Hl Hr Hd t Ht. unfold node, balance in Ht.
  pose proof (height_nonneg l). pose proof (height_nonneg r).
  destruct (Z.eqb_spec (height l - height r) 2) as [H2|H2].
  - destruct l as [|ll ld lr a b c e]; [cbn [height] in *; lia|].
    apply avl_is_node in Hl as (El & Hll & Hlr & Hdl). rewrite El in *. clear El a b c e.
    unfold node at 1 2 in Ht; cbn [left_height right_height] in Ht.
    cbn [height node] in H2.
    pose proof (height_nonneg ll). pose proof (height_nonneg lr).
    destruct (Z.leb_spec (height lr) (height ll)) as [Hc|Hc].
    + unfold node in Ht at 1. cbn [rotate_R] in Ht.
      rewrite (update_node lr d r) in Ht by assumption.
      rewrite update_node in Ht; [|assumption|apply avl_node; auto; lia].
      rewrite Ht; clear Ht t; split; [|split; [|split]].
      * apply avl_node; auto; [apply avl_node; auto; lia|]. cbn [height node]; lia.
      * cbn. rewrite <- app_assoc. reflexivity.
      * cbn [height node]. lia.
      * cbn [height node]. lia.
    + destruct lr as [|ml md mr a b c e]; [cbn [height] in *; lia|].
      apply avl_is_node in Hlr as (El & Hml & Hmr & Hdm). rewrite El in *. clear El a b c e.
      cbn [height node] in Hc, Hdl, H2.
      pose proof (height_nonneg ml). pose proof (height_nonneg mr).
      unfold node in Ht at 1 2. cbn [rotate_L] in Ht.
      rewrite (update_node ll ld ml) in Ht by assumption.
      rewrite update_node in Ht; [|apply avl_node; auto; lia|assumption].
      unfold node in Ht at 1. cbn [rotate_R] in Ht.
      rewrite (update_node mr d r) in Ht by assumption.
      rewrite update_node in Ht; [|apply avl_node; auto; lia|apply avl_node; auto; lia].
      rewrite Ht; clear Ht t; split; [|split; [|split]].
      * apply avl_node; [apply avl_node; auto; lia|apply avl_node; auto; lia|]. cbn [height node]; lia.
      * cbn. rewrite <- !app_assoc. cbn. rewrite <- app_assoc. reflexivity.
      * cbn [height node]. lia.
      * cbn [height node]. lia.
  - destruct (Z.eqb_spec (height l - height r) (-2)) as [H3|H3].
    + destruct r as [|rl rd rr a b c e]; [cbn [height] in *; lia|].
      apply avl_is_node in Hr as (El & Hrl & Hrr & Hdr). rewrite El in *. clear El a b c e.
      unfold node at 1 2 in Ht; cbn [left_height right_height] in Ht.
      cbn [height node] in H3.
      pose proof (height_nonneg rl). pose proof (height_nonneg rr).
      destruct (Z.leb_spec (height rl) (height rr)) as [Hc|Hc].
      * unfold node in Ht at 1. cbn [rotate_L] in Ht.
        rewrite (update_node l d rl) in Ht by assumption.
        rewrite update_node in Ht; [|apply avl_node; auto; lia|assumption].
        rewrite Ht; clear Ht t; split; [|split; [|split]].
        -- apply avl_node; auto; [apply avl_node; auto; lia|]. cbn [height node]; lia.
        -- cbn. rewrite <- app_assoc. reflexivity.
        -- cbn [height node]. lia.
        -- cbn [height node]. lia.
      * destruct rl as [|ml md mr a b c e]; [cbn [height] in *; lia|].
        apply avl_is_node in Hrl as (El & Hml & Hmr & Hdm). rewrite El in *. clear El a b c e.
        cbn [height node] in Hc, Hdr, H3.
        pose proof (height_nonneg ml). pose proof (height_nonneg mr).
        unfold node in Ht at 1 2. cbn [rotate_R] in Ht.
        rewrite (update_node mr rd rr) in Ht by assumption.
        rewrite update_node in Ht; [|assumption|apply avl_node; auto; lia].
        unfold node in Ht at 1. cbn [rotate_L] in Ht.
        rewrite (update_node l d ml) in Ht by assumption.
        rewrite update_node in Ht; [|apply avl_node; auto; lia|apply avl_node; auto; lia].
        rewrite Ht; clear Ht t; split; [|split; [|split]].
        -- apply avl_node; [apply avl_node; auto; lia|apply avl_node; auto; lia|]. cbn [height node]; lia.
        -- cbn. rewrite <- !app_assoc. reflexivity.
        -- cbn [height node]. lia.
        -- cbn [height node]. lia.
    + rewrite Ht; clear Ht t; split; [|split; [|split]].
      * apply avl_node; auto; lia.
      * reflexivity.
      * cbn [height]. lia.
      * reflexivity.
Qed.

(** The second visit of a rotated subtree changes nothing. *)
Lemma balance_update_stable : forall t, avl t -> balance (update t) = t.
Proof.
  destruct t as [|l d r a b c e]; [reflexivity|]. intro H.
  apply avl_is_node in H as (-> & Hl & Hr & Hd).
  unfold node. rewrite update_node by assumption.
  destruct (balance_node l d r Hl Hr) with (t := balance (node l d r)) as (_ & _ & _ & H4); auto; lia.
Qed.

Lemma visit_spec : forall l d r a b c e, avl l -> avl r -> -2 <= height l - height r <= 2 ->
  let t := visit (N l d r a b c e) in
  avl t /\ inorder t = inorder l ++ d :: inorder r /\
  (Z.max (height l) (height r) <= height t <= 1 + Z.max (height l) (height r)) /\
  (-1 <= height l - height r <= 1 -> t = node l d r).
Proof.
  intros l d r a b c e Hl Hr Hd. unfold visit. rewrite update_node by assumption.
  destruct (balance_node l d r Hl Hr Hd _ eq_refl) as (H1 & H2 & H3 & H4).
  rewrite balance_update_stable by assumption. auto.
Qed.

(** *** Order *)
Lemma dlt_true : forall a b, dlt a b = true -> datum_le a b.
Proof.
  intros a b. unfold dlt, datum_le. destruct (Z.eqb_spec (fst a) (fst b)); intro H.
  - apply Z.ltb_lt in H. lia.
  - apply Z.ltb_lt in H. lia.
Qed.
Lemma dlt_false : forall a b, dlt a b = false -> datum_le b a.
Proof.
  intros a b. unfold dlt, datum_le. destruct (Z.eqb_spec (fst a) (fst b)); intro H.
  - apply Z.ltb_ge in H. lia.
  - apply Z.ltb_ge in H. lia.
Qed.
Lemma dlt_not_le : forall a b, dlt a b = true -> ~ datum_le b a.
Proof.
  intros a b. unfold dlt, datum_le. destruct (Z.eqb_spec (fst a) (fst b)); intro H;
    apply Z.ltb_lt in H; lia.
Qed.
Lemma datum_le_trans : forall a b c, datum_le a b -> datum_le b c -> datum_le a c.
Proof. unfold datum_le. intros; lia. Qed.
Lemma datum_le_refl : forall a, datum_le a a.
Proof. unfold datum_le. intros; lia. Qed.
Lemma deq_true : forall a b, deq a b = true -> a = b.
Proof.
  intros [a1 a2] [b1 b2]. unfold deq; cbn. intro H. apply andb_true_iff in H as [H1 H2].
  apply Z.eqb_eq in H1, H2. congruence.
Qed.
Lemma deq_refl : forall a, deq a a = true.
Proof. intros [a b]. unfold deq; cbn. now rewrite !Z.eqb_refl. Qed.
Lemma datum_le_antisym : forall a b, datum_le a b -> datum_le b a -> a = b.
Proof. intros [a1 a2] [b1 b2]. unfold datum_le; cbn. intros. f_equal; lia. Qed.

Lemma ordered_app : forall a x b, ordered (a ++ x :: b) <->
  ordered a /\ ordered b /\ Forall (fun y => datum_le y x) a /\ Forall (datum_le x) b.
Proof.
  intros a x b. unfold ordered. split.
  - induction a as [|y a IH]; cbn.
    + intro H. inversion H; subst. repeat split; auto. constructor.
    + intro H. inversion H as [|? ? Hs Hf]; subst. destruct (IH Hs) as (A1 & A2 & A3 & A4).
      apply Forall_app in Hf as [Hf1 Hf2]. inversion Hf2; subst.
      repeat split; auto; constructor; auto.
  - intros (A1 & A2 & A3 & A4). induction a as [|y a IH]; cbn.
    + constructor; auto.
    + inversion A1; subst. inversion A3; subst. constructor; [apply IH; auto|].
      apply Forall_app; split; auto. constructor; auto.
      eapply Forall_impl; [|exact A4]. intros z Hz. eapply datum_le_trans; eauto.
Qed.

(** *** Insertion *)
Lemma insert_spec : forall x t, avl t ->
  avl (insert x t) /\ height t <= height (insert x t) <= height t + 1 /\
  Permutation (inorder (insert x t)) (x :: inorder t) /\
  (ordered (inorder t) -> ordered (inorder (insert x t))).
Proof.
  induction t as [|l IHl d r IHr a b c e]; intro H.
  - cbn [insert]. split; [|split; [|split]].
    + cbn. repeat split; auto; lia.
    + cbn. lia.
    + cbn. apply Permutation_refl.
    + intros _. cbn. constructor; constructor.
  - pose proof H as H0. apply avl_is_node in H as (_ & Hl & Hr & Hd). cbn [insert].
    destruct (dlt x d) eqn:Hx.
    + destruct (IHl Hl) as (I1 & I2 & I3 & I4).
      destruct (visit_spec (insert x l) d r a b c e I1 Hr) as (V1 & V2 & V3 & V4); [lia|].
      split; [exact V1|]. split; [|split].
      * assert (height (visit (N (insert x l) d r a b c e)) <= 1 + Z.max (height (insert x l)) (height r)) by lia.
        destruct (Z_le_gt_dec (height (insert x l) - height r) 1).
        -- rewrite V4 by lia. cbn [height node]. lia.
        -- cbn [height]. lia.
      * rewrite V2. cbn [inorder]. change (x :: inorder l ++ d :: inorder r) with ((x :: inorder l) ++ d :: inorder r).
        apply Permutation_app_tail. exact I3.
      * cbn [inorder]. rewrite V2. rewrite !ordered_app. intros (A1 & A2 & A3 & A4).
        repeat split; auto. eapply Permutation_Forall; [apply Permutation_sym, I3|].
        constructor; auto. now apply dlt_true.
    + destruct (IHr Hr) as (I1 & I2 & I3 & I4).
      destruct (visit_spec l d (insert x r) a b c e Hl I1) as (V1 & V2 & V3 & V4); [lia|].
      split; [exact V1|]. split; [|split].
      * destruct (Z_le_gt_dec (height (insert x r) - height l) 1).
        -- rewrite V4 by lia. cbn [height node]. lia.
        -- cbn [height]. lia.
      * rewrite V2. cbn [inorder].
        eapply Permutation_trans; [apply Permutation_app_head, perm_skip, I3|].
        eapply Permutation_trans; [apply Permutation_app_head, perm_swap|].
        apply Permutation_sym, Permutation_middle.
      * cbn [inorder]. rewrite V2. rewrite !ordered_app. intros (A1 & A2 & A3 & A4).
        repeat split; auto. eapply Permutation_Forall; [apply Permutation_sym, I3|].
        constructor; auto. now apply dlt_false.
Qed.

(** *** Removal *)
Lemma del_min_step : forall l d r a b c e, l <> E ->
  del_min (N l d r a b c e) =
  match del_min l with
  | Some (m, l') => Some (m, visit (N l' d r a b c e)) | None => None end.
Proof. intros l d r a b c e H. destruct l; [congruence|reflexivity]. Qed.
Lemma remove_root_step : forall l d r a b c e, l <> E -> r <> E ->
  remove_root (N l d r a b c e) =
  match del_min r with
  | Some (m, r') => visit (N l m r' a b c e) | None => N l d r a b c e end.
Proof. intros l d r a b c e H1 H2. destruct l; [congruence|]. destruct r; [congruence|reflexivity]. Qed.

Lemma del_min_spec : forall t, t <> E -> avl t ->
  exists m t', del_min t = Some (m, t') /\ avl t' /\ inorder t = m :: inorder t' /\
               height t - 1 <= height t' <= height t.
Proof.
  induction t as [|l IHl d r IHr a b c e]; intros Hne H; [congruence|].
  pose proof H as H0. apply avl_is_node in H as (_ & Hl & Hr & Hd).
  destruct l as [|ll ld lr a1 b1 c1 e1].
  - exists d, r. cbn [del_min]. split; [reflexivity|]. split; [exact Hr|]. split; [reflexivity|].
    pose proof (height_nonneg r). cbn [height] in *. lia.
  - remember (N ll ld lr a1 b1 c1 e1) as l eqn:El.
    destruct IHl as (m & l' & D & A & I & Hh); [subst; congruence|exact Hl|].
    destruct (visit_spec l' d r a b c e A Hr) as (V1 & V2 & V3 & V4); [lia|].
    exists m, (visit (N l' d r a b c e)).
    split; [|split; [exact V1|split]].
    + rewrite del_min_step by (subst; congruence). rewrite D. reflexivity.
    + rewrite V2. cbn [inorder]. rewrite I. reflexivity.
    + destruct (Z_le_gt_dec (height r - height l') 1).
      * rewrite V4 by lia. cbn [height node]. lia.
      * cbn [height]. lia.
Qed.

Lemma remove_root_spec : forall l d r a b c e, avl (N l d r a b c e) ->
  let t := N l d r a b c e in
  avl (remove_root t) /\ inorder (remove_root t) = inorder l ++ inorder r /\
  height t - 1 <= height (remove_root t) <= height t.
Proof.
  intros l d r a b c e H t. pose proof H as H0. apply avl_is_node in H as (_ & Hl & Hr & Hd).
  pose proof (height_nonneg l). pose proof (height_nonneg r).
  destruct l as [|ll ld lr a1 b1 c1 e1].
  { subst t; cbn [remove_root]. split; [exact Hr|]. split; [reflexivity|]. cbn [height] in *; lia. }
  remember (N ll ld lr a1 b1 c1 e1) as l eqn:El.
  destruct r as [|rl rd rr a2 b2 c2 e2].
  { assert (remove_root t = l) as -> by (subst t; rewrite El; reflexivity).
    split; [exact Hl|]. split; [cbn; now rewrite app_nil_r|]. subst t; cbn [height] in *; lia. }
  remember (N rl rd rr a2 b2 c2 e2) as r eqn:Er.
  destruct (del_min_spec r) as (m & r' & D & A & I & Hh); [subst; congruence|exact Hr|].
  assert (remove_root t = visit (N l m r' a b c e)) as ->.
  { subst t. rewrite remove_root_step by (subst; congruence). rewrite D. reflexivity. }
  destruct (visit_spec l m r' a b c e Hl A) as (V1 & V2 & V3 & V4); [lia|].
  split; [exact V1|]. split; [rewrite V2, I; reflexivity|].
  subst t. destruct (Z_le_gt_dec (height l - height r') 1).
  - rewrite V4 by lia. cbn [height node]. lia.
  - cbn [height]. lia.
Qed.

Lemma remove_spec : forall x t, avl t -> ordered (inorder t) ->
  match remove x t with
  | Some t' => avl t' /\ Permutation (x :: inorder t') (inorder t) /\ ordered (inorder t') /\
               height t - 1 <= height t' <= height t
  | None => ~ In x (inorder t)
  end.
Proof.
  induction t as [|l IHl d r IHr a b c e]; intros H Ho; [cbn; tauto|].
  pose proof H as H0. apply avl_is_node in H as (_ & Hl & Hr & Hd).
  cbn [inorder] in Ho. pose proof Ho as Ho'. apply ordered_app in Ho' as (O1 & O2 & O3 & O4).
  cbn [remove]. destruct (deq d x) eqn:Hdx.
  - apply deq_true in Hdx as ->.
    destruct (remove_root_spec l x r a b c e H0) as (R1 & R2 & R3).
    split; [exact R1|]. split; [|split; [|exact R3]].
    + rewrite R2. cbn [inorder]. apply Permutation_middle.
    + rewrite R2. clear - O1 O2 O3 O4. unfold ordered in *. induction (inorder l) as [|y q IH]; cbn; auto.
      inversion O1; subst. inversion O3; subst. constructor; auto. apply Forall_app; split; auto.
      eapply Forall_impl; [|exact O4]. intros z Hz. eapply datum_le_trans; eauto.
  - destruct (dlt x d) eqn:Hx.
    + specialize (IHl Hl O1). destruct (remove x l) as [l'|].
      * destruct IHl as (A & P & Q & Hh).
        destruct (visit_spec l' d r a b c e A Hr) as (V1 & V2 & V3 & V4); [lia|].
        split; [exact V1|]. split; [|split].
        -- rewrite V2. cbn [inorder].
           change (x :: inorder l' ++ d :: inorder r) with ((x :: inorder l') ++ d :: inorder r).
           apply Permutation_app_tail, P.
        -- rewrite V2. apply ordered_app. repeat split; auto.
           apply Permutation_sym in P. apply (Permutation_Forall P) in O3. now inversion O3.
        -- destruct (Z_le_gt_dec (height r - height l') 1).
           ++ rewrite V4 by lia. cbn [height node]. lia.
           ++ cbn [height]. lia.
      * cbn [inorder]. rewrite in_app_iff. cbn. intros [Hi|[->|Hi]]; [tauto| |].
        -- now rewrite deq_refl in Hdx.
        -- apply dlt_not_le in Hx. apply Hx. rewrite Forall_forall in O4. now apply O4.
    + specialize (IHr Hr O2). destruct (remove x r) as [r'|].
      * destruct IHr as (A & P & Q & Hh).
        destruct (visit_spec l d r' a b c e Hl A) as (V1 & V2 & V3 & V4); [lia|].
        split; [exact V1|]. split; [|split].
        -- rewrite V2. cbn [inorder].
           eapply Permutation_trans; [apply (Permutation_middle (inorder l) (d :: inorder r') x)|].
           apply Permutation_app_head.
           eapply Permutation_trans; [apply perm_swap|]. apply perm_skip, P.
        -- rewrite V2. apply ordered_app. repeat split; auto.
           apply Permutation_sym in P. apply (Permutation_Forall P) in O4. now inversion O4.
        -- destruct (Z_le_gt_dec (height l - height r') 1).
           ++ rewrite V4 by lia. cbn [height node]. lia.
           ++ cbn [height]. lia.
      * cbn [inorder]. rewrite in_app_iff. cbn. intros [Hi|[->|Hi]]; [| |tauto].
        -- apply dlt_false in Hx. rewrite Forall_forall in O3. specialize (O3 _ Hi).
           rewrite (datum_le_antisym _ _ Hx O3), deq_refl in Hdx. discriminate.
        -- now rewrite deq_refl in Hdx.
Qed.
