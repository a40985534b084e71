(** The invariant of the loop. *)
From Coq Require Import List Bool Arith ZArith Lia Permutation.
From Verif Require Import PyBase PyStr PipeModel PipeSpec PipeProofs PipeProofs2.
Import ListNotations.
Open Scope list_scope.
Open Scope nat_scope.

Section P.
Context {V S : Type}.
Notation task := (task V S).
Notation pv := (pv V).
Notation event := (event V).

(** ** Lists *)
Lemma lset_length : forall A (l : list A) i x, length (lset l i x) = length l.
Proof. induction l as [|y l IH]; intros [|i] x; cbn; auto. Qed.
Lemma lset_same : forall A (l : list A) i x, i < length l -> nth_error (lset l i x) i = Some x.
Proof. induction l as [|y l IH]; intros [|i] x H; cbn in *; try lia; auto. apply IH; lia. Qed.
Lemma lset_other : forall A (l : list A) i j x, i <> j -> nth_error (lset l i x) j = nth_error l j.
Proof. induction l as [|y l IH]; intros [|i] [|j] x H; cbn; auto; congruence. Qed.

Lemma task_at_some : forall (ts : list (option task)) i t,
  task_at ts i = Some t <-> nth_error ts i = Some (Some t).
Proof.
  intros. unfold task_at. destruct (nth_error ts i) as [[u|]|]; split; congruence.
Qed.
Lemma task_at_lt : forall (ts : list (option task)) i t, task_at ts i = Some t -> i < length ts.
Proof. intros ts i t H. apply task_at_some in H. apply nth_error_Some. congruence. Qed.

Definition live (o : option task) : bool := match o with Some _ => true | None => false end.
Definition shape (ts : list (option task)) : list bool := map live ts.

Lemma shape_task_at : forall ts i, nth_error (shape ts) i = Some true <-> exists t, task_at ts i = Some t.
Proof.
  intros ts i. unfold shape, task_at. rewrite nth_error_map'.
  destruct (nth_error ts i) as [[t|]|]; cbn; split; intros H; try congruence; eauto;
    destruct H; congruence.
Qed.

Definition head_ok (b : list bool) (h : nat) : Prop :=
  (forall j, j < h -> nth_error b j <> Some true) /\
  ((exists j, nth_error b j = Some true) -> nth_error b h = Some true).

Lemma shape_lset_some : forall (ts : list (option task)) i t t', task_at ts i = Some t ->
  shape (lset ts i (Some t')) = shape ts.
Proof.
  induction ts as [|o ts IH]; intros [|i] t t' H; cbn; auto.
  - apply task_at_some in H. cbn in H. injection H as ->. reflexivity.
  - f_equal. eapply IH. apply task_at_some in H. apply task_at_some. exact H.
Qed.

Lemma first_left_spec : forall (l : list (option task)),
  match first_left l with
  | Some n => nth_error (shape l) n = Some true /\ forall j, j < n -> nth_error (shape l) j <> Some true
  | None => forall j, nth_error (shape l) j <> Some true
  end.
Proof.
  induction l as [|[t|] l IH]; cbn.
  - intros [|j]; discriminate.
  - split; auto. intros; lia.
  - destruct (first_left l) as [n|]; cbn.
    + destruct IH as [A B]. split; auto. intros [|j] H; [discriminate|]. apply B; lia.
    + intros [|j]; [discriminate|]. apply IH.
Qed.

Lemma nth_error_skipn' : forall A (l : list A) h j, nth_error (skipn h l) j = nth_error l (h + j).
Proof.
  induction l as [|x l IH]; intros [|h] j; cbn; auto. now destruct j.
Qed.
Lemma skipn_shape : forall ts h, shape (skipn h ts) = skipn h (shape ts).
Proof. intros. unfold shape. now rewrite skipn_map. Qed.

Lemma new_head_ok : forall (ts : list (option task)) i h, head_ok (shape ts) h ->
  nth_error (shape ts) i = Some true ->
  head_ok (shape (lset ts i None)) (new_head (lset ts i None) h).
Proof.
  intros ts i h [A B] Hi.
  assert (Hlt : i < length ts).
  { apply shape_task_at in Hi as [t Ht]. eapply task_at_lt; eauto. }
  assert (N : forall j, nth_error (shape (lset ts i None)) j = Some true ->
              nth_error (shape ts) j = Some true).
  { intros j. unfold shape. rewrite !nth_error_map'. destruct (Nat.eq_dec i j) as [<-|Hne].
    - rewrite lset_same by auto. discriminate.
    - now rewrite lset_other. }
  pose proof (first_left_spec (skipn h (lset ts i None))) as F.
  unfold new_head. destruct (first_left (skipn h (lset ts i None))) as [n|].
  - rewrite skipn_shape, nth_error_skipn' in F. destruct F as [F G]. split; [|auto].
    intros j Hj E. destruct (le_lt_dec h j) as [Hh|Hh].
    + specialize (G (j - h) ltac:(lia)). rewrite nth_error_skipn' in G.
      now replace (h + (j - h)) with j in G by lia.
    + now apply (A j Hh), N.
  - rewrite skipn_shape in F. split; [intros j Hj E; now apply (A j Hj), N|].
    intros [j Hj]. exfalso. destruct (le_lt_dec h j) as [Hh|Hh].
    + specialize (F (j - h)). rewrite nth_error_skipn' in F.
      now replace (h + (j - h)) with j in F by lia.
    + now apply (A j Hh), N.
Qed.

(** ** Choosing a task *)
Lemma rotation_in : forall n start j, j < n -> In j (rotation n start).
Proof.
  intros n start j H. unfold rotation. apply in_map_iff.
  exists ((j + (n - start mod n)) mod n). split.
  - rewrite Nat.add_mod_idemp_l by lia.
    rewrite <- Nat.add_mod_idemp_r by lia.
    pose proof (Nat.mod_upper_bound start n ltac:(lia)).
    replace (j + (n - start mod n) + start mod n) with (j + 1 * n) by lia.
    rewrite Nat.mod_add by lia. now apply Nat.mod_small.
  - apply in_seq. pose proof (Nat.mod_upper_bound (j + (n - start mod n)) n ltac:(lia)). lia.
Qed.
Lemma rotation_lt : forall n start j, In j (rotation n start) -> j < n.
Proof.
  intros n start j H. unfold rotation in H. apply in_map_iff in H as (i & <- & Hi).
  apply in_seq in Hi. apply Nat.mod_upper_bound. lia.
Qed.

Lemma sorted_reverse_perm : forall A (leb : A -> A -> bool) l, Permutation l (sorted_reverse leb l).
Proof.
  intros A leb l. unfold sorted_reverse.
  eapply perm_trans; [apply Permutation_rev|]. eapply perm_trans; [apply (py_sorted_perm leb)|].
  apply Permutation_rev.
Qed.

Lemma next_task_none : forall m : mst V S, next_task m = None ->
  forall i, task_at (tasks m) i = None.
Proof.
  intros m H i. unfold next_task in H.
  set (sr := sorted_reverse _ _) in H. clearbody sr. destruct sr; [|discriminate].
  unfold iter_tasks in H. cbn [tasks idx] in H.
  destruct (task_at (tasks m) i) as [t|] eqn:E; auto.
  pose proof (find_none _ _ H i (rotation_in _ _ _ (task_at_lt _ _ _ E))) as F.
  cbn in F. rewrite E in F. discriminate.
Qed.

Lemma next_task_some : forall (m : mst V S) i, head_ok (shape (tasks m)) (head m) ->
  next_task m = Some i ->
  exists t, task_at (tasks m) i = Some t /\
    (is_available t = true \/ (available m = [] /\ i = head m)).
Proof.
  intros m i [HA HB] H. unfold next_task in H.
  set (leb := fun i j => _) in H.
  pose proof (sorted_reverse_perm _ leb (available m)) as HP.
  destruct (sorted_reverse leb (available m)) as [|x r].
  - apply Permutation_sym, Permutation_nil in HP.
    unfold iter_tasks in H. cbn [tasks idx] in H.
    pose proof (find_some _ _ H) as [Hin Ht].
    cbn in Ht. destruct (task_at (tasks m) i) as [t|] eqn:Et; [|discriminate].
    exists t; split; auto. right; split; auto.
    assert (Hh : nth_error (shape (tasks m)) (head m) = Some true).
    { apply HB. exists i. apply shape_task_at; eauto. }
    apply shape_task_at in Hh as [th Hth].
    pose proof (task_at_lt _ _ _ Hth) as Hlt.
    revert H. unfold rotation. destruct (length (tasks m)) as [|n] eqn:En; [lia|].
    cbn [seq map find]. rewrite Nat.add_0_l, Nat.mod_small, Hth by lia. congruence.
  - injection H as ->.
    assert (Hi : In i (available m)).
    { eapply Permutation_in; [apply Permutation_sym; exact HP|left; reflexivity]. }
    unfold available in Hi. apply filter_In in Hi as [_ Hi].
    destruct (task_at (tasks m) i) as [t|] eqn:Et; [|discriminate]. eauto.
Qed.

(** ** Delivery to all *)
Lemma queue_all_spec : forall key v (ts ts' : list (option task)), queue_all key v ts = Ok ts' ->
  shape ts' = shape ts /\
  forall i, match nth_error ts i with
            | Some (Some t) => exists t', nth_error ts' i = Some (Some t') /\ queue_product key v t = Ok t'
            | Some None => nth_error ts' i = Some None
            | None => nth_error ts' i = None
            end.
Proof.
  intros key v. induction ts as [|[t|] ts IH]; intros ts' H; cbn in H.
  - injection H as <-. split; auto. intros [|i]; reflexivity.
  - destruct (queue_product key v t) as [t'|] eqn:Et; [|discriminate]. cbn in H.
    destruct (queue_all key v ts) as [l|] eqn:E; [|discriminate]. cbn in H. injection H as <-.
    destruct (IH _ eq_refl) as [A B]. split; [cbn; now f_equal|].
    intros [|i]; cbn; eauto. apply B.
  - destruct (queue_all key v ts) as [l|] eqn:E; [|discriminate]. cbn in H. injection H as <-.
    destruct (IH _ eq_refl) as [A B]. split; [cbn; now f_equal|].
    intros [|i]; cbn; eauto. apply B.
Qed.

Lemma queue_all_err : forall key v (ts : list (option task)) e, queue_all key v ts = Err e ->
  exists i t, nth_error ts i = Some (Some t) /\ queue_product key v t = Err e.
Proof.
  intros key v. induction ts as [|[t|] ts IH]; intros e H; cbn in H; [discriminate| |].
  - destruct (queue_product key v t) as [t'|e'] eqn:Et; cbn in H.
    + destruct (queue_all key v ts) as [l|e'] eqn:E; [discriminate|]. cbn in H. injection H as <-.
      destruct (IH _ eq_refl) as (i & u & Hu). exists (Datatypes.S i), u. exact Hu.
    + injection H as <-. exists 0, t. auto.
  - destruct (queue_all key v ts) as [l|e'] eqn:E; [discriminate|]. cbn in H. injection H as <-.
    destruct (IH _ eq_refl) as (i & u & Hu). exists (Datatypes.S i), u. exact Hu.
Qed.

Variable cfg : list (tconf V S * S).
Variable km : str -> bool.

Definition AllInv (f : nat -> list event) (Q : str -> list pv) (ts : list (option task)) : Prop :=
  forall i c s, nth_error cfg i = Some (c, s) ->
    exists ot, nth_error ts i = Some ot /\ slot_inv c (f i) Q ot.

Lemma slot_inv_ext : forall c (L : list event) P Q ot, (forall k, Q k = P k) ->
  slot_inv (S:=S) c L P ot -> slot_inv c L Q ot.
Proof.
  intros c L P Q ot E H.
  assert (G : grows P Q) by (intros k; exists []; now rewrite E, app_nil_r).
  destruct ot as [t|]; cbn in *; [|now apply (gone_grow c L P Q)].
  destruct H as (Hc & Hl & Hn & Hf & Hcol & Ha & Hi & Hr).
  split; [auto|]. split; [auto|]. split; [auto|]. split; [auto|].
  split; [now apply (cols_grow c L P Q)|]. split; [now apply (args_grow c L P Q)|]. split.
  - destruct (t_in t); auto. destruct Hi as [A B]. split; auto.
    intros j k q Hj Hq. rewrite E. now apply B.
  - destruct (t_requires t); auto. destruct Hr as (A & B & C). repeat split; auto.
    intros j k r Hj Hr0. rewrite E. eauto.
Qed.

Lemma AllInv_add : forall f Q key v ts ts', AllInv f Q ts -> queue_all key v ts = Ok ts' ->
  AllInv f (addp Q key v) ts'.
Proof.
  intros f Q key v ts ts' H E i c s Hi.
  destruct (H i c s Hi) as (ot & Hot & HS).
  destruct (queue_all_spec _ _ _ _ E) as [_ F]. specialize (F i). rewrite Hot in F.
  destruct ot as [t|].
  - destruct F as (t' & Ht' & Hq). exists (Some t'); split; auto.
    cbn in *. eapply queue_product_ok; eauto.
  - exists None; split; auto. cbn in *. eapply gone_grow; [apply addp_grows|]; eauto.
Qed.

Fixpoint addall (Q : str -> list pv) (kv : list (str * pv)) : str -> list pv :=
  match kv with
  | [] => Q
  | (k, v) :: r => if km k then addall (addp Q k v) r else addall Q r
  end.

Lemma addall_spec : forall kv Q k,
  addall Q kv k = Q k ++ map snd (filter (fun p => seqb (fst p) k && km (fst p)) kv).
Proof.
  induction kv as [|[k0 v] kv IH]; intros Q k; cbn [addall filter map fst].
  - now rewrite app_nil_r.
  - destruct (km k0) eqn:E; rewrite IH.
    + unfold addp. destruct (seqb k0 k) eqn:Ek; cbn [andb map snd]; auto.
      now rewrite <- app_assoc.
    + now rewrite andb_false_r.
Qed.

Lemma queue_pairs_ok : forall f kv Q ts ts', AllInv f Q ts -> queue_pairs km kv ts = Ok ts' ->
  AllInv f (addall Q kv) ts' /\ shape ts' = shape ts.
Proof.
  induction kv as [|[k v] kv IH]; intros Q ts ts' H E; cbn in *.
  - injection E as <-. auto.
  - destruct (km k).
    + destruct (queue_all k v ts) as [ts1|] eqn:E1; [|discriminate]. cbn in E.
      destruct (IH _ _ _ (AllInv_add _ _ _ _ _ _ H E1) E) as [A B]. split; auto.
      destruct (queue_all_spec _ _ _ _ E1) as [C _]. congruence.
    + apply (IH _ _ _ H E).
Qed.

Lemma queue_pairs_err : forall f kv Q ts e, AllInv f Q ts -> queue_pairs km kv ts = Err e ->
  exists a k v b ts1 i t, kv = a ++ (k, v) :: b /\ km k = true /\
    AllInv f (addall Q a) ts1 /\ shape ts1 = shape ts /\
    nth_error ts1 i = Some (Some t) /\ queue_product k v t = Err e.
Proof.
  induction kv as [|[k v] kv IH]; intros Q ts e H E; cbn in *; [discriminate|].
  destruct (km k) eqn:Ek.
  - destruct (queue_all k v ts) as [ts1|e1] eqn:E1; cbn in E.
    + destruct (IH _ _ _ (AllInv_add _ _ _ _ _ _ H E1) E) as (a & k' & v' & b & ts2 & i & t & Hk & Hm & HA & HS & Hr).
      exists ((k, v) :: a), k', v', b, ts2, i, t. subst kv. cbn. rewrite Ek.
      destruct (queue_all_spec _ _ _ _ E1) as [C _]. rewrite HS, C. tauto.
    + injection E as ->. destruct (queue_all_err _ _ _ _ E1) as (i & t & Ht).
      exists [], k, v, kv, ts, i, t. cbn. tauto.
  - destruct (IH _ _ _ H E) as (a & k' & v' & b & ts2 & i & t & Hk & Hm & HA & HS & Hr).
    exists ((k, v) :: a), k', v', b, ts2, i, t. subst kv. cbn. rewrite Ek. tauto.
Qed.

(** ** Traces *)
Lemma own_app : forall i (a b : list event), own i (a ++ b) = own i a ++ own i b.
Proof. intros; apply filter_app. Qed.
Lemma own_in : forall i e (tr : list event), In e (own i tr) <-> In e tr /\ owner e = i.
Proof. intros. unfold own. rewrite filter_In, Nat.eqb_eq. tauto. Qed.
Lemma own_one : forall i (e : event), own i [e] = if owner e =? i then [e] else [].
Proof. intros; cbn. destruct (owner e =? i); auto. Qed.

Definition P (tr : list event) (k : str) := products cfg km k tr.

Lemma products_app : forall k a b, products cfg km k (a ++ b) = products cfg km k a ++ products cfg km k b.
Proof. intros. unfold products. now rewrite flat_map_app, filter_app, map_app. Qed.

Lemma products_quiet : forall k tr e, returned e = None ->
  products cfg km k (tr ++ [e]) = products cfg km k tr.
Proof.
  intros k tr e H. rewrite products_app. unfold products at 2. cbn. unfold produced_by. rewrite H.
  cbn. now rewrite app_nil_r.
Qed.

Lemma P_grows : forall a b, grows (P a) (P (a ++ b)).
Proof. intros a b k. unfold P. rewrite products_app. eauto. Qed.

Lemma items_check : forall k (o : pv),
  match check_output k o with
  | Ok (Some l) => combine (klist k) l = items k o
  | Ok None => items k o = []
  | Err _ => ~ fits k o
  end.
Proof.
  intros k o. unfold check_output, items.
  destruct o as [|v|l|l], k as [s|[|s [|s' ks]]]; cbn [klist combine]; auto.
  - intros [H|[H|[[s' H]|(l & [H|H] & _)]]]; discriminate.
  - intros [H|[H|[[s1 H]|(l & [H|H] & _)]]]; discriminate.
  - destruct (length (s :: s' :: ks) =? length l) eqn:E; auto.
    apply Nat.eqb_neq in E.
    intros [H|[H|[[s1 H]|(l' & [H|H] & Hl)]]]; try discriminate. injection H as <-.
    cbn [klist] in Hl. lia.
  - destruct (length (s :: s' :: ks) =? length l) eqn:E; auto.
    apply Nat.eqb_neq in E.
    intros [H|[H|[[s1 H]|(l' & [H|H] & Hl)]]]; try discriminate. injection H as <-.
    cbn [klist] in Hl. lia.
Qed.
End P.
