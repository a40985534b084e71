(** The methods of a task are called in turn on one private state. *)
From Coq Require Import List Bool Arith ZArith Lia.
From Verif Require Import PyBase PyStr PipeModel PipeSpec PipeSpec2 PipeProofs PipeProofs2 PipeProofs3 PipeProofs4.
Import ListNotations.
Open Scope list_scope.
Open Scope nat_scope.

Section P.
Context {V S : Type}.
Notation task := (task V S).
Notation pv := (pv V).
Notation event := (event V).

Lemma replay_app : forall (b : beh V S) l1 l2 s,
  replay b s (l1 ++ l2) <-> replay b s l1 /\ replay b (state_after b s l1) l2.
Proof.
  intros b. induction l1 as [|e l1 IH]; intros l2 s; [cbn; tauto|].
  destruct e; cbn; rewrite ?IH; tauto.
Qed.
Lemma state_after_app : forall (b : beh V S) l1 l2 s,
  state_after b s (l1 ++ l2) = state_after b (state_after b s l1) l2.
Proof. intros b. induction l1 as [|e l1 IH]; intros l2 s; [reflexivity|]. destruct e; cbn; apply IH. Qed.

Definition same (t t' : task) : Prop := t_conf t' = t_conf t /\ t_user t' = t_user t.
Lemma same_advance : forall t : task, same t (advance_state t).
Proof. intros t. unfold same, advance_state. destruct (t_state t); auto. Qed.

Lemma pipeline_next_replay : forall i (t : task) ev r, pipeline_next i t = (ev, r) ->
  (forall e, In e ev -> owner e = i) /\ replay (c_beh (t_conf t)) (t_user t) ev /\
  match r with
  | TOut t' o => t_conf t' = t_conf t /\ t_user t' = state_after (c_beh (t_conf t)) (t_user t) ev
  | TMissing | TFinished => ev = []
  | TErr _ => True
  end.
Proof.
  intros i t ev r H. unfold pipeline_next in H. destruct (t_state t) eqn:Et.
  - destruct (t_requires t) as [rs|]; [|injection H as <- <-; cbn; intuition].
    destruct (existsb is_none rs); [injection H as <- <-; cbn; intuition|].
    destruct (b_setup (c_beh (t_conf t)) (t_user t) rs) as [s' x] eqn:Eb. injection H as <- <-.
    split; [intros e [<-|[]]; reflexivity|]. cbn. rewrite Eb. cbn.
    split; [auto|]. destruct x; auto.
    destruct (same_advance (with_user t s')) as [A B]. rewrite A, B. auto.
  - destruct (t_in t) as [qs|]; [|injection H as <- <-; cbn; intuition].
    destruct (existsb is_nil qs); [injection H as <- <-; cbn; intuition|].
    cbn zeta in H.
    destruct (b_next (c_beh (t_conf t)) (t_user t) (q_heads qs)) as [s' x] eqn:Eb. injection H as <- <-.
    split; [intros e [<-|[]]; reflexivity|]. cbn. rewrite Eb. cbn [fst snd].
    split; [auto|]. destruct x as [o| |e]; auto.
    + destruct o; cbn zeta; auto;
        match goal with |- context [if ?c then _ else _] => destruct c end; auto;
        match goal with |- context [advance_state ?x] => destruct (same_advance x) as [A B]; rewrite A, B; auto end.
    + match goal with |- context [advance_state ?x] => destruct (same_advance x) as [A B]; rewrite A, B; auto end.
  - destruct (b_finish (c_beh (t_conf t)) (t_user t)) as [s' x] eqn:Eb. injection H as <- <-.
    split; [intros e [<-|[]]; reflexivity|]. cbn. rewrite Eb. cbn.
    split; [auto|]. destruct x; auto.
    destruct (same_advance (with_user t s')) as [A B]. rewrite A, B. auto.
  - injection H as <- <-. cbn; intuition.
Qed.

Lemma queue_product_same : forall key v (t t' : task), queue_product key v t = Ok t' -> same t t'.
Proof.
  intros key v t t' H. unfold queue_product in H.
  destruct (if existsb (seqb key) (req_keys t)
            then match t_requires t with
                 | None => Err PipelineRuntimeError
                 | Some rs => rbind (put_requires (req_keys t) rs key v) (fun l =>
                                Ok (with_requires t (Some l)))
                 end
            else Ok t) as [t1|e] eqn:E1; [|discriminate]. cbn [rbind] in H.
  assert (same t t1) as [A B].
  { destruct (existsb (seqb key) (req_keys t)); [|injection E1 as <-; split; auto].
    destruct (t_requires t); [|discriminate].
    destruct (put_requires (req_keys t) l key v); [|discriminate]. injection E1 as <-. split; auto. }
  destruct (existsb (seqb key) (in_keys t1)); [|injection H as <-; split; auto].
  destruct (t_in t1); [|discriminate].
  destruct (put_in (in_keys t1) l key v); [|discriminate]. injection H as <-. split; auto.
Qed.

Definition same_at (ts ts' : list (option task)) : Prop :=
  forall i t', task_at ts' i = Some t' -> exists t, task_at ts i = Some t /\ same t t'.
Lemma queue_all_same : forall key v ts ts', queue_all key v ts = Ok ts' -> same_at ts ts'.
Proof.
  intros key v. induction ts as [|[t|] ts IH]; intros ts' H; cbn in H.
  - injection H as <-. intros i t' E. destruct i; discriminate.
  - destruct (queue_product key v t) as [t1|] eqn:E1; [|discriminate]. cbn in H.
    destruct (queue_all key v ts) as [l|] eqn:E2; [|discriminate]. injection H as <-.
    intros [|i] t' E.
    + injection E as <-. exists t. split; [reflexivity|]. eapply queue_product_same; eauto.
    + apply (IH l eq_refl i t' E).
  - destruct (queue_all key v ts) as [l|] eqn:E2; [|discriminate]. injection H as <-.
    intros [|i] t' E; [discriminate|]. apply (IH l eq_refl i t' E).
Qed.
Lemma same_at_trans : forall a b c, same_at a b -> same_at b c -> same_at a c.
Proof.
  intros a b c H1 H2 i t E. destruct (H2 i t E) as (t1 & E1 & A & B).
  destruct (H1 i t1 E1) as (t2 & E2 & A' & B'). exists t2. split; auto. split; congruence.
Qed.
Lemma queue_pairs_same : forall km kv ts ts', queue_pairs km kv ts = Ok ts' -> same_at ts ts'.
Proof.
  intros km. induction kv as [|[k v] kv IH]; intros ts ts' H; cbn in H.
  - injection H as <-. intros i t E. exists t. split; auto. split; auto.
  - destruct (km k); [|auto]. destruct (queue_all k v ts) as [l|] eqn:E; [|discriminate].
    cbn in H. eapply same_at_trans; [eapply queue_all_same; eauto|auto].
Qed.

Lemma task_at_lset : forall (ts : list (option task)) i j x t, task_at (lset ts i x) j = Some t ->
  (i = j /\ x = Some t) \/ (i <> j /\ task_at ts j = Some t).
Proof.
  intros ts i j x t H. destruct (Nat.eq_dec i j) as [->|N].
  - left. split; auto. unfold task_at in H. destruct (nth_error (lset ts j x) j) as [o|] eqn:E; [|discriminate].
    assert (j < length ts).
    { rewrite <- (lset_length _ ts j x). apply nth_error_Some. congruence. }
    rewrite lset_same in E by auto. injection E as ->. destruct o; [congruence|discriminate].
  - right. split; auto. unfold task_at in *. now rewrite lset_other in H by auto.
Qed.

Variable cfg : list (tconf V S * S).
Variable km : str -> bool.

Definition RInv (tr : list event) (ts : list (option task)) : Prop :=
  forall i c s, nth_error cfg i = Some (c, s) ->
    replay (c_beh c) s (own i tr) /\
    forall t, task_at ts i = Some t -> t_conf t = c /\ t_user t = state_after (c_beh c) s (own i tr).

Lemma own_all : forall i (ev : list event), (forall e, In e ev -> owner e = i) -> own i ev = ev.
Proof.
  intros i. induction ev as [|e ev IH]; intros H; [reflexivity|]. cbn.
  rewrite (H e (or_introl eq_refl)), Nat.eqb_refl. f_equal. apply IH. intros x Hx. apply H. now right.
Qed.
Lemma own_none : forall i j (ev : list event), (forall e, In e ev -> owner e = i) -> i <> j -> own j ev = [].
Proof.
  intros i j. induction ev as [|e ev IH]; intros H N; [reflexivity|]. cbn.
  rewrite (H e (or_introl eq_refl)). destruct (Nat.eqb_spec i j); [congruence|].
  apply IH; auto. intros x Hx. apply H. now right.
Qed.

(** One task made [ev] and became [x] (or went). *)
Lemma RInv_move : forall tr ts i t ev x,
  RInv tr ts -> task_at ts i = Some t -> (forall e, In e ev -> owner e = i) ->
  replay (c_beh (t_conf t)) (t_user t) ev ->
  (forall t', x = Some t' -> t_conf t' = t_conf t /\ t_user t' = state_after (c_beh (t_conf t)) (t_user t) ev) ->
  RInv (tr ++ ev) (lset ts i x).
Proof.
  intros tr ts i t ev x H Ht Ho Hr Hx j c s Hj. rewrite own_app. destruct (H j c s Hj) as [R U].
  destruct (Nat.eq_dec i j) as [->|N].
  - destruct (U t Ht) as [Ec Eu]. subst c. rewrite (own_all j ev Ho), replay_app, <- Eu. split; [auto|].
    intros t' Ht'. rewrite state_after_app, <- Eu.
    destruct (task_at_lset _ _ _ _ _ Ht') as [[_ E]|[E _]]; [|congruence]. apply Hx. auto.
  - rewrite (own_none i j ev Ho N), app_nil_r. split; [auto|].
    intros t' Ht'. destruct (task_at_lset _ _ _ _ _ Ht') as [[E _]|[_ E]]; [congruence|]. auto.
Qed.
Lemma RInv_same : forall tr ts ts', RInv tr ts -> same_at ts ts' -> RInv tr ts'.
Proof.
  intros tr ts ts' H Hs i c s Hi. destruct (H i c s Hi) as [R U]. split; [auto|].
  intros t' Ht'. destruct (Hs i t' Ht') as (t & Ht & A & B). rewrite A, B. auto.
Qed.

Definition replays (tr : list event) : Prop :=
  forall i c s, nth_error cfg i = Some (c, s) -> replay (c_beh c) s (own i tr).

Lemma step_replay : forall tr m ev r, RInv tr (tasks m) -> step km m = (ev, r) ->
  replays (tr ++ ev) /\ match r with Go m' => RInv (tr ++ ev) (tasks m') | _ => True end.
Proof.
  intros tr m ev r H E. unfold step in E.
  assert (K : forall tr' ts', RInv tr' ts' -> replays tr').
  { intros tr' ts' I i c s Hi. apply (I i c s Hi). }
  destruct (next_task m) as [i|]; [|injection E as <- <-; rewrite app_nil_r; eauto].
  destruct (task_at (tasks m) i) as [t|] eqn:Ht; [|injection E as <- <-; rewrite app_nil_r; eauto].
  destruct (pipeline_next i t) as [ev0 r0] eqn:Ep.
  destruct (pipeline_next_replay _ _ _ _ Ep) as (Ho & Hr & Hm).
  destruct r0 as [t' o| | |e].
  - assert (I : RInv (tr ++ ev0) (lset (tasks m) i (Some t'))).
    { eapply RInv_move; eauto. intros t'' [= <-]. exact Hm. }
    cbn zeta in E. destruct (check_output (c_out (t_conf t')) o) as [[l|]|e].
    + destruct (queue_pairs km (combine (out_keys t') l) (lset (tasks m) i (Some t'))) as [ts'|e] eqn:Eq;
        injection E as <- <-; split; eauto.
      eapply RInv_same; eauto. eapply queue_pairs_same; eauto.
    + injection E as <- <-; split; eauto.
    + injection E as <- <-; split; eauto.
  - subst ev0. cbn in E. destruct (i =? head m).
    + injection E as <- <-.
      assert (I : RInv (tr ++ [EStarve i]) (lset (tasks m) i (Some (advance_state t)))).
      { refine (RInv_move tr (tasks m) i t _ _ H Ht _ _ _); [intros e [<-|[]]; reflexivity|exact I|].
        intros t' [= <-]. destruct (same_advance t) as [A B]. cbn. auto. }
      split; eauto.
    + injection E as <- <-. rewrite app_nil_r. eauto.
  - subst ev0. cbn in E. injection E as <- <-.
    assert (I : RInv (tr ++ [ERemove i]) (lset (tasks m) i None)).
    { refine (RInv_move tr (tasks m) i t _ _ H Ht _ _ _); [intros e [<-|[]]; reflexivity|exact I|]. discriminate. }
    split; eauto.
  - injection E as <- <-. split; [|exact I].
    assert (I : RInv (tr ++ ev0) (lset (tasks m) i None)).
    { eapply RInv_move; eauto. discriminate. }
    eauto.
Qed.

Lemma RInv_start : RInv [] (tasks (start cfg)).
Proof.
  intros i c s Hi. split; [exact I|]. intros t Ht. cbn in *. unfold task_at in Ht.
  rewrite nth_error_map, Hi in Ht. injection Ht as <-. auto.
Qed.

Lemma run_replay : forall n tr r, run km n (start cfg) = (tr, r) -> replays tr.
Proof.
  assert (G : forall n m tr0 tr r, RInv tr0 (tasks m) -> run km n m = (tr, r) -> replays (tr0 ++ tr)).
  { induction n as [|n IH]; intros m tr0 tr r I E.
    - injection E as <- <-. rewrite app_nil_r. intros i c s Hi. apply (I i c s Hi).
    - rewrite run_S in E. destruct (step km m) as [ev [m'| |x]] eqn:Es.
      + destruct (run km n m') as [ev' r'] eqn:Er. injection E as <- <-.
        destruct (step_replay _ _ _ _ I Es) as [_ I']. rewrite app_assoc. eauto.
      + injection E as <- <-. apply (step_replay _ _ _ _ I Es).
      + injection E as <- <-. apply (step_replay _ _ _ _ I Es). }
  intros n tr r E. apply (G n (start cfg) [] tr r RInv_start E).
Qed.

Lemma run_user : forall n tr m i c s t, run km n (start cfg) = (tr, Go m) -> nth_error cfg i = Some (c, s) ->
  task_at (tasks m) i = Some t -> t_user t = state_after (c_beh c) s (own i tr).
Proof.
  assert (G : forall n m tr0 tr m', RInv tr0 (tasks m) -> run km n m = (tr, Go m') -> RInv (tr0 ++ tr) (tasks m')).
  { induction n as [|n IH]; intros m tr0 tr m' I E.
    - injection E as <- <-. now rewrite app_nil_r.
    - rewrite run_S in E. destruct (step km m) as [ev [m1| |x]] eqn:Es; [|discriminate|discriminate].
      destruct (run km n m1) as [ev' r'] eqn:Er. injection E as <- ->.
      destruct (step_replay _ _ _ _ I Es) as [_ I']. rewrite app_assoc. eauto. }
  intros n tr m i c s t E Hi Ht. apply (G n (start cfg) [] tr m RInv_start E i c s Hi). exact Ht.
Qed.
End P.
