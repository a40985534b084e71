(** Why a task can starve; what one task alone produces under a key. *)
From Coq Require Import List Bool Arith ZArith Lia.
From Verif Require Import PyBase PyStr PipeModel PipeSpec PipeSpec2 PipeProofs PipeProofs2 PipeProofs3 PipeProofs4 PipeProofs5 PipeProofs8.
Import ListNotations.
Open Scope list_scope.
Open Scope nat_scope.

Section P.
Context {V S : Type}.
Notation task := (task V S).
Notation pv := (pv V).
Notation event := (event V).
Variable cfg : list (tconf V S * S).
Variable km : str -> bool.

Definition starved_why (tr : list event) : Prop :=
  forall i c s, nth_error cfg i = Some (c, s) -> In (EStarve i) tr ->
    klist (c_req c) <> [] \/ (klist (c_in c) <> [] /\ exists a r, In (ESetup i a r) tr).

Lemma life_next_setup : forall (c : tconf V S) L s, life c L s -> s = SNext ->
  exists i a r, In (ESetup i a r) L.
Proof.
  induction 1 as [|i a r Hn Hl|i|L i a r H IH Hr|L i a H IH|L i a o H IH Ho Hl|L i H IH|L i r H IH];
    intros E; try discriminate.
  - exists i, a, r. now left.
  - destruct (IH E) as (i' & a' & r' & A). exists i', a', r'. apply in_or_app. auto.
Qed.

Lemma starved_why_step : forall tr m ev m', Inv cfg km tr m -> starved_why tr ->
  step km m = (ev, Go m') -> starved_why (tr ++ ev).
Proof.
  intros tr m ev m' HI HE Hs i c s Hi Hst.
  apply in_app_or in Hst as [Hst|Hst].
  - destruct (HE i c s Hi Hst) as [A|(A & a & r & B)]; [auto|]. right. split; auto.
    exists a, r. apply in_or_app. auto.
  - apply step_cases in Hs as (i1 & t1 & Ht1 & Hc1); [|apply HI].
    destruct (slot_of _ _ _ _ _ _ HI Ht1) as (c1 & s1 & Hi1 & _ & HT1).
    destruct (pipeline_next i1 t1) as [ev0 r0] eqn:Ep.
    pose proof (pipeline_next_ok _ _ _ _ _ _ _ HT1 Ep) as HR.
    destruct r0 as [t' o| | |x]; cbn [result_ok] in HR.
    + destruct Hc1 as [-> _]. destruct HR as (e & -> & _ & _ & _ & Hns & _).
      destruct Hst as [->|[]]. now destruct Hns.
    + destruct HR as (-> & _ & _ & Hwhy). destruct Hc1 as [(E & _)|(E & _)]; rewrite E in Hst; [destruct Hst|].
      destruct Hst as [Hst|[]]. injection Hst as <-. rewrite Hi1 in Hi. injection Hi as -> ->.
      destruct HT1 as (Hc & Hl & _ & _ & _ & _ & Q & R).
      destruct Hwhy as [Hset|(Hnx & j & k & Hj & Hlen)].
      * left. unfold pipeline_next in Ep. rewrite Hset in Ep. destruct (t_requires t1) as [rs|].
        2: { discriminate. }
        destruct R as (_ & Hlr & _). intros E0. rewrite E0 in Hlr. destruct rs; [|discriminate].
        cbn in Ep. destruct (b_setup (c_beh (t_conf t1)) (t_user t1) []). destruct o; discriminate.
      * right. split. { intros E0. rewrite E0 in Hj. destruct j; discriminate. }
        destruct (life_next_setup _ _ _ Hl Hnx) as (i' & a & r & Hin). exists a, r.
        apply own_in in Hin as [Hin Ho]. cbn in Ho. subst i'. apply in_or_app. auto.
    + destruct HR as (-> & _). destruct Hc1 as [-> _]. destruct Hst as [Hst|[]]. discriminate.
    + contradiction.
Qed.

Lemma starved_why_run : forall n tr r, run km n (start cfg) = (tr, r) -> (forall x, r <> Fail x) -> starved_why tr.
Proof.
  induction n as [|n IH]; intros tr r H Hr.
  - cbn in H. injection H as <- <-. intros i c s _ [].
  - rewrite run_snoc in H. destruct (run km n (start cfg)) as [ev r0] eqn:E.
    destruct r0 as [m| |x].
    + destruct (step km m) as [ev' r'] eqn:Es. injection H as <- <-.
      assert (HI : Inv cfg km ev m) by (apply (run_ok _ _ _ _ _ E)).
      specialize (IH _ _ eq_refl ltac:(discriminate)).
      pose proof (step_ok _ _ _ _ _ _ HI Es) as HS. destruct r' as [m'| |x].
      * eapply starved_why_step; eauto.
      * destruct HS as [-> _]. now rewrite app_nil_r.
      * exfalso; now apply (Hr x).
    + injection H as <- <-. eapply IH; eauto.
    + injection H as <- <-. exfalso; now apply (Hr x).
Qed.

(** A task without requirements is set up in every run that completes. *)
Lemma set_up : forall n tr i c s, run km n (start cfg) = (tr, Done) -> nth_error cfg i = Some (c, s) ->
  klist (c_req c) = [] -> exists r, In (ESetup i [] r) tr.
Proof.
  intros n tr i c s H Hi Hq.
  destruct (done_gone _ _ _ _ _ _ _ H Hi) as (L & i' & EL & Hl & _).
  assert (G : exists a r, In (ESetup i a r) tr).
  { destruct (life_past_setup _ _ _ Hl) as [(j & a & r & A & _)|(j & A)]; [discriminate| |].
    - exists a, r. assert (B : In (ESetup j a r) (own i tr)) by (rewrite EL; apply in_or_app; auto).
      apply own_in in B as [B E]. cbn in E. now subst j.
    - assert (B : In (EStarve j) (own i tr)) by (rewrite EL; apply in_or_app; auto).
      apply own_in in B as [B E]. cbn in E. subst j.
      destruct (starved_why_run _ _ _ H ltac:(discriminate) i c s Hi B) as [C|(_ & C)]; [contradiction|exact C]. }
  destruct G as (a & r & G). exists r.
  destruct (run_trace _ _ _ _ _ H) as [_ T]. destruct (T i c s Hi) as (_ & _ & Hsh).
  assert (B : In (ESetup i a r) (own i tr)) by (apply own_in; auto).
  destruct (shape_in_setup _ _ Hsh _ _ _ B) as (_ & A & _). rewrite Hq in A. destruct a; [exact G|discriminate].
Qed.

(** A task without inputs ends only by itself. *)
Lemma ends_itself : forall n tr i c s, run km n (start cfg) = (tr, Done) -> nth_error cfg i = Some (c, s) ->
  klist (c_req c) = [] -> klist (c_in c) = [] -> c_limit c = None -> exists a, In (ENext i a Stop) tr.
Proof.
  intros n tr i c s H Hi Hq Hin Hlim.
  destruct (done_gone _ _ _ _ _ _ _ H Hi) as (L & i' & EL & Hl & _).
  destruct (life_closed _ _ _ Hl (or_intror eq_refl)) as [(j & b & Hj)|[(k & Hk & _)|(j & Hj)]].
  - assert (B : In (ENext j b Stop) (own i tr)) by (rewrite EL; apply in_or_app; auto).
    apply own_in in B as [B E]. cbn in E. subst j. eauto.
  - congruence.
  - assert (B : In (EStarve j) (own i tr)) by (rewrite EL; apply in_or_app; auto).
    apply own_in in B as [B E]. cbn in E. subst j.
    destruct (starved_why_run _ _ _ H ltac:(discriminate) i c s Hi B) as [C|(C & _)]; contradiction.
Qed.

(** What is produced under a key of one task. *)
Lemma products_own : forall k i tr, (forall j, produces cfg j k -> j = i) ->
  products cfg km k tr = products cfg km k (own i tr).
Proof.
  intros k i tr H. induction tr as [|e tr IH] using rev_ind; [reflexivity|].
  rewrite own_app, own_one. destruct (Nat.eqb_spec (owner e) i) as [E|E].
  - rewrite !products_app. now rewrite IH.
  - rewrite app_nil_r, products_other; auto.
Qed.
End P.
