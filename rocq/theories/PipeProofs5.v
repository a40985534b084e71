(** Order of calls, limits, losses, failures. *)
From Coq Require Import List Bool Arith ZArith Lia.
From Verif Require Import PyBase PyStr PipeModel PipeSpec PipeProofs PipeProofs2 PipeProofs3 PipeProofs4.
Import ListNotations.
Open Scope list_scope.
Open Scope nat_scope.

Section P.
Context {V S : Type}.
Notation task := (task V S).
Notation pv := (pv V).
Notation event := (event V).
Variable cfg : list (tconf V S * S).
Variable km : str -> bool.
Notation P := (P cfg km).

(** ** Order of the calls *)
Definition ns (e : event) : bool := match e with EStarve _ => false | _ => true end.
Lemma calls_own : forall i (tr : list event), calls i tr = filter ns (own i tr).
Proof.
  intros i tr. unfold calls, own. induction tr as [|e tr IH]; cbn; auto.
  destruct (owner e =? i); cbn; auto. fold (ns e). destruct (ns e); now rewrite ?IH.
Qed.

Definition parts (s : pstate) (l : list event) : Prop :=
  exists a b f, l = a ++ b ++ f /\ at_most_one is_setup a /\ Forall is_next b /\
    (b <> [] -> a <> []) /\ (s = SNext -> a <> []) /\ (s <> SRaise -> f = []) /\
    (s = SRaise -> exists x, f = [x] /\ is_finish x).

Lemma life_parts : forall (c : tconf V S) L s, life c L s -> parts s (filter ns L).
Proof.
  assert (NX : forall L i a r s, parts SNext (filter ns L) -> s <> SRaise ->
             parts s (filter ns (L ++ [ENext i a r] : list event))).
  { intros L i a r s (x & b & f & E & A & B & C & D & F & G) Hs.
    rewrite filter_app, E. cbn. exists x, (b ++ [ENext i a r]), []. rewrite F by discriminate.
    rewrite !app_nil_r, app_assoc. repeat split; auto; try congruence.
    apply Forall_app; split; auto. constructor; [exact I|constructor]. }
  induction 1 as [|i a r Hn Hl|i|L i a r H IH Hr|L i a H IH|L i a o H IH Ho Hl|L i H IH|L i r H IH].
  - exists [], [], []. repeat split; auto; try congruence. left; auto.
  - exists [ESetup i a r], [], []. repeat split; auto; try congruence.
    right; eexists; split; [reflexivity|exact I].
  - exists [], [], []. repeat split; auto; try congruence. left; auto.
  - apply NX; auto. discriminate.
  - apply NX; auto. discriminate.
  - apply NX; auto. discriminate.
  - destruct IH as (x & b & f & E & A & B & C & D & F & G). rewrite filter_app, E. cbn.
    exists x, b, []. rewrite F by discriminate. rewrite !app_nil_r. repeat split; auto; congruence.
  - destruct IH as (x & b & f & E & A & B & C & D & F & G). rewrite filter_app, E. cbn.
    exists x, b, [EFinish i r]. rewrite F by discriminate. rewrite !app_nil_r, <- app_assoc.
    repeat split; auto; try congruence. intros _. eexists; split; [reflexivity|exact I].
Qed.

Lemma shape_lifecycle : forall (c : tconf V S) L, life_shape c L -> lifecycle (filter ns L).
Proof.
  intros c L [[s H]|[(L' & e & -> & He & H)|(L' & i & -> & H)]]; apply life_parts in H;
    destruct H as (a & b & f & E & A & B & C & D & F & G).
  - exists a, b, f, []. rewrite E, app_nil_r. repeat split; auto; try congruence.
    + destruct s; try (left; apply F; discriminate). right. auto.
    + left; auto.
  - rewrite filter_app, E, F by discriminate. destruct e; try contradiction. cbn.
    exists a, (b ++ [ENext i args r]), [], []. rewrite !app_nil_r, app_assoc.
    repeat split; auto; try congruence; try (left; auto; fail).
    apply Forall_app; split; auto.
  - rewrite filter_app, E. cbn. exists a, b, f, [ERemove i]. rewrite <- !app_assoc.
    destruct (G eq_refl) as (x & -> & Hx).
    repeat split; auto; try congruence; right; eauto. eexists; split; [reflexivity|exact I].
Qed.

(** ** Requirements *)
Lemma life_in_setup : forall (c : tconf V S) L s, life c L s -> forall i a r, In (ESetup i a r) L ->
  ~ In PNone a /\ length a = length (klist (c_req c)) /\ hd_error L = Some (ESetup i a r).
Proof.
  induction 1 as [|i a r Hn Hl|i|L i a r H IH Hr|L i a H IH|L i a o H IH Ho Hl|L i H IH|L i r H IH];
    intros i' a' r' Hi.
  - destruct Hi.
  - destruct Hi as [Hi|[]]. injection Hi as <- <- <-. auto.
  - destruct Hi as [Hi|[]]. discriminate.
  - apply in_app_or in Hi as [Hi|[Hi|[]]]; [|discriminate].
    destruct (IH _ _ _ Hi) as (A & B & C). destruct L; [discriminate|auto].
  - apply in_app_or in Hi as [Hi|[Hi|[]]]; [|discriminate].
    destruct (IH _ _ _ Hi) as (A & B & C). destruct L; [discriminate|auto].
  - apply in_app_or in Hi as [Hi|[Hi|[]]]; [|discriminate].
    destruct (IH _ _ _ Hi) as (A & B & C). destruct L; [discriminate|auto].
  - apply in_app_or in Hi as [Hi|[Hi|[]]]; [|discriminate].
    destruct (IH _ _ _ Hi) as (A & B & C). destruct L; [discriminate|auto].
  - apply in_app_or in Hi as [Hi|[Hi|[]]]; [|discriminate].
    destruct (IH _ _ _ Hi) as (A & B & C). destruct L; [discriminate|auto].
Qed.

Lemma shape_in_setup : forall (c : tconf V S) L, life_shape c L -> forall i a r, In (ESetup i a r) L ->
  ~ In PNone a /\ length a = length (klist (c_req c)) /\ hd_error L = Some (ESetup i a r).
Proof.
  intros c L [[s H]|[(L' & e & -> & He & H)|(L' & i & -> & H)]] i' a' r' Hi.
  - eapply life_in_setup; eauto.
  - apply in_app_or in Hi as [Hi|[->|[]]]; [|contradiction].
    destruct (life_in_setup _ _ _ H _ _ _ Hi) as (A & B & C). destruct L'; [discriminate|auto].
  - apply in_app_or in Hi as [Hi|[Hi|[]]]; [|discriminate].
    destruct (life_in_setup _ _ _ H _ _ _ Hi) as (A & B & C). destruct L'; [discriminate|auto].
Qed.

(** ** Limits *)
Lemma life_limits : forall (c : tconf V S) L s k, life c L s -> c_limit c = Some k ->
  (Z.of_nat (outs L) <= Z.max 1 k)%Z /\ (s = SNext -> outs L = 0 \/ (Z.of_nat (outs L) < k)%Z).
Proof.
  intros c L s k H Hk.
  induction H as [|i a r Hn Hl|i|L i a r H IH Hr|L i a H IH|L i a o H IH Ho Hl|L i H IH|L i r H IH].
  - cbn. split; [lia|discriminate].
  - cbn. split; [lia|auto].
  - cbn. split; [lia|auto].
  - destruct (IH) as [A B]. specialize (B eq_refl). rewrite outs_app.
    destruct Hr as [->|(o & -> & Ho & Hl)].
    + change (outs [ENext i a (Ret (@PNone V))]) with 0. rewrite Nat.add_0_r. auto.
    + replace (outs [ENext i a (Ret o)]) with 1 by (destruct o; try reflexivity; congruence).
      unfold limit_reached in Hl. rewrite Hk in Hl. apply Z.leb_gt in Hl. split; [lia|auto].
  - destruct (IH) as [A B]. rewrite outs_app. cbn. split; [lia|discriminate].
  - destruct (IH) as [A B]. specialize (B eq_refl). rewrite outs_app.
    replace (outs [ENext i a (Ret o)]) with 1 by (destruct o; try reflexivity; congruence).
    split; [lia|discriminate].
  - destruct (IH) as [A B]. rewrite outs_app. cbn. split; [lia|discriminate].
  - destruct (IH) as [A B]. rewrite outs_app. cbn. split; [lia|discriminate].
Qed.

Lemma life_no_remove : forall (c : tconf V S) L s, life c L s -> forall i, ~ In (ERemove i) L.
Proof.
  induction 1 as [|i a r Hn Hl|i|L i a r H IH Hr|L i a H IH|L i a o H IH Ho Hl|L i H IH|L i r H IH];
    intros i' Hi; try (destruct Hi as [Hi|[]]; discriminate);
    try (apply in_app_or in Hi as [Hi|[Hi|[]]]; [now apply (IH i')|discriminate]).
  destruct Hi.
Qed.

(** ** One turn, in cases *)
Lemma step_cases : forall (m m' : mst V S) ev, head_ok (shape (tasks m)) (head m) ->
  step km m = (ev, Go m') ->
  exists i t, task_at (tasks m) i = Some t /\
    match pipeline_next i t with
    | (ev0, TMissing) => (ev = ev0 /\ tasks m' = tasks m /\ is_available t = true) \/
                         (ev = ev0 ++ [EStarve i] /\ tasks m' = lset (tasks m) i (Some (advance_state t)))
    | (ev0, TFinished) => ev = ev0 ++ [ERemove i] /\ tasks m' = lset (tasks m) i None
    | (ev0, TOut t' o) => ev = ev0 /\ exists kv, (forall k, In k (map fst kv) -> In k (out_keys t')) /\
                     queue_pairs km kv (lset (tasks m) i (Some t')) = Ok (tasks m')
    | (_, TErr _) => False
    end.
Proof.
  intros m m' ev HH H. unfold step in H.
  destruct (next_task m) as [i|] eqn:En; [|discriminate].
  destruct (next_task_some m i HH En) as (t & Ht & Hav). rewrite Ht in H.
  exists i, t; split; auto. destruct (pipeline_next i t) as [ev0 [t' o| | |x]].
  - destruct (check_output (c_out (t_conf t')) o) as [[l|]|x]; [| |discriminate].
    + destruct (queue_pairs km (combine (out_keys t') l) (lset (tasks m) i (Some t'))) as [ts'|x] eqn:Eq;
        [|discriminate].
      injection H as <- <-. split; auto. exists (combine (out_keys t') l). split; [|exact Eq].
      intros k Hk. apply in_map_iff in Hk as ([k' v] & <- & Hk). eapply in_combine_l; eauto.
    + injection H as <- <-. split; auto. exists []. split; [intros k []|reflexivity].
  - destruct (Nat.eqb_spec i (head m)) as [->|Hne].
    + injection H as <- <-. right; auto.
    + destruct Hav as [Hav|[_ ?]]; [|congruence]. injection H as <- <-. left; auto.
  - injection H as <- <-. auto.
  - discriminate.
Qed.

(** ** Nothing is lost *)
Lemma items_keys : forall k (o : pv) x v, In (x, v) (items k o) -> In x (klist k).
Proof.
  intros k o x v H. destruct o as [|u|l|l], k as [s|ks]; cbn in H |- *; try contradiction.
  - destruct H as [H|[]]. injection H as <- _. auto.
  - destruct l; [contradiction|]. destruct H as [H|[]]. injection H as <- _. auto.
  - eapply in_combine_l; eauto.
  - destruct H as [H|[]]. injection H as <- _. auto.
  - eapply in_combine_l; eauto.
Qed.

Lemma products_other : forall k tr e, ~ produces cfg (owner e) k ->
  products cfg km k (tr ++ [e]) = products cfg km k tr.
Proof.
  intros k tr e H. rewrite products_app.
  replace (products cfg km k [e]) with (@nil pv); [now rewrite app_nil_r|].
  unfold products. cbn [flat_map]. rewrite app_nil_r.
  destruct (filter (fun p => seqb (fst p) k && km (fst p)) (produced_by cfg e)) as [|[x v] l] eqn:E; auto.
  exfalso. apply H.
  assert (Hin : In (x, v) (filter (fun p => seqb (fst p) k && km (fst p)) (produced_by cfg e)))
    by (rewrite E; left; auto).
  apply filter_In in Hin as [Hin Hk]. cbn in Hk. apply andb_prop in Hk as [Hk _].
  apply seqb_eq in Hk. subst x. unfold produced_by in Hin.
  destruct (returned e) as [[i o]|] eqn:Er; [|contradiction].
  destruct (nth_error cfg i) as [[c s]|] eqn:Ei; [|contradiction].
  assert (owner e = i) as ->.
  { destruct e as [j a []|j a []|j []| |]; cbn in *; congruence. }
  exists c. split; [now exists s|]. eapply items_keys; eauto.
Qed.

Definition starved_empty (tr : list event) : Prop :=
  forall i c s a r, nth_error cfg i = Some (c, s) -> In (EStarve i) tr -> In (ESetup i a r) tr ->
    exists k, In k (klist (c_in c)) /\ length (P tr k) = length (next_args i tr).

Lemma next_args_app : forall i (a b : list event), next_args i (a ++ b) = next_args i a ++ next_args i b.
Proof. intros; apply flat_map_app. Qed.

Lemma starved_empty_step : forall tr m ev m', producers_first cfg ->
  Inv cfg km tr m -> starved_empty tr -> step km m = (ev, Go m') -> starved_empty (tr ++ ev).
Proof.
  intros tr m ev m' PF HI HE Hs.
  destruct (step_ok _ _ _ _ _ _ HI Hs) as (HI' & i0 & t0 & e & -> & Ho & Ht).
  intros i c s a r Hi Hst Hse.
  assert (TR : trace_ok cfg km (tr ++ [e])) by (eapply Inv_trace; eauto).
  destruct TR as [SL TR]. destruct (TR i c s Hi) as (HC & _ & HSH).
  apply in_app_or in Hst as [Hst|[->|[]]].
  - (* starved before *)
    assert (Hse' : In (ESetup i a r) tr).
    { apply in_app_or in Hse as [?|[->|[]]]; auto.
      assert (Hin : In (ESetup i a r) (own i (tr ++ [ESetup i a r]))).
      { apply own_in; split; auto. apply in_or_app; right; left; auto. }
      pose proof (proj2 (proj2 (shape_in_setup _ _ HSH _ _ _ Hin))) as Hhd.
      rewrite own_app in Hhd.
      assert (In (EStarve i) (own i tr)) as Hst' by (apply own_in; auto).
      destruct (own i tr) as [|y L] eqn:El; [destruct Hst'|]. cbn in Hhd. injection Hhd as ->.
      apply (proj1 (own_in i (ESetup i a r) tr)). rewrite El; left; auto. }
    destruct (HE i c s a r Hi Hst Hse') as (k & Hk & Hlen). exists k; split; auto.
    assert (NP : ~ produces cfg (owner e) k).
    { intros Hp. assert (i0 < i).
      { rewrite <- Ho. apply (PF _ _ k Hp). exists c. split; [now exists s|auto]. }
      destruct (Inv_trace _ _ _ _ HI) as [SL' _].
      apply in_split in Hst as (x & y & ->).
      specialize (SL' x i y eq_refl i0 H).
      destruct (slot_of _ _ _ _ _ _ HI Ht) as (c0 & s0 & _ & _ & HT0).
      destruct HT0 as (_ & Hl0 & _).
      apply (life_no_remove _ _ _ Hl0 i0). apply own_in. split; auto.
      apply in_or_app; auto. }
    unfold PipeProofs3.P in *. rewrite products_other by auto.
    destruct HC as [_ HC]. apply In_nth_error in Hk as [j Hj]. destruct (HC j k Hj) as [rest Hrest].
    apply (f_equal (@length pv)) in Hrest. rewrite app_length, map_length, nx_own in Hrest.
    unfold PipeProofs3.P in Hrest. rewrite products_other in Hrest by auto.
    rewrite next_args_app, app_length in *. lia.
  - (* starved now *)
    cbn in Ho. subst i0. apply step_cases in Hs as (i1 & t1 & Ht1 & Hc1); [|apply HI].
    destruct (slot_of _ _ _ _ _ _ HI Ht1) as (c1 & s1 & Hi1 & _ & HT1).
    destruct (pipeline_next i1 t1) as [ev0 r0] eqn:Ep.
    pose proof (pipeline_next_ok _ _ _ _ _ _ _ HT1 Ep) as HR.
    destruct r0 as [t' o| | |x]; cbn [result_ok] in HR.
    + destruct Hc1 as [<- _]. destruct HR as (e & E & _ & _ & _ & Hns & _). injection E as <-.
      now destruct Hns.
    + destruct HR as (-> & _ & _ & Hwhy). destruct Hc1 as [(E & _)|(E & _)]; [discriminate|].
      injection E as <-. rewrite Hi1 in Hi. injection Hi as -> ->.
      destruct Hwhy as [Hset|(_ & j & k & Hj & Hlen)].
      * destruct HT1 as (_ & Hl1 & _). rewrite Hset in Hl1. apply life_own_setup in Hl1.
        exfalso. apply in_app_or in Hse as [Hse|[Hse|[]]]; [|discriminate].
        assert (Hin : In (ESetup i a r) (own i tr)) by (apply own_in; auto).
        rewrite Hl1 in Hin. destruct Hin.
      * exists k. split; [eapply nth_error_In; eauto|].
        unfold PipeProofs3.P in *. rewrite products_quiet by reflexivity.
        rewrite next_args_app, app_length, Hlen, nx_own. cbn. lia.
    + destruct HR as (-> & _). destruct Hc1 as [E _]. discriminate.
    + contradiction.
Qed.

Lemma starved_empty_run : forall n tr r, producers_first cfg -> run km n (start cfg) = (tr, r) ->
  (forall x, r <> Fail x) -> starved_empty tr.
Proof.
  induction n as [|n IH]; intros tr r PF H Hr.
  - cbn in H. injection H as <- <-. intros i c s a r0 _ [].
  - rewrite run_snoc in H. destruct (run km n (start cfg)) as [ev r0] eqn:E.
    destruct r0 as [m| |x].
    + destruct (step km m) as [ev' r'] eqn:Es. injection H as <- <-.
      assert (HI : Inv cfg km ev m) by (apply (run_ok _ _ _ _ _ E)).
      specialize (IH _ _ PF eq_refl ltac:(discriminate)).
      pose proof (step_ok _ _ _ _ _ _ HI Es) as HS. destruct r' as [m'| |x].
      * eapply starved_empty_step; eauto.
      * destruct HS as [-> _]. now rewrite app_nil_r.
      * exfalso; now apply (Hr x).
    + injection H as <- <-. eapply IH; eauto.
    + injection H as <- <-. exfalso; now apply (Hr x).
Qed.

(** ** The end of a run *)
Lemma done_gone : forall n tr i c s, run km n (start cfg) = (tr, Done) ->
  nth_error cfg i = Some (c, s) -> gone_ok c (own i tr) (P tr).
Proof.
  intros n tr i c s H Hi. apply run_ok in H as (m & (_ & _ & HA & _) & HN).
  destruct (HA i c s Hi) as ([t|] & Hn & Hs); [|exact Hs].
  specialize (HN i). unfold task_at in HN. rewrite Hn in HN. discriminate.
Qed.

Lemma no_loss : forall n tr i c s a r, producers_first cfg -> run km n (start cfg) = (tr, Done) ->
  nth_error cfg i = Some (c, s) -> In (ESetup i a r) tr ->
  (forall args, ~ In (ENext i args Stop) tr) -> c_limit c = None ->
  exists k, In k (klist (c_in c)) /\ length (P tr k) = length (next_args i tr).
Proof.
  intros n tr i c s a r PF H Hi Hse Hstop Hlim.
  assert (HE : starved_empty tr) by (eapply starved_empty_run; eauto; discriminate).
  destruct (done_gone _ _ _ _ _ H Hi) as (L & i' & EL & Hl & _).
  destruct (life_closed _ _ _ Hl (or_intror eq_refl)) as [(j & b & Hj)|[(k & Hk & _)|(j & Hj)]].
  - exfalso. assert (Hin : In (ENext j b Stop) (own i tr)) by (rewrite EL; apply in_or_app; auto).
    apply own_in in Hin as [Hin E]. cbn in E. subst j. eapply Hstop; eauto.
  - congruence.
  - assert (Hin : In (EStarve j) (own i tr)) by (rewrite EL; apply in_or_app; auto).
    apply own_in in Hin as [Hin E]. cbn in E. subst j. eapply HE; eauto.
Qed.

(** ** Failures *)
Lemma fail_causes : forall n tr x, producers_first cfg -> run km n (start cfg) = (tr, Fail x) ->
  exists tr' e, tr = tr' ++ [e] /\
    (bad_call cfg x e \/
     exists k j c, x = PipelineRuntimeError /\ produces cfg (owner e) k /\ conf_at cfg j c /\
       ((In k (klist (c_req c)) /\ 2 <= length (P tr k)) \/
        (In k (klist (c_in c)) /\ stopped_itself cfg j tr))).
Proof.
  intros n tr x PF H. apply run_ok in H as (_ & tr' & e & m & -> & HI & HF & (t & Ht)).
  exists tr', e; split; auto.
  destruct HF as [HF|(-> & k & j & c & Hp & Hc & _ & HF)]; [left; auto|right].
  exists k, j, c. split; auto. split; auto. split; auto.
  destruct HF as [HF|[HF|[Hk Hst]]]; auto. exfalso.
  assert (Hlt : owner e < j) by (apply (PF _ _ k Hp); exists c; tauto).
  destruct (Inv_trace _ _ _ _ HI) as [SL _].
  apply in_app_or in Hst as [Hst|[->|[]]]; [|cbn in Hlt; lia].
  apply in_split in Hst as (y & z & ->). specialize (SL y j z eq_refl _ Hlt).
  destruct (slot_of _ _ _ _ _ _ HI Ht) as (c0 & s0 & _ & _ & (_ & Hl0 & _)).
  apply (life_no_remove _ _ _ Hl0 (owner e)). apply own_in. split; auto. apply in_or_app; auto.
Qed.
End P.
