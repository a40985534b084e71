(** Every turn keeps the invariant; how a run can fail. *)
From Coq Require Import List Bool Arith ZArith Lia.
From Verif Require Import PyBase PyStr PipeModel PipeSpec PipeProofs PipeProofs2 PipeProofs3.
Import ListNotations.
Open Scope list_scope.
Open Scope nat_scope.

Section P.
Context {V S : Type}.
Notation task := (task V S).
Notation pv := (pv V).
Notation event := (event V).
Variable cfg : list (tconf V S * S).
Variable km : str -> bool.
Notation P := (P cfg km).
Notation AllInv := (AllInv cfg).

Definition starved_last (tr : list event) : Prop :=
  forall a j b, tr = a ++ EStarve j :: b -> forall i, i < j -> In (ERemove i) a.

Definition Inv (tr : list event) (m : mst V S) : Prop :=
  length (tasks m) = length cfg /\
  head_ok (shape (tasks m)) (head m) /\
  AllInv (fun i => own i tr) (P tr) (tasks m) /\
  starved_last tr.

Lemma Inv_start : Inv [] (start cfg).
Proof.
  split; [|split; [|split]].
  - cbn. apply map_length.
  - split; [intros j Hj; cbn in Hj; lia|]. intros [j Hj]. cbn in *. unfold shape in *.
    destruct cfg; [now destruct j|reflexivity].
  - intros i c s H. exists (Some (init_task (c, s))). split.
    + cbn. rewrite nth_error_map', H. reflexivity.
    + cbn. apply (init_ok (c, s)). reflexivity.
  - intros a j b H. now destruct a.
Qed.

Lemma AllInv_lset : forall tr (Q : str -> list pv) (ts : list (option task)) i e ot,
  AllInv (fun i => own i tr) Q ts -> i < length ts -> owner e = i ->
  (forall c s, nth_error cfg i = Some (c, s) -> slot_inv c (own i tr ++ [e]) Q ot) ->
  AllInv (fun i => own i (tr ++ [e])) Q (lset ts i ot).
Proof.
  intros tr Q ts i e ot H Hlt Ho HS j c s Hj.
  destruct (H j c s Hj) as (o & Hn & Hs).
  rewrite own_app, own_one, Ho. destruct (Nat.eq_dec i j) as [<-|Hne].
  - rewrite Nat.eqb_refl, lset_same by auto. exists ot; split; auto. eapply HS; eauto.
  - rewrite (proj2 (Nat.eqb_neq _ _) Hne), app_nil_r, lset_other by auto. eauto.
Qed.

Lemma AllInv_ext : forall f (Q Q' : str -> list pv) (ts : list (option task)), (forall k, Q' k = Q k) ->
  AllInv f Q ts -> AllInv f Q' ts.
Proof.
  intros f Q Q' ts E H i c s Hi. destruct (H i c s Hi) as (ot & A & B).
  exists ot; split; auto. eapply slot_inv_ext; eauto.
Qed.

Lemma removed_in : forall tr (ts : list (option task)) i, AllInv (fun i => own i tr) (P tr) ts ->
  length ts = length cfg -> i < length cfg -> task_at ts i = None -> In (ERemove i) tr.
Proof.
  intros tr ts i H HL Hi Ht.
  destruct (nth_error cfg i) as [[c s]|] eqn:E; [|apply nth_error_None in E; lia].
  destruct (H i c s E) as (ot & Hn & Hs). unfold task_at in Ht. rewrite Hn in Ht.
  destruct ot; [discriminate|]. cbn in Hs. destruct Hs as (L & j & EL & _).
  assert (Hin : In (ERemove j) (own i tr)) by (rewrite EL; apply in_or_app; right; left; auto).
  apply own_in in Hin as [A B]. cbn in B. now subst.
Qed.

Lemma starved_snoc : forall tr e, starved_last tr ->
  (forall j, e = EStarve j -> forall i, i < j -> In (ERemove i) tr) -> starved_last (tr ++ [e]).
Proof.
  intros tr e H He a j b E i Hi.
  destruct (exists_last (l := EStarve j :: b)) as (l' & x & El); [discriminate|].
  rewrite El, app_assoc in E. apply app_inj_tail in E as [E1 E2]. subst x.
  destruct l' as [|y l'].
  - cbn in El. injection El as <- ->. rewrite app_nil_r in E1. subst a. eapply He; eauto.
  - cbn in El. injection El as <- ->. eapply H; eauto.
Qed.

(** ** Facts about the life of a task *)
Lemma life_closed : forall (c : tconf V S) (L : list event) s, life c L s -> s = SFinish \/ s = SRaise ->
  (exists i a, In (ENext i a Stop) L) \/
  (exists k, c_limit c = Some k /\ (k <= Z.of_nat (outs L))%Z /\ 0 < outs L) \/
  (exists i, In (EStarve i) L).
Proof.
  induction 1 as [|i a r|i|L i a r H IH Hr|L i a H IH|L i a o H IH Ho Hl|L i H IH|L i r H IH]; intros Hs.
  - destruct Hs; discriminate.
  - destruct Hs; discriminate.
  - right; right; exists i; left; auto.
  - destruct Hs; discriminate.
  - left; exists i, a. apply in_or_app; right; left; auto.
  - right; left. unfold limit_reached in Hl. destruct (c_limit c) as [k|]; [|discriminate].
    apply Z.leb_le in Hl. exists k.
    assert (outs (L ++ [ENext i a (Ret o)]) = outs L + 1).
    { rewrite outs_app. destruct o; try reflexivity. congruence. }
    rewrite H0. repeat split; auto; lia.
  - right; right; exists i. apply in_or_app; right; left; auto.
  - destruct IH as [(i' & a & A)|[(k & A & B & C)|(i' & A)]]; auto.
    + left; exists i', a. apply in_or_app; auto.
    + right; left; exists k. rewrite outs_app. repeat split; auto; lia.
    + right; right; exists i'. apply in_or_app; auto.
Qed.

Lemma life_past_setup : forall (c : tconf V S) (L : list event) s, life c L s -> s <> SSetup ->
  (exists i a r, In (ESetup i a r) L /\ ~ In PNone a /\ length a = length (klist (c_req c))) \/
  (exists i, In (EStarve i) L).
Proof.
  induction 1 as [|i a r Hn Hl|i|L i a r H IH Hr|L i a H IH|L i a o H IH Ho Hl|L i H IH|L i r H IH]; intros Hs.
  - congruence.
  - left; exists i, a, r. repeat split; auto. left; auto.
  - right; exists i; left; auto.
  - destruct IH as [(i' & a' & r' & A & B)|(i' & A)]; [congruence| |].
    + left; exists i', a', r'. split; auto. apply in_or_app; auto.
    + right; exists i'. apply in_or_app; auto.
  - destruct IH as [(i' & a' & r' & A & B)|(i' & A)]; [congruence| |].
    + left; exists i', a', r'. split; auto. apply in_or_app; auto.
    + right; exists i'. apply in_or_app; auto.
  - destruct IH as [(i' & a' & r' & A & B)|(i' & A)]; [congruence| |].
    + left; exists i', a', r'. split; auto. apply in_or_app; auto.
    + right; exists i'. apply in_or_app; auto.
  - destruct IH as [(i' & a' & r' & A & B)|(i' & A)]; [congruence| |].
    + left; exists i', a', r'. split; auto. apply in_or_app; auto.
    + right; exists i'. apply in_or_app; auto.
  - destruct IH as [(i' & a' & r' & A & B)|(i' & A)]; [congruence| |].
    + left; exists i', a', r'. split; auto. apply in_or_app; auto.
    + right; exists i'. apply in_or_app; auto.
Qed.

Definition life_shape (c : tconf V S) (L : list event) : Prop :=
  (exists s, life c L s) \/
  (exists L' e, L = L' ++ [e] /\ is_next e /\ life c L' SNext) \/
  (exists L' i, L = L' ++ [ERemove i] /\ life c L' SRaise).

Definition trace_ok (tr : list event) : Prop :=
  starved_last tr /\
  forall i c s, nth_error cfg i = Some (c, s) ->
    cols_ok c (own i tr) (P tr) /\ args_ok c (own i tr) (P tr) /\ life_shape c (own i tr).

Lemma Inv_trace : forall tr m, Inv tr m -> trace_ok tr.
Proof.
  intros tr m (_ & _ & H & HS). split; auto. intros i c s Hi.
  destruct (H i c s Hi) as ([t|] & _ & Hs); cbn in Hs.
  - destruct Hs as (_ & Hl & _ & _ & Hc & Ha & _). repeat split; auto; try apply Hc.
    left; eauto.
  - destruct Hs as (L & j & EL & Hl & Hc & Ha). repeat split; auto; try apply Hc.
    right; right; eauto.
Qed.

Lemma trace_snoc : forall tr m i e, Inv tr m -> owner e = i -> ~ is_starve e ->
  (forall c s, nth_error cfg i = Some (c, s) ->
     cols_ok c (own i tr ++ [e]) (P tr) /\ args_ok c (own i tr ++ [e]) (P tr) /\
     life_shape c (own i tr ++ [e])) ->
  trace_ok (tr ++ [e]).
Proof.
  intros tr m i e HI Ho Hn H. destruct (Inv_trace _ _ HI) as [HS HT]. split.
  - apply starved_snoc; auto. intros j ->. now destruct Hn.
  - intros j c s Hj. rewrite own_app, own_one, Ho.
    pose proof (P_grows cfg km tr [e]) as G.
    destruct (Nat.eqb_spec i j) as [<-|Hne].
    + destruct (H c s Hj) as (A & B & C).
      split; [eapply cols_grow; eauto|]. split; [eapply args_grow; eauto|auto].
    + rewrite app_nil_r. destruct (HT j c s Hj) as (A & B & C).
      split; [eapply cols_grow; eauto|]. split; [eapply args_grow; eauto|auto].
Qed.

(** Why delivery failed: a requirement was produced again, or a task had
    closed its inputs. *)
Definition refused (tr : list event) (e : event) : Prop :=
  exists k j c, produces cfg (owner e) k /\ conf_at cfg j c /\ km k = true /\
    ((In k (klist (c_req c)) /\ 2 <= length (P (tr ++ [e]) k)) \/
     (In k (klist (c_in c)) /\ stopped_itself cfg j (tr ++ [e])) \/
     ((In k (klist (c_in c)) \/ In k (klist (c_req c))) /\ In (EStarve j) (tr ++ [e]))).

Definition failed (tr : list event) (x : exn) (e : event) : Prop :=
  bad_call cfg x e \/ (x = PipelineRuntimeError /\ refused tr e).

Lemma in_combine_key : forall (ks : list str) (l : list pv) a k v b, combine ks l = a ++ (k, v) :: b -> In k ks.
Proof.
  intros ks l a k v b H. eapply (in_combine_l ks l k v). rewrite H. apply in_or_app; right; left; auto.
Qed.

Lemma outs_own : forall i (tr : list event), outs (own i tr) = outputs i tr.
Proof.
  intros i tr. unfold outs, outputs, own. induction tr as [|e tr IH]; cbn; auto.
  destruct e as [j a r|j a r|j r|j|j]; cbn; destruct (j =? i) eqn:E; cbn; auto;
    destruct r as [[]| |]; cbn; rewrite ?E; cbn; auto.
Qed.

Lemma nx_own : forall i (tr : list event), nx (own i tr) = next_args i tr.
Proof.
  intros i tr. unfold nx, next_args, own. induction tr as [|e tr IH]; cbn; auto.
  destruct e as [j a r|j a r|j r|j|j]; cbn; destruct (j =? i) eqn:E; cbn; auto. now f_equal.
Qed.

Lemma conf_at_eq : forall i c s, nth_error cfg i = Some (c, s) -> conf_at cfg i c.
Proof. intros. now exists s. Qed.

Lemma returned_bad : forall e i (o : pv) x c, returned e = Some (i, o) -> conf_at cfg i c ->
  ~ fits (c_out c) o -> bad_call cfg x e.
Proof.
  intros e i o x c H Hc Hf.
  destruct e as [j a [] |j a []|j []| |]; cbn in *; try discriminate; injection H as -> ->; eauto.
Qed.

Lemma task_slot : forall f Q (ts : list (option task)) i t c s, AllInv f Q ts -> task_at ts i = Some t ->
  nth_error cfg i = Some (c, s) -> task_ok c (f i) Q t.
Proof.
  intros f Q ts i t c s H Ht Hi. apply task_at_some in Ht. destruct (H i c s Hi) as (ot & Hn & Hs).
  rewrite Ht in Hn. injection Hn as <-. exact Hs.
Qed.

Lemma slot_of : forall (tr : list event) m i t, Inv tr m -> task_at (tasks m) i = Some t ->
  exists c s, nth_error cfg i = Some (c, s) /\ t_conf t = c /\ task_ok c (own i tr) (P tr) t.
Proof.
  intros tr m i t (HL & _ & HA & _) Ht. pose proof (task_at_lt _ _ _ Ht) as Hlt. rewrite HL in Hlt.
  destruct (nth_error cfg i) as [[c s]|] eqn:E; [|apply nth_error_None in E; lia].
  exists c, s. split; auto. pose proof (task_slot _ _ _ _ _ _ _ HA Ht E) as HT.
  split; auto. apply HT.
Qed.

Lemma step_ok : forall tr m ev r, Inv tr m -> step km m = (ev, r) ->
  match r with
  | Go m' => Inv (tr ++ ev) m' /\ exists i t e, ev = [e] /\ owner e = i /\ task_at (tasks m) i = Some t
  | Done => ev = [] /\ forall i, task_at (tasks m) i = None
  | Fail x => trace_ok (tr ++ ev) /\ exists e, ev = [e] /\ failed tr x e /\
                exists t, task_at (tasks m) (owner e) = Some t
  end.
Proof.
  intros tr m ev r HI H. unfold step in H.
  destruct (next_task m) as [i|] eqn:En.
  2: { injection H as <- <-. split; auto. now apply next_task_none. }
  pose proof HI as (HL & HH & HA & HS).
  destruct (next_task_some m i HH En) as (t & Ht & Hav). rewrite Ht in H.
  destruct (slot_of _ _ _ _ HI Ht) as (c & s & Hcfg & Htc & HT).
  pose proof (task_at_lt _ _ _ Ht) as Hlt.
  assert (Huniq : forall c' s', nth_error cfg i = Some (c', s') -> c' = c /\ s' = s).
  { intros c' s' E'. rewrite Hcfg in E'. now injection E' as <- <-. }
  destruct (pipeline_next i t) as [ev0 tr0] eqn:Ep.
  pose proof (pipeline_next_ok _ _ _ _ _ _ _ HT Ep) as HR.
  destruct tr0 as [t' o| | |x]; cbn [result_ok] in HR.
  - (* output *)
    destruct HR as (e & -> & Ho & HT' & Hret & Hns & Hnr).
    assert (HA1 : AllInv (fun i => own i (tr ++ [e])) (P tr) (lset (tasks m) i (Some t'))).
    { apply AllInv_lset; auto. intros c' s' E'. destruct (Huniq _ _ E') as [-> ->]. exact HT'. }
    assert (Hshape : shape (lset (tasks m) i (Some t')) = shape (tasks m))
      by (eapply shape_lset_some; eauto).
    assert (Htr : trace_ok (tr ++ [e])).
    { eapply trace_snoc; eauto. intros c' s' E'. destruct (Huniq _ _ E') as [-> ->].
      destruct HT' as (_ & Hl & _ & _ & Hc & Ha & _). split; auto. split; auto. left; eauto. }
    assert (Hsn : starved_last (tr ++ [e])) by apply Htr.
    assert (Hconf' : t_conf t' = c) by apply HT'.
    unfold out_keys in H. rewrite Hconf' in H.
    assert (HPq : forall k, P (tr ++ [e]) k = addall km (P tr) (items (c_out c) o) k).
    { intros k. rewrite addall_spec. unfold PipeProofs3.P. rewrite products_app. f_equal.
      unfold products. cbn [flat_map]. rewrite app_nil_r. do 2 f_equal.
      unfold produced_by. destruct Hret as [-> | [-> ->]]; [now rewrite Hcfg|reflexivity]. }
    pose proof (items_check (c_out c) o) as HC.
    destruct (check_output (c_out c) o) as [[l|]|x] eqn:Ec.
    + destruct (queue_pairs km (combine (klist (c_out c)) l) (lset (tasks m) i (Some t'))) as [ts'|x] eqn:Eq.
      * injection H as <- <-. split; [|exists i, t, e; auto].
        destruct (queue_pairs_ok cfg km _ _ _ _ _ HA1 Eq) as [HA2 Hsh].
        split; [|split; [|split; [|exact Hsn]]]; cbn [tasks head].
        -- rewrite <- (map_length live ts'). fold (shape ts'). rewrite Hsh, Hshape.
           unfold shape. rewrite map_length. exact HL.
        -- now rewrite Hsh, Hshape.
        -- rewrite HC in HA2. eapply AllInv_ext; [exact HPq|exact HA2].
      * injection H as <- <-. split; auto. exists e. split; auto. split; [|exists t; now rewrite Ho].
        right. destruct (queue_pairs_err cfg km _ _ _ _ _ HA1 Eq)
          as (a & k & v & b & ts1 & j & tj & Hkv & Hm & HA2 & Hsh & Hj & Hq).
        assert (Hjl : j < length cfg).
        { rewrite <- HL. rewrite <- (map_length live (tasks m)). fold (shape (tasks m)).
          rewrite <- Hshape, <- Hsh. unfold shape. rewrite map_length.
          apply nth_error_Some. congruence. }
        destruct (nth_error cfg j) as [[cj sj]|] eqn:Ej; [|apply nth_error_None in Ej; lia].
        pose proof (task_slot _ _ _ _ _ _ _ HA2 (proj2 (task_at_some _ _ _) Hj) Ej) as HTj.
        destruct (queue_product_err _ _ _ _ _ _ _ HTj Hq) as [-> Hwhy]. split; auto.
        exists k, j, cj. split.
        { exists c. split; [rewrite Ho; eapply conf_at_eq; eauto|]. eapply in_combine_key; eauto. }
        split; [eapply conf_at_eq; eauto|]. split; auto.
        assert (HP2 : P (tr ++ [e]) k = addall km (P tr) a k ++ v ::
                   map snd (filter (fun p => seqb (fst p) k && km (fst p)) b)).
        { rewrite HPq, <- HC, Hkv, !addall_spec, filter_app, map_app, <- app_assoc. cbn [filter fst].
          now rewrite seqb_refl, Hm. }
        destruct HTj as (Hcj & Hlj & _ & _ & _ & Haj & Hinj & Hreqj).
        destruct Hwhy as [[Hk Hreq]|[Hk Hin]].
        -- assert (D : (exists x, In x (addall km (P tr) a k)) ->
                      2 <= length (P (tr ++ [e]) k)).
           { intros [x Hx]. rewrite HP2, app_length. cbn [length].
             destruct (addall km (P tr) a k); [destruct Hx|cbn [length]; lia]. }
           destruct Hreq as [Hreq|Hreq]; [|left; auto].
           rewrite Hreq in Hreqj.
           destruct (life_past_setup _ _ _ Hlj Hreqj) as [(i' & a' & r' & Hi' & Hn' & Hl')|(i' & Hi')].
           ++ left; split; auto. apply D. apply In_nth_error in Hk as [n Hn].
              eexists. eapply Haj; eauto.
           ++ right; right; split; auto. apply own_in in Hi' as [Hi' E']. cbn in E'. now subst.
        -- rewrite Hin in Hinj.
           destruct (life_closed _ _ _ Hlj Hinj) as [(i' & a' & Hi')|[(lim & Hlim & Hle & Hpos)|(i' & Hi')]].
           ++ right; left; split; auto. left. apply own_in in Hi' as [Hi' E']. cbn in E'. subst. eauto.
           ++ right; left; split; auto. right. exists cj, lim. rewrite <- outs_own.
              repeat split; auto. eapply conf_at_eq; eauto.
           ++ right; right; split; auto. apply own_in in Hi' as [Hi' E']. cbn in E'. now subst.
    + injection H as <- <-. split; [|exists i, t, e; auto].
      split; [|split; [|split; [|exact Hsn]]]; cbn [tasks head].
      * now rewrite lset_length.
      * now rewrite Hshape.
      * rewrite HC in HPq. cbn [addall] in HPq. eapply AllInv_ext; [exact HPq|exact HA1].
    + injection H as <- <-. split; auto. exists e; split; auto. split; [|exists t; now rewrite Ho].
      left. destruct Hret as [Hret|[_ ->]]; [|discriminate].
      eapply returned_bad; eauto. eapply conf_at_eq; eauto.
  - (* missing data *)
    destruct HR as (-> & HT' & Hna & _).
    destruct Hav as [Hav|[_ ->]]; [congruence|]. rewrite Nat.eqb_refl in H.
    injection H as <- <-. cbn [app].
    split; [|exists (head m), t, (EStarve (head m)); auto].
    split; [|split; [|split]]; cbn [tasks head].
    + now rewrite lset_length.
    + erewrite shape_lset_some by eauto. exact HH.
    + apply (AllInv_ext _ (P tr)); [intros k; now apply products_quiet|].
      apply AllInv_lset; auto. intros c' s' E'. destruct (Huniq _ _ E') as [-> ->]. exact HT'.
    + apply starved_snoc; auto. intros j Ej i Hi. injection Ej as <-.
      destruct HH as [HH1 _]. eapply removed_in; eauto; [lia|].
      destruct (task_at (tasks m) i) as [u|] eqn:Eu; auto. exfalso. apply (HH1 i Hi).
      apply shape_task_at; eauto.
  - (* finished *)
    destruct HR as (-> & HT'). injection H as <- <-. cbn [app].
    split; [|exists i, t, (ERemove i); auto].
    split; [|split; [|split]]; cbn [tasks head].
    + now rewrite lset_length.
    + apply new_head_ok; auto. apply shape_task_at; eauto.
    + apply (AllInv_ext _ (P tr)); [intros k; now apply products_quiet|].
      apply AllInv_lset; auto. intros c' s' E'. destruct (Huniq _ _ E') as [-> ->]. exact HT'.
    + apply starved_snoc; auto. discriminate.
  - (* error *)
    destruct HR as (e & -> & Ho & Hc & Ha & Hb & Hns & Hnr & Hret & Hlf).
    injection H as <- <-. split.
    + eapply trace_snoc; eauto. intros c' s' E'. destruct (Huniq _ _ E') as [-> ->].
      split; auto. split; auto. destruct Hlf as [Hlf|[Hn Hlf]]; [left; auto|right; left; eauto].
    + exists e. split; auto. split; [left; apply Hb|exists t; now rewrite Ho].
Qed.

(** ** Runs *)
Lemma run_S : forall n (m : mst V S), run km (Datatypes.S n) m =
  let '(ev, r) := step km m in
  match r with
  | Go m' => let '(ev', r') := run km n m' in (ev ++ ev', r')
  | _ => (ev, r)
  end.
Proof. reflexivity. Qed.

Lemma run_snoc : forall n (m : mst V S), run km (Datatypes.S n) m =
  match run km n m with
  | (ev, Go m') => let '(ev', r) := step km m' in (ev ++ ev', r)
  | x => x
  end.
Proof.
  induction n as [|n IH]; intros m.
  - cbn. destruct (step km m) as [ev [m'| |x]]; auto. now rewrite app_nil_r.
  - rewrite (run_S (Datatypes.S n) m), (run_S n m).
    destruct (step km m) as [ev [m'| |x]]; auto.
    rewrite IH. destruct (run km n m') as [ev1 [m1| |x]]; auto.
    destruct (step km m1) as [ev2 r2]. now rewrite app_assoc.
Qed.

Lemma run_ok : forall n tr r, run km n (start cfg) = (tr, r) ->
  match r with
  | Go m => Inv tr m
  | Done => exists m, Inv tr m /\ forall i, task_at (tasks m) i = None
  | Fail x => trace_ok tr /\ exists tr' e m, tr = tr' ++ [e] /\ Inv tr' m /\ failed tr' x e /\
                exists t, task_at (tasks m) (owner e) = Some t
  end.
Proof.
  induction n as [|n IH]; intros tr r H.
  - cbn in H. injection H as <- <-. apply Inv_start.
  - rewrite run_snoc in H. destruct (run km n (start cfg)) as [ev r0] eqn:E.
    specialize (IH _ _ eq_refl). destruct r0 as [m| |x].
    + destruct (step km m) as [ev' r'] eqn:Es. injection H as <- <-.
      pose proof (step_ok _ _ _ _ IH Es) as HS. destruct r' as [m'| |x].
      * apply HS.
      * destruct HS as [-> HS]. rewrite app_nil_r. eauto.
      * destruct HS as (A & e & -> & B & C). split; auto. exists ev, e, m. auto.
    + injection H as <- <-. exact IH.
    + injection H as <- <-. exact IH.
Qed.

Lemma run_trace : forall n tr r, run km n (start cfg) = (tr, r) -> trace_ok tr.
Proof.
  intros n tr r H. apply run_ok in H. destruct r as [m| |x].
  - eapply Inv_trace; eauto.
  - destruct H as (m & H & _). eapply Inv_trace; eauto.
  - apply H.
Qed.
End P.
