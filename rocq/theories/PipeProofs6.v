(** Termination, the choice of the next task, validation. *)
From Coq Require Import List Bool Arith ZArith Lia Permutation Sorted.
From Verif Require Import PyBase PyStr PipeModel PipeSpec PipeProofs PipeProofs2 PipeProofs3 PipeProofs4 PipeProofs5.
Import ListNotations.
Open Scope list_scope.
Open Scope nat_scope.

(** ** A well-founded order on lists of pairs *)
Definition pair_lt (x y : nat * nat) : Prop := fst x < fst y \/ (fst x = fst y /\ snd x < snd y).
Lemma pair_lt_wf : well_founded pair_lt.
Proof.
  intros [a b]. revert b. induction a as [a IHa] using lt_wf_ind. intros b.
  induction b as [b IHb] using lt_wf_ind. constructor. intros [a' b'] [H|[H1 H2]]; cbn in *.
  - now apply IHa.
  - subst a'. now apply IHb.
Qed.

Definition lex_lt (l l' : list (nat * nat)) : Prop :=
  exists p x y q q', l = p ++ x :: q /\ l' = p ++ y :: q' /\ pair_lt x y /\ length q = length q'.
Lemma lex_lt_acc : forall n l, length l = n -> Acc lex_lt l.
Proof.
  induction n as [|n IH]; intros l Hl.
  - destruct l; [|discriminate]. constructor. intros l (p & x & y & q & q' & _ & E & _).
    now destruct p.
  - destruct l as [|z l]; [discriminate|]. cbn in Hl. injection Hl as Hl.
    revert l Hl. induction (pair_lt_wf z) as [z _ IHz]. intros l Hl.
    induction (IH l Hl) as [l _ IHl]. constructor.
    intros l1 (p & x & y & q & q' & E1 & E2 & Hlt & Hq).
    destruct p as [|z' p]; cbn in E1, E2; injection E2 as -> ->; subst l1.
    + apply IHz; auto. lia.
    + apply IHl.
      * exists p, x, y, q, q'. auto.
      * rewrite app_length in *. cbn in *. lia.
Qed.

Section P.
Context {V S : Type}.
Notation task := (task V S).
Notation pv := (pv V).
Notation event := (event V).
Variable cfg : list (tconf V S * S).
Variable km : str -> bool.

Definition stage (s : pstate) : nat :=
  match s with SSetup => 4 | SNext => 3 | SFinish => 2 | SRaise => 1 end.
Definition qtotal (qs : list (list pv)) : nat := list_sum (map (@length pv) qs).

Definition measured (ot : option task) (x : nat * nat) : Prop :=
  match ot with
  | None => x = (0, 0)
  | Some t => fst x = stage (t_state t) /\
      match t_state t with
      | SNext => match in_keys t with
                 | [] => stops_within (snd x) (c_beh (t_conf t)) (t_user t)
                 | _ => snd x = match t_in t with Some qs => qtotal qs | None => 0 end
                 end
      | _ => True
      end
  end.

Lemma measured_ex : sources_stop cfg -> forall i c s ot, nth_error cfg i = Some (c, s) ->
  (forall t, ot = Some t -> t_conf t = c) -> exists x, measured ot x.
Proof.
  intros HS i c s [t|] Hi Hc; [|now exists (0, 0)].
  specialize (Hc t eq_refl). cbn. destruct (t_state t).
  - exists (4, 0); cbn; auto.
  - unfold in_keys. rewrite Hc. destruct (klist (c_in c)) as [|k ks] eqn:Ek.
    + destruct (HS i c (t_user t)) as [n Hn]; [now exists s|auto|]. exists (3, n); cbn; auto.
    + exists (3, match t_in t with Some qs => qtotal qs | None => 0 end); cbn; auto.
  - exists (2, 0); cbn; auto.
  - exists (1, 0); cbn; auto.
Qed.

Lemma qtotal_tails : forall qs : list (list pv), existsb is_nil qs = false ->
  qtotal (q_tails qs) + length qs = qtotal qs.
Proof.
  unfold qtotal, q_tails. induction qs as [|[|x q] qs IH]; intros H; cbn [existsb is_nil orb] in H;
    [reflexivity|discriminate|].
  cbn [map tl length]. rewrite !list_sum_cons, <- (IH H). cbn. lia.
Qed.

Lemma advance_conf : forall t : task, t_conf (advance_state t) = t_conf t.
Proof. intros t. unfold advance_state. now destruct (t_state t). Qed.

Lemma stage_lt : forall (t : task) x a, measured (Some t) x -> a < stage (t_state t) ->
  pair_lt (a, 0) x.
Proof. intros t x a [H _] Ha. left; cbn; lia. Qed.

(** A turn of a task makes its own component smaller. *)
Lemma own_decreases : forall c L P i (t t' : task) ev o x, task_ok c L P t -> measured (Some t) x ->
  (exists s, nth_error cfg i = Some (c, s)) -> sources_stop cfg ->
  pipeline_next i t = (ev, TOut t' o) -> exists y, measured (Some t') y /\ pair_lt y x.
Proof.
  intros c L P i t t' ev o x HT HM [s Hs] HS Hp.
  pose proof HT as (Hc & Hl & Hn & Hf & Hcol & Ha & Hi & Hr).
  assert (Hex : t_conf t' = c -> stage (t_state t') < stage (t_state t) ->
          exists y, measured (Some t') y /\ pair_lt y x).
  { intros Hc' Hst. destruct (measured_ex HS i c s (Some t') Hs) as [y Hy].
    - intros u Hu. now injection Hu as <-.
    - exists y. split; auto. destruct HM as [HM _], Hy as [Hy _]. left; lia. }
  unfold pipeline_next in Hp. destruct (t_state t) eqn:Es.
  - destruct (t_requires t) as [rs|] eqn:Er; [|congruence].
    destruct (existsb is_none rs); [discriminate|].
    destruct (b_setup (c_beh (t_conf t)) (t_user t) rs) as [s' [o'| |e]]; try discriminate.
    injection Hp as <- <- <-. apply Hex.
    + rewrite advance_conf. exact Hc.
    + unfold advance_state, with_user. cbn [t_state t_requires]. rewrite Es. cbn [t_state].
      destruct (match _ with Some rs => _ | None => _ end); cbn; lia.
  - destruct (t_in t) as [qs|] eqn:Ei; [|destruct Hi; discriminate].
    destruct (existsb is_nil qs) eqn:En; [discriminate|].
    destruct (b_next (c_beh (t_conf t)) (t_user t) (q_heads qs)) as [s' r] eqn:Eb.
    assert (KEEP : forall n, (exists o', r = Ret o') -> exists y, measured (Some (mktask (t_conf t) s' SNext (t_requires t) (Some (q_tails qs)) n)) y /\ pair_lt y x).
    { intros n [o' ->]. destruct HM as [HM1 HM2]. rewrite Es in HM1, HM2. cbn in HM1.
      unfold in_keys in HM2. rewrite Hc in HM2.
      destruct Hi as [Hql _].
      destruct (klist (c_in c)) as [|k ks] eqn:Ek.
      - destruct qs; [|discriminate]. cbn in Eb. destruct x as [x1 [|x2]]; cbn in *; [contradiction|].
        rewrite Hc in Eb. rewrite Eb in HM2. exists (3, x2). unfold in_keys. cbn. rewrite Hc, Ek.
        repeat split; auto. right; cbn; lia.
      - rewrite Ei in HM2. exists (3, qtotal (q_tails qs)). unfold measured, in_keys. cbn. rewrite Hc, Ek.
        repeat split; auto. right; cbn. rewrite HM1, HM2. split; auto.
        rewrite <- (qtotal_tails qs En), Hql. cbn. lia. }
    destruct r as [o'| |e]; try discriminate.
    + destruct (is_none o') eqn:Eo.
      * destruct o'; try discriminate. injection Hp as <- <- <-.
        unfold with_user, with_in. cbn [t_conf t_user t_state t_requires t_in t_num]. rewrite Es.
        apply KEEP; eauto.
      * assert (Hp' : exists t3, t' = (if limit_reached (c_limit (t_conf t3)) (t_num t3)
                          then advance_state t3 else t3) /\
                  t3 = mktask (t_conf t) s' SNext (t_requires t) (Some (q_tails qs)) (t_num t + 1)).
        { eexists. split; [|reflexivity]. destruct o'; try discriminate;
            injection Hp as _ <- _; unfold with_num, with_user, with_in;
            cbn [t_conf t_user t_state t_requires t_in t_num]; now rewrite Es. }
        destruct Hp' as (t3 & -> & E3).
        destruct (limit_reached (c_limit (t_conf t3)) (t_num t3)).
        -- apply Hex; [rewrite advance_conf; subst t3; exact Hc|].
           subst t3. cbn. lia.
        -- subst t3. apply KEEP; eauto.
    + injection Hp as <- <- <-. apply Hex; [rewrite advance_conf; exact Hc|].
      unfold advance_state, with_user, with_in. cbn [t_state]. rewrite Es. cbn. lia.
  - destruct (b_finish (c_beh (t_conf t)) (t_user t)) as [s' [o'| |e]]; try discriminate.
    injection Hp as <- <- <-. apply Hex.
    + rewrite advance_conf. exact Hc.
    + unfold advance_state, with_user. cbn [t_state]. rewrite Es. cbn. lia.
  - discriminate.
Qed.

Lemma missing_decreases : forall c L P i s (t : task) ev x, task_ok c L P t -> measured (Some t) x ->
  nth_error cfg i = Some (c, s) -> sources_stop cfg ->
  pipeline_next i t = (ev, TMissing) -> exists y, measured (Some (advance_state t)) y /\ pair_lt y x.
Proof.
  intros c L P i s t ev x HT HM Hs HS Hp.
  destruct (measured_ex HS i c s (Some (advance_state t)) Hs) as [y Hy].
  - intros u Hu. injection Hu as <-. rewrite advance_conf. apply HT.
  - exists y. split; auto. destruct HM as [HM _], Hy as [Hy _]. left. rewrite HM, Hy.
    pose proof (pipeline_next_ok _ _ _ _ _ _ _ HT Hp) as (_ & _ & _ & Hst).
    unfold advance_state. destruct Hst as [E|[E _]]; rewrite E; cbn; [|lia].
    destruct (match t_requires t with Some rs => _ | None => _ end); cbn; lia.
Qed.

(** ** Deliveries go forward only *)
Lemma queue_product_other : forall key v (t : task), ~ In key (req_keys t) -> ~ In key (in_keys t) ->
  queue_product key v t = Ok t.
Proof.
  intros key v t H1 H2. unfold queue_product.
  destruct (existsb (seqb key) (req_keys t)) eqn:E1; [now apply existsb_seqb in E1|].
  cbn [rbind].
  destruct (existsb (seqb key) (in_keys t)) eqn:E2; [now apply existsb_seqb in E2|]. reflexivity.
Qed.

Lemma queue_pairs_other : forall kv (ts ts' : list (option task)) j,
  (forall t k, nth_error ts j = Some (Some t) -> In k (map fst kv) ->
     ~ In k (req_keys t) /\ ~ In k (in_keys t)) ->
  queue_pairs km kv ts = Ok ts' -> nth_error ts' j = nth_error ts j.
Proof.
  induction kv as [|[k v] kv IH]; intros ts ts' j H E; cbn in E.
  - now injection E as <-.
  - destruct (km k).
    + destruct (queue_all k v ts) as [ts1|] eqn:E1; [|discriminate]. cbn in E.
      destruct (queue_all_spec _ _ _ _ E1) as [_ F]. specialize (F j).
      assert (Hj : nth_error ts1 j = nth_error ts j).
      { destruct (nth_error ts j) as [[t|]|] eqn:Et; auto.
        destruct F as (t' & Ht' & Hq).
        destruct (H t k eq_refl) as [A B]; [left; auto|].
        rewrite (queue_product_other k v t A B) in Hq. now injection Hq as <-. }
      rewrite (IH ts1 ts' j); auto. intros t k' Ht Hk. rewrite Hj in Ht. apply H; cbn; auto.
    + apply IH; auto. intros t k' Ht Hk. apply H; cbn; auto.
Qed.

Lemma shape_length : forall ts ts' : list (option task), shape ts' = shape ts -> length ts' = length ts.
Proof.
  intros ts ts' H. apply (f_equal (@length bool)) in H. unfold shape in H.
  now rewrite !map_length in H.
Qed.

Lemma queue_pairs_shape : forall kv (ts ts' : list (option task)),
  queue_pairs km kv ts = Ok ts' -> shape ts' = shape ts.
Proof.
  induction kv as [|[k v] kv IH]; intros ts ts' E; cbn in E.
  - now injection E as <-.
  - destruct (km k); [|now apply IH].
    destruct (queue_all k v ts) as [ts1|] eqn:E1; [|discriminate]. cbn in E.
    destruct (queue_all_spec _ _ _ _ E1) as [A _]. rewrite (IH _ _ E). exact A.
Qed.

Lemma Forall2_len : forall A B (R : A -> B -> Prop) l l', Forall2 R l l' -> length l = length l'.
Proof. induction 1; cbn; auto. Qed.

(** If position [i] goes down, nothing before it moves and everything stays
    measurable, then the list goes down. *)
Lemma measured_list : forall (ts ts' : list (option task)) v i y x,
  Forall2 measured ts v -> length ts' = length ts ->
  (forall j, j < i -> nth_error ts' j = nth_error ts j) ->
  nth_error v i = Some x -> (exists o, nth_error ts' i = Some o /\ measured o y) -> pair_lt y x ->
  (forall j o, nth_error ts' j = Some o -> exists z, measured o z) ->
  exists v', Forall2 measured ts' v' /\ lex_lt v' v.
Proof.
  induction ts as [|o ts IH]; intros ts' v i y x HF HL Hlow Hx Hi Hlt Hall.
  - inversion HF; subst. now destruct i.
  - inversion HF as [|? z ? v0 Hz HF0]; subst.
    destruct ts' as [|o' ts']; [discriminate|]. cbn in HL. injection HL as HL.
    destruct i as [|i].
    + cbn in Hx. injection Hx as ->. destruct Hi as (o'' & Ho & Hm). cbn in Ho. injection Ho as <-.
      assert (exists q, Forall2 measured ts' q) as [q Hq].
      { clear -Hall. assert (H : forall j o, nth_error ts' j = Some o -> exists z, measured o z)
          by (intros j; apply (Hall (Datatypes.S j))).
        clear Hall. induction ts' as [|a ts' IH]; [exists []; constructor|].
        destruct IH as [q Hq]; [intros j; apply (H (Datatypes.S j))|].
        destruct (H 0 a eq_refl) as [z Hz]. exists (z :: q). now constructor. }
      exists (y :: q). split; [now constructor|].
      exists [], y, x, q, v0. repeat split; auto.
      pose proof (Forall2_len _ _ _ _ _ Hq). pose proof (Forall2_len _ _ _ _ _ HF0). lia.
    + destruct (IH ts' v0 i y x) as (v' & Hv' & Hlex); auto.
      * intros j Hj. apply (Hlow (Datatypes.S j)). lia.
      * intros j. apply (Hall (Datatypes.S j)).
      * exists (z :: v'). split.
        -- constructor; auto. specialize (Hlow 0 ltac:(lia)). cbn in Hlow. now injection Hlow as ->.
        -- destruct Hlex as (p & a & b & q & q' & -> & -> & A & B).
           exists (z :: p), a, b, q, q'. auto.
Qed.

Lemma Forall2_nth : forall A B (R : A -> B -> Prop) l l' i a, Forall2 R l l' -> nth_error l i = Some a ->
  exists b, nth_error l' i = Some b /\ R a b.
Proof.
  intros A B R l l' i a H. revert i. induction H; intros [|i] E; cbn in *; try discriminate; eauto.
  injection E as ->. eauto.
Qed.

Lemma step_decreases : forall tr m ev m' v, producers_first cfg -> sources_stop cfg ->
  Inv cfg km tr m -> step km m = (ev, Go m') -> Forall2 measured (tasks m) v ->
  exists v', Forall2 measured (tasks m') v' /\ lex_lt v' v.
Proof.
  intros tr m ev m' v PF HS HI Hs HF.
  destruct (step_ok _ _ _ _ _ _ HI Hs) as (HI' & _).
  assert (HALL : forall j o, nth_error (tasks m') j = Some o -> exists z, measured o z).
  { intros j o Hj. destruct HI' as (HL' & _ & HA' & _).
    assert (Hlt : j < length cfg) by (rewrite <- HL'; apply nth_error_Some; congruence).
    destruct (nth_error cfg j) as [[c s]|] eqn:E; [|apply nth_error_None in E; lia].
    eapply measured_ex; eauto. intros t ->.
    destruct (HA' j c s E) as (ot & Hn & Hs'). rewrite Hj in Hn. injection Hn as <-. apply Hs'. }
  destruct (step_cases km m m' ev (proj1 (proj2 HI)) Hs) as (i & t & Ht & Hc).
  destruct (slot_of _ _ _ _ _ _ HI Ht) as (c & s & Hi & Htc & HT).
  pose proof (task_at_lt _ _ _ Ht) as Hlt.
  pose proof (proj1 (task_at_some _ _ _) Ht) as Hn.
  destruct (Forall2_nth _ _ _ _ _ _ _ HF Hn) as (x & Hx & Hmx).
  destruct (pipeline_next i t) as [ev0 [t' o| | |e]] eqn:Ep.
  - destruct Hc as (-> & kv & Hkv & Hq).
    destruct (own_decreases _ _ _ _ _ _ _ _ _ HT Hmx (ex_intro _ s Hi) HS Ep) as (y & Hy & Hlty).
    pose proof (pipeline_next_ok _ _ _ _ _ _ _ HT Ep) as (e0 & _ & _ & HT' & _).
    assert (Hc' : t_conf t' = c) by apply HT'.
    assert (HNK : forall j u k, j <= i -> task_at (lset (tasks m) i (Some t')) j = Some u ->
               In k (map fst kv) -> ~ In k (req_keys u) /\ ~ In k (in_keys u)).
    { intros j u k Hj Hu Hk. specialize (Hkv k Hk). unfold out_keys in Hkv. rewrite Hc' in Hkv.
      assert (Hcu : exists su, nth_error cfg j = Some (t_conf u, su)).
      { apply task_at_some in Hu. destruct (Nat.eq_dec i j) as [<-|Hne].
        - rewrite lset_same in Hu by auto. injection Hu as <-. rewrite Hc'. eauto.
        - rewrite lset_other in Hu by auto. apply task_at_some in Hu.
          destruct (slot_of _ _ _ _ _ _ HI Hu) as (cu & su & Hcu & <- & _). eauto. }
      destruct Hcu as [su Hcu].
      split; intros Hin; (assert (i < j); [|lia]); apply (PF i j k);
        try (exists c; split; [now exists s|exact Hkv]);
        exists (t_conf u); (split; [now exists su|]); auto. }
    assert (Hsame : forall j, j <= i -> nth_error (tasks m') j = nth_error (lset (tasks m) i (Some t')) j).
    { intros j Hj. eapply queue_pairs_other; eauto. intros u k Hu Hk.
      apply (HNK j u k Hj); auto. now apply task_at_some. }
    eapply (measured_list (tasks m) (tasks m') v i y x); eauto.
    + rewrite (shape_length _ _ (queue_pairs_shape _ _ _ Hq)). apply lset_length.
    + intros j Hj. rewrite Hsame by lia. apply lset_other. lia.
    + exists (Some t'). split; auto. rewrite Hsame by lia. now apply lset_same.
  - pose proof (pipeline_next_ok _ _ _ _ _ _ _ HT Ep) as (_ & _ & Hna & _).
    destruct Hc as [(_ & _ & Hav)|[-> Hts]]; [congruence|].
    destruct (missing_decreases _ _ _ _ _ _ _ _ HT Hmx Hi HS Ep) as (y & Hy & Hlty).
    eapply (measured_list (tasks m) (tasks m') v i y x); eauto; rewrite ?Hts.
    + apply lset_length.
    + intros j Hj. apply lset_other. lia.
    + exists (Some (advance_state t)). split; auto. now apply lset_same.
  - destruct Hc as [-> Hts].
    eapply (measured_list (tasks m) (tasks m') v i (0, 0) x); eauto; rewrite ?Hts.
    + apply lset_length.
    + intros j Hj. apply lset_other. lia.
    + exists None. split; [now apply lset_same|reflexivity].
    + eapply stage_lt; eauto. destruct (t_state t); cbn; lia.
  - contradiction.
Qed.

Definition ended (r : result V S) : Prop := match r with Go _ => False | _ => True end.

Lemma terminates_from : forall v, Acc lex_lt v -> forall tr m, producers_first cfg -> sources_stop cfg ->
  Inv cfg km tr m -> Forall2 measured (tasks m) v ->
  exists n ev r, run km n m = (ev, r) /\ ended r.
Proof.
  induction 1 as [v _ IH]. intros tr m PF HS HI HF.
  destruct (step km m) as [ev r] eqn:Es. destruct r as [m'| |x].
  - destruct (step_decreases _ _ _ _ _ PF HS HI Es HF) as (v' & HF' & Hlt).
    destruct (step_ok _ _ _ _ _ _ HI Es) as (HI' & _).
    destruct (IH v' Hlt _ _ PF HS HI' HF') as (n & ev' & r & Hr & He).
    exists (Datatypes.S n), (ev ++ ev'), r. rewrite run_S, Es, Hr. auto.
  - exists 1, ev, Done. rewrite run_S, Es. split; auto. exact I.
  - exists 1, ev, (Fail x). rewrite run_S, Es. split; auto. exact I.
Qed.

Lemma terminates : producers_first cfg -> sources_stop cfg ->
  exists n tr r, run km n (start cfg) = (tr, r) /\ ended r.
Proof.
  intros PF HS. pose proof (Inv_start cfg km) as HI.
  assert (exists v, Forall2 measured (tasks (start cfg)) v) as [v Hv].
  { destruct HI as (HL & _ & HA & _).
    assert (H : forall j o, nth_error (tasks (start cfg)) j = Some o -> exists z, measured o z).
    { intros j o Hj.
      assert (Hlt : j < length cfg) by (rewrite <- HL; apply nth_error_Some; congruence).
      destruct (nth_error cfg j) as [[c s]|] eqn:E; [|apply nth_error_None in E; lia].
      eapply measured_ex; eauto. intros t ->.
      destruct (HA j c s E) as (ot & Hn & Hs'). rewrite Hj in Hn. injection Hn as <-. apply Hs'. }
    clear -H. induction (tasks (start cfg)) as [|a ts IH]; [exists []; constructor|].
    destruct IH as [q Hq]; [intros j; apply (H (Datatypes.S j))|].
    destruct (H 0 a eq_refl) as [z Hz]. exists (z :: q). now constructor. }
  destruct (terminates_from v (lex_lt_acc _ v eq_refl) [] (start cfg) PF HS HI Hv) as (n & tr & r & H).
  eauto.
Qed.
End P.
