(** One turn of a task, and the loop. *)
From Coq Require Import List Bool Arith ZArith Lia.
From Verif Require Import PyBase PyStr PipeModel PipeSpec PipeProofs.
Import ListNotations.
Open Scope list_scope.
Open Scope nat_scope.

Section P.
Context {V S : Type}.
Notation task := (task V S).
Notation pv := (pv V).
Notation event := (event V).

Lemma existsb_is_none : forall l : list pv, existsb is_none l = true <-> In PNone l.
Proof.
  intros l. rewrite existsb_exists. split.
  - intros ([| | |] & H & E); now try discriminate.
  - intros H; exists PNone; auto.
Qed.
Lemma not_is_none : forall l : list pv, existsb is_none l = false <-> ~ In PNone l.
Proof.
  intros l. rewrite <- existsb_is_none. destruct (existsb is_none l); intuition congruence.
Qed.

Lemma min_fold : forall l a, fold_left Nat.min l a <= a /\ (forall x, In x l -> fold_left Nat.min l a <= x).
Proof.
  induction l as [|y l IH]; intros a; cbn; [split; auto; intros ? []|].
  destruct (IH (Nat.min a y)) as [A B]. split; [lia|].
  intros x [<-|H]; [lia|auto].
Qed.
Lemma min_fold_in : forall l a, fold_left Nat.min l a = a \/ In (fold_left Nat.min l a) l.
Proof.
  induction l as [|y l IH]; intros a; cbn; auto.
  destruct (IH (Nat.min a y)) as [A|A]; [|auto].
  rewrite A. destruct (Nat.min_spec a y) as [[_ ->]|[_ ->]]; auto.
Qed.

Lemma nil_min : forall (qs : list (list pv)), existsb is_nil qs = true ->
  min_default 0 (map (@length pv) qs) = 0.
Proof.
  intros [|q qs] H; [reflexivity|]. cbn -[fold_left].
  apply existsb_exists in H as ([|? ?] & H & E); [|discriminate].
  destruct (min_fold (map (@length pv) qs) (length q)) as [A B].
  destruct H as [->|H]; [cbn [length] in *; lia|].
  specialize (B 0). apply (in_map (@length pv)) in H. specialize (B H). lia.
Qed.

Lemma life_own_setup : forall c (L : list event), life (S:=S) c L SSetup -> L = [].
Proof. intros c L H. inversion H; auto. Qed.

Lemma nth_map_hd : forall (qs : list (list pv)) j, nth j (q_heads qs) PNone = hd PNone (nth j qs []).
Proof. intros. unfold q_heads. now rewrite <- (map_nth (fun q => hd PNone q)). Qed.

Lemma queues_pop : forall c (L : list event) P qs i r, queues_ok c L P qs ->
  existsb is_nil qs = false ->
  Forall (fun a => length a = length (klist (c_in c))) (nx L) ->
  queues_ok (S:=S) c (L ++ [ENext i (q_heads qs) r]) P (q_tails qs) /\
  cols_ok c (L ++ [ENext i (q_heads qs) r]) P.
Proof.
  intros c L P qs i r [HL Hq] He HF.
  assert (Q : forall j k, nth_error (klist (c_in c)) j = Some k ->
    P k = map (fun a => nth j a PNone) (nx L ++ [q_heads qs]) ++ nth j (q_tails qs) []).
  { intros j k Hj.
    assert (Hlt : j < length qs) by (rewrite HL; apply nth_error_Some; congruence).
    destruct (nth_error qs j) as [q|] eqn:Eq; [|apply nth_error_Some in Hlt; congruence].
    rewrite (Hq _ _ _ Hj Eq), map_app, <- app_assoc. f_equal. cbn [map].
    rewrite nth_map_hd. unfold q_tails.
    rewrite (nth_error_nth _ _ [] Eq). change (@nil pv) with (tl (@nil pv)).
    rewrite map_nth, (nth_error_nth _ _ [] Eq).
    assert (In q qs) by (eapply nth_error_In; eauto).
    destruct q; [|reflexivity]. exfalso.
    assert (existsb is_nil qs = true) by (apply existsb_exists; exists []; auto). congruence. }
  split.
  - split.
    + unfold q_tails. now rewrite map_length.
    + intros j k q Hj Hq0. rewrite nx_app. cbn [nx flat_map]. rewrite app_nil_r.
      rewrite (Q _ _ Hj). now rewrite (nth_error_nth _ _ [] Hq0).
  - split.
    + rewrite nx_app. apply Forall_app; split; auto. cbn. constructor; auto.
      unfold q_heads. now rewrite map_length.
    + intros j k Hj. rewrite nx_app. cbn [nx flat_map]. rewrite app_nil_r. eauto.
Qed.

Lemma args_ok_snoc : forall c (L : list event) P e, (forall i a r, e <> ESetup i a r) ->
  args_ok (S:=S) c L P -> args_ok c (L ++ [e]) P.
Proof.
  intros c L P e He H i a r j k Hi Hj. apply in_app_or in Hi as [Hi|[Hi|[]]]; eauto.
  now apply He in Hi.
Qed.
Lemma cols_ok_snoc : forall c (L : list event) P e, (forall i a r, e <> ENext i a r) ->
  cols_ok (S:=S) c L P -> cols_ok c (L ++ [e]) P.
Proof.
  intros c L P e He H. unfold cols_ok. rewrite nx_app. replace (nx [e]) with (@nil (list pv)).
  - now rewrite app_nil_r.
  - destruct e; auto. now exfalso; eapply He.
Qed.
Lemma queues_ok_snoc : forall c (L : list event) P qs e, (forall i a r, e <> ENext i a r) ->
  queues_ok (S:=S) c L P qs -> queues_ok c (L ++ [e]) P qs.
Proof.
  intros c L P qs e He H. unfold queues_ok. rewrite nx_app. replace (nx [e]) with (@nil (list pv)).
  - now rewrite app_nil_r.
  - destruct e; auto. now exfalso; eapply He.
Qed.
Lemma nx_forall_snoc : forall c (L : list event) e, (forall i a r, e <> ENext i a r) ->
  Forall (fun a => length a = length (klist (@c_in V S c))) (nx L) ->
  Forall (fun a => length a = length (klist (c_in c))) (nx (L ++ [e])).
Proof.
  intros c L e He H. rewrite nx_app. replace (nx [e]) with (@nil (list pv)).
  - now rewrite app_nil_r.
  - destruct e; auto. now exfalso; eapply He.
Qed.
Lemma outs_snoc0 : forall (L : list event) e, (forall i a o, e = ENext i a (Ret o) -> o = PNone) ->
  outs (L ++ [e]) = outs L.
Proof.
  intros L e He. rewrite outs_app. replace (outs [e]) with 0; [lia|].
  destruct e as [| ? ? [[]| |]| | |]; try reflexivity; exfalso;
    specialize (He _ _ _ eq_refl); discriminate.
Qed.

Lemma slots_in : forall c (P : str -> list pv) rs,
  length rs = length (klist (@c_req V S c)) -> ~ In PNone rs ->
  (forall j k r, nth_error (klist (c_req c)) j = Some k -> nth_error rs j = Some r ->
        slot_ok r (P k)) ->
  forall j k, nth_error (klist (c_req c)) j = Some k -> In (nth j rs PNone) (P k).
Proof.
  intros c P rs HL HN H j k Hj.
  assert (Hlt : j < length rs) by (rewrite HL; apply nth_error_Some; congruence).
  destruct (nth_error rs j) as [r|] eqn:Er; [|apply nth_error_Some in Hlt; congruence].
  rewrite (nth_error_nth _ _ PNone Er).
  destruct (H _ _ _ Hj Er) as [[-> _]|[_ ?]]; auto.
  exfalso; apply HN. eapply nth_error_In; eauto.
Qed.

Definition result_ok (c : tconf V S) (L : list event) (P : str -> list pv) (i : nat) (t : task)
    (ev : list event) (r : tres V S) : Prop :=
  match r with
  | TOut t' o => exists e, ev = [e] /\ owner e = i /\ task_ok c (L ++ [e]) P t' /\
      (returned e = Some (i, o) \/ (returned e = None /\ o = PNone)) /\
      ~ is_starve e /\ ~ is_remove e
  | TMissing => ev = [] /\ task_ok c (L ++ [EStarve i]) P (advance_state t) /\
      is_available t = false /\
      (t_state t = SSetup \/
       t_state t = SNext /\ exists j k, nth_error (klist (c_in c)) j = Some k /\
         length (P k) = length (nx L))
  | TFinished => ev = [] /\ gone_ok c (L ++ [ERemove i]) P
  | TErr x => exists e, ev = [e] /\ owner e = i /\ cols_ok c (L ++ [e]) P /\ args_ok c (L ++ [e]) P /\
      (forall cfg, @bad_call V S cfg x e) /\
      ~ is_starve e /\ ~ is_remove e /\ returned e = None /\
      ((exists s, life c (L ++ [e]) s) \/ (is_next e /\ life c L SNext))
  end.

Lemma empty_col : forall c (L : list event) P qs, queues_ok (S:=S) c L P qs ->
  existsb is_nil qs = true ->
  exists j k, nth_error (klist (c_in c)) j = Some k /\ length (P k) = length (nx L).
Proof.
  intros c L P qs [HL Hq] He. apply existsb_exists in He as ([|? ?] & Hi & E); [|discriminate].
  apply In_nth_error in Hi as [j Hj].
  destruct (nth_error (klist (c_in c)) j) as [k|] eqn:Ek.
  - exists j, k; split; auto. rewrite (Hq _ _ _ Ek Hj), app_nil_r, map_length. auto.
  - apply nth_error_None in Ek. assert (j < length qs) by (apply nth_error_Some; congruence). lia.
Qed.

Lemma pipeline_next_ok : forall c L P i (t : task) ev r, task_ok c L P t ->
  pipeline_next i t = (ev, r) -> result_ok c L P i t ev r.
Proof.
  intros c L P i t ev r (Hc & Hl & Hn & Hf & Hcol & Ha & Hi & Hr) H.
  unfold pipeline_next in H. destruct (t_state t) eqn:Es.
  - (* setup *)
    destruct (t_requires t) as [rs|] eqn:Er; [|congruence].
    destruct Hr as (_ & HrL & Hs).
    destruct (t_in t) as [qs|] eqn:Ei; [|destruct Hi; discriminate].
    pose proof (life_own_setup _ _ Hl) as ->.
    destruct (existsb is_none rs) eqn:En.
    + injection H as <- <-. cbn [result_ok]. split; auto. split; [|split; [|auto]].
      * unfold advance_state. rewrite Es, Er. unfold req_keys. rewrite Hc.
        rewrite <- HrL, firstn_all, En.
        split; [auto|]. cbn [t_state t_num t_in t_requires app].
        split; [constructor|]. split; [exact Hn|]. split; [constructor|].
        split; [now apply (cols_ok_snoc c [])|]. split; [now apply (args_ok_snoc c [])|].
        rewrite Ei. split; [now apply (queues_ok_snoc c [])|congruence].
      * unfold is_available. rewrite Es, Er. apply existsb_is_none in En.
        apply not_true_is_false. intros F. rewrite forallb_forall in F.
        specialize (F _ En). discriminate.
    + destruct (b_setup (c_beh (t_conf t)) (t_user t) rs) as [s' o] eqn:Eb.
      injection H as <- <-. apply not_is_none in En.
      assert (Hlife : life c [ESetup i rs o] SNext) by (constructor; auto; congruence).
      assert (Hargs : args_ok c ([] ++ [ESetup i rs o]) P).
      { intros i' a r' j k [E|[]] Hj. injection E as <- <- <-.
        eapply slots_in; eauto. }
      destruct o as [o| |e].
      * exists (ESetup i rs (Ret o)). split; auto. split; auto. split; [|cbn; intuition].
        unfold advance_state, with_user. cbn [t_state t_requires t_conf t_user t_in t_num].
        rewrite Es, Er. unfold req_keys. cbn [t_conf]. rewrite Hc, <- HrL, firstn_all.
        rewrite (proj2 (not_is_none rs) En).
        split; [auto|]. cbn [t_state t_num t_in t_requires].
        split; [exact Hlife|]. split; [exact Hn|]. split; [constructor|].
        split; [now apply (cols_ok_snoc c [])|]. split; [exact Hargs|].
        rewrite Ei. split; [now apply (queues_ok_snoc c [])|congruence].
      * exists (ESetup i rs Stop). cbn. repeat split; auto; try (now apply (cols_ok_snoc c [])).
        left; eexists; exact Hlife.
      * exists (ESetup i rs (Raise e)). cbn. repeat split; auto; try (now apply (cols_ok_snoc c [])).
        left; eexists; exact Hlife.
  - (* next *)
    destruct (t_in t) as [qs|] eqn:Ei; [|destruct Hi; discriminate].
    destruct (t_requires t) as [rs|] eqn:Er; [destruct Hr; discriminate|].
    destruct (existsb is_nil qs) eqn:En.
    + injection H as <- <-. cbn [result_ok]. split; auto. split; [|split].
      * unfold advance_state. rewrite Es, Er.
        split; [auto|]. cbn [t_state t_num t_in t_requires].
        split; [now constructor|]. rewrite outs_snoc0 by discriminate.
        split; [exact Hn|]. split; [now apply nx_forall_snoc|].
        split; [now apply cols_ok_snoc|]. split; [now apply args_ok_snoc|].
        split; [auto|discriminate].
      * unfold is_available. rewrite Es, Ei. now rewrite nil_min.
      * right; split; auto. eapply empty_col; eauto.
    + destruct (b_next (c_beh (t_conf t)) (t_user t) (q_heads qs)) as [s' o] eqn:Eb.
      injection H as <- <-.
      destruct (queues_pop c L P qs i o Hi En Hf) as [Q1 Q2].
      assert (Hargs : args_ok c (L ++ [ENext i (q_heads qs) o]) P) by (now apply args_ok_snoc).
      destruct o as [o| |e].
      * assert (KEY : forall t', t' = match o with
            | PNone => with_user (with_in t (Some (q_tails qs))) s'
            | _ => let t3 := with_num (with_user (with_in t (Some (q_tails qs))) s')
                     (t_num (with_user (with_in t (Some (q_tails qs))) s') + 1) in
                   if limit_reached (c_limit (t_conf t3)) (t_num t3) then advance_state t3 else t3
            end -> task_ok c (L ++ [ENext i (q_heads qs) (Ret o)]) P t').
        { intros t' ->. destruct (is_none o) eqn:Eo.
          - destruct o; try discriminate. unfold with_user, with_in. cbn [t_conf t_user t_state t_requires t_in t_num].
            split; [auto|]. cbn [t_state t_num t_in t_requires]. rewrite Es, Er.
            split; [constructor; auto|]. rewrite outs_snoc0 by (intros; congruence).
            split; [auto|]. split; [apply Q2|]. split; [auto|]. split; [auto|].
            split; [auto|congruence].
          - assert (No : o <> PNone) by (intros ->; discriminate).
            assert (Ho : outs (L ++ [ENext i (q_heads qs) (Ret o)]) = outs L + 1).
            { rewrite outs_app. destruct o; try discriminate; reflexivity. }
            assert (Hnum : (t_num t + 1)%Z = Z.of_nat (outs L + 1)) by lia.
            replace (match o with PNone => _ | _ => _ end) with
              (let t3 := with_num (with_user (with_in t (Some (q_tails qs))) s') (t_num t + 1) in
                   if limit_reached (c_limit (t_conf t3)) (t_num t3) then advance_state t3 else t3)
              by (destruct o; [discriminate|reflexivity..]).
            unfold with_num, with_user, with_in. cbn [t_conf t_user t_state t_requires t_in t_num].
            rewrite Hc, Hnum, Es, Er.
            destruct (limit_reached (c_limit c) (Z.of_nat (outs L + 1))) eqn:El.
            + unfold advance_state. cbn [t_conf t_user t_state t_requires t_in t_num].
              split; [auto|]. cbn [t_state t_num t_in t_requires].
              split; [now apply life_limit|]. rewrite Ho.
              split; [auto|]. split; [apply Q2|]. split; [auto|]. split; [auto|].
              split; [auto|congruence].
            + split; [auto|]. cbn [t_state t_num t_in t_requires].
              split; [apply life_next; auto; right; eauto|]. rewrite Ho.
              split; [auto|]. split; [apply Q2|]. split; [auto|]. split; [auto|].
              split; [auto|congruence]. }
        destruct o; cbn [result_ok]; (eexists; split; [reflexivity|]; split; [reflexivity|];
          split; [apply KEY; reflexivity|cbn; auto]).
      * exists (ENext i (q_heads qs) Stop). split; auto. split; auto. split; [|cbn; intuition].
        unfold advance_state, with_user, with_in. cbn [t_conf t_user t_state t_requires t_in t_num].
        rewrite Es, Er.
        split; [auto|]. cbn [t_state t_num t_in t_requires].
        split; [now constructor|]. rewrite outs_snoc0 by (intros; discriminate).
        split; [auto|]. split; [apply Q2|]. split; [auto|]. split; [auto|].
        split; [auto|congruence].
      * exists (ENext i (q_heads qs) (Raise e)). cbn. repeat split; auto; try apply Q2.
  - (* finish *)
    destruct (t_requires t) as [rs|] eqn:Er; [destruct Hr; discriminate|].
    destruct (b_finish (c_beh (t_conf t)) (t_user t)) as [s' o] eqn:Eb.
    injection H as <- <-.
    assert (Hlife : life c (L ++ [EFinish i o]) SRaise) by (now constructor).
    destruct o as [o| |e].
    + exists (EFinish i (Ret o)). split; auto. split; auto. split; [|cbn; intuition].
      unfold advance_state, with_user. cbn [t_state t_requires t_conf t_user t_in t_num].
      rewrite Es, Er. split; [auto|]. cbn [t_state t_num t_in t_requires].
      split; [exact Hlife|]. rewrite outs_snoc0 by (intros; discriminate). split; [exact Hn|].
      split; [now apply nx_forall_snoc|].
      split; [now apply cols_ok_snoc|]. split; [now apply args_ok_snoc|].
      split; [|discriminate]. destruct (t_in t); [now apply queues_ok_snoc|auto].
    + exists (EFinish i Stop). pose proof (cols_ok_snoc c L P (EFinish i Stop) ltac:(discriminate) Hcol) as [? ?].
      cbn. repeat split; auto; try (now apply args_ok_snoc); eauto.
    + exists (EFinish i (Raise e)). pose proof (cols_ok_snoc c L P (EFinish i (Raise e)) ltac:(discriminate) Hcol) as [? ?].
      cbn. repeat split; auto; try (now apply args_ok_snoc); eauto.
  - (* raise *)
    injection H as <- <-. split; auto. exists L, i. repeat split; auto.
    + now apply nx_forall_snoc.
    + now apply (cols_ok_snoc c L P (ERemove i)).
    + now apply args_ok_snoc.
Qed.
End P.
