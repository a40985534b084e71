From Coq Require Import List Arith Bool Lia ZArith.
From Verif Require Import PyBase PyStr PipeModel ColModel ColSpec ColProofs ColProofs2 MplModel MplSpec MplProofs MplProofs2.
Import ListNotations.
Open Scope nat_scope.

Section Users.
  Context {V S : Type}.
  Definition not_called (t : task V S) : Prop :=
    match t_state t with
    | SSetup => match t_requires t with Some rs => existsb is_none rs = true | None => True end
    | SNext => match t_in t with Some qs => existsb is_nil qs = true | None => True end
    | SFinish => False
    | SRaise => True
    end.
  Lemma advance_user : forall t : task V S, t_user (advance_state t) = t_user t.
  Proof. intros t. unfold advance_state. destruct (t_state t); reflexivity. Qed.
  Lemma next_user : forall i (t : task V S) x, match snd (pipeline_next i (with_outcome x t)) with
    | TOut t' _ => t_user t' = fst x | TMissing => not_called t | _ => True end.
  Proof.
    intros i t [s r]. unfold pipeline_next, not_called. cbn [with_outcome t_state t_requires t_in t_conf c_beh b_setup b_next b_finish c_limit]. destruct (t_state t).
    - destruct (t_requires t) as [rs|]; [|exact I]. destruct (existsb is_none rs) eqn:E; cbn [snd]; auto. destruct r; auto. now rewrite advance_user.
    - destruct (t_in t) as [rs|]; [|exact I]. destruct (existsb is_nil rs) eqn:E; cbn [snd]; auto. destruct r as [o| |e]; auto.
      + destruct o; auto; destruct (limit_reached _ _); auto; rewrite ?advance_user; auto.
      + now rewrite advance_user.
    - cbn [snd]. destruct r; auto. now rewrite advance_user.
    - exact I.
  Qed.
  Lemma product_user : forall key v (t t' : task V S), queue_product key v t = Ok t' -> t_user t' = t_user t.
  Proof.
    intros key v t t' H. unfold queue_product in H.
    destruct (existsb (seqb key) (req_keys t)).
    - destruct (t_requires t) as [rs|]; [|discriminate]. destruct (put_requires _ rs key v); [|discriminate]. cbn [rbind] in H.
      destruct (existsb _ _); [|now injection H as <-]. destruct (t_in _); [|discriminate]. destruct (put_in _ _ _ _); [|discriminate]. now injection H as <-.
    - cbn [rbind] in H. destruct (existsb _ _); [|now injection H as <-]. destruct (t_in _); [|discriminate]. destruct (put_in _ _ _ _); [|discriminate]. now injection H as <-.
  Qed.
  Definition users_of (ts : list (option (task V S))) (j : nat) : option S := option_map (@t_user V S) (task_at ts j).
  Lemma users_cons : forall a ts j, users_of (a :: ts) (Datatypes.S j) = users_of ts j.
  Proof. reflexivity. Qed.
  Lemma all_user : forall key v (ts ts' : list (option (task V S))), queue_all key v ts = Ok ts' -> forall j, users_of ts' j = users_of ts j.
  Proof.
    intros key v ts. induction ts as [|[t|] ts IH]; cbn [queue_all]; intros ts' H.
    - injection H as <-. auto.
    - destruct (queue_product key v t) as [t1|] eqn:E; [|discriminate]. cbn [rbind] in H. destruct (queue_all key v ts) as [us|]; [|discriminate]. injection H as <-.
      intros [|j]; [|rewrite !users_cons; apply IH; auto]. unfold users_of. simpl. now rewrite (product_user _ _ _ _ E).
    - destruct (queue_all key v ts) as [us|]; [|discriminate]. injection H as <-. intros [|j]; [reflexivity|]. rewrite !users_cons. apply IH; auto.
  Qed.
  Lemma pairs_user : forall km kv (ts ts' : list (option (task V S))), queue_pairs km kv ts = Ok ts' -> forall j, users_of ts' j = users_of ts j.
  Proof.
    intros km kv. induction kv as [|[k v] kv IH]; cbn [queue_pairs]; intros ts ts' H j; [now injection H as <-|].
    destruct (km k); [|now apply IH]. destruct (queue_all k v ts) as [us|] eqn:E; [|discriminate]. cbn [rbind] in H. rewrite (IH _ _ H). apply (all_user _ _ _ _ E).
  Qed.
  Lemma lset_at : forall (ts : list (option (task V S))) i x j, i < length ts -> task_at (lset ts i x) j = if j =? i then x else task_at ts j.
  Proof.
    unfold task_at. induction ts as [|a ts IH]; intros [|i] x [|j] L; simpl in *; try lia; auto. - now destruct x. - apply IH; lia.
  Qed.
  Lemma task_at_lt : forall (ts : list (option (task V S))) i t, task_at ts i = Some t -> i < length ts.
  Proof. unfold task_at. intros ts i t H. apply nth_error_Some. destruct (nth_error ts i); discriminate. Qed.
  Lemma step_user : forall km (m m' : mst V S) i t x, task_at (tasks m) i = Some t -> (not_called t -> fst x = t_user t) ->
    snd (step_at km m i (with_outcome x t)) = Go m' -> forall j u, users_of (tasks m') j = Some u ->
    if j =? i then u = fst x else users_of (tasks m) j = Some u.
  Proof.
    intros km m m' i t x T N H j u U. pose proof (task_at_lt _ _ _ T) as L. pose proof (next_user i t x) as P. unfold step_at in H.
    destruct (pipeline_next i (with_outcome x t)) as [ev r]. cbn [snd] in P.
    assert (G : forall y, users_of (lset (tasks m) i y) j = Some u -> (forall t', y = Some t' -> t_user t' = fst x) -> if j =? i then u = fst x else users_of (tasks m) j = Some u).
    { intros y E Y. unfold users_of in E. rewrite lset_at in E by auto. destruct (j =? i); [|exact E]. destruct y as [t'|]; [|discriminate]. injection E as <-. auto. }
    destruct r as [t' o| | |e].
    - assert (Y : forall t'', Some t' = Some t'' -> t_user t'' = fst x) by congruence.
      destruct (check_output _ o) as [[l|]|e]; [| |discriminate].
      + destruct (queue_pairs _ _ _) as [ts|] eqn:Q; [|discriminate]. cbn [snd] in H. injection H as <-. cbn [tasks] in U. rewrite (pairs_user _ _ _ _ Q) in U. apply (G (Some t')); auto.
      + cbn [snd] in H. injection H as <-. apply (G (Some t')); auto.
    - destruct (i =? head m); cbn [snd] in H; injection H as <-; cbn [tasks] in U.
      + apply (G _ U). intros t' E. injection E as <-. rewrite advance_user. cbn [with_outcome t_user]. symmetry. auto.
      + destruct (Nat.eqb_spec j i) as [->|]; auto. unfold users_of in U. rewrite T in U. injection U as <-. symmetry. auto.
    - cbn [snd] in H. injection H as <-. cbn [tasks] in U. apply (G _ U). discriminate.
    - discriminate.
  Qed.
End Users.

Section Run.
  Context {W V S : Type}.
  Variable n : nat.
  Variable b : nat -> nat -> methods W V S.
  Variable km : str -> bool.
  Variable Inv : nat -> (nat -> S) -> Prop.
  Hypothesis pos : 0 < n.
  Hypothesis keeps : forall i, keeps_step n (Inv i) (fun r => b r i).
  Notation prog R := (proc unit (msg W) R).

  Definition users_ok (m : nat -> mst V S) : Prop := forall i u, (forall r, r < n -> users_of (tasks (m r)) i = Some (u r)) -> Inv i u.
  Definition together_alike (m : nat -> mst V S) : Prop := among n alike_manager m /\ users_ok m.

  Lemma setup_quiet : forall r i u a, noact (p_setup (b r i) u a).
  Proof. intros. apply no_files_noact. apply (ks_alone n (Inv i) _ (keeps i) r u a). Qed.
  Lemma next_quiet : forall r i u a, noact (p_next (b r i) u a).
  Proof. intros. apply no_files_noact. apply (ks_alone n (Inv i) _ (keeps i) r u a). Qed.
  Lemma finish_quiet : forall r i u, noact (p_finish (b r i) u).
  Proof. intros. apply no_files_noact. apply (ks_alone n (Inv i) _ (keeps i) r u []). Qed.
  Lemma called_quiet : forall r i t, noact (called (b r i) t).
  Proof.
    intros. unfold called. destruct (t_state t).
    - destruct (t_requires t) as [rs|]; [|exact I]. destruct (existsb is_none rs); [exact I|apply setup_quiet].
    - destruct (t_in t) as [rs|]; [|exact I]. destruct (existsb is_nil rs); [exact I|apply next_quiet].
    - apply finish_quiet.
    - exact I.
  Qed.
  Definition body (m : nat -> mst V S) (r : nat) (choice : option nat) : prog (list (event V) * result V S) :=
    match choice with
    | None => Ret ([], Done)
    | Some i =>
        match task_at (tasks (m r)) i with
        | None => Ret ([], Fail AttributeError)
        | Some t => pbind (called (b r i) t) (fun x => Ret (step_at km (m r) i (with_outcome x t)))
        end
    end.
  Lemma body_quiet : forall m r c, noact (body m r c).
  Proof. intros m r [i|]; simpl; auto. destruct (task_at (tasks (m r)) i); simpl; auto. apply noact_bind; [apply called_quiet|]. intros; exact I. Qed.
  Lemma step_quiet : forall r m, noact (step_on n (b r) km m).
  Proof.
    intros r m. unfold step_on, choose. pose proof (body_quiet (fun _ => m) r) as B. unfold body in B.
    destruct (available m); [apply B|]. destruct (next_task m) as [i|]; [|exact (B None)]. intros l'. destruct (nth 0 l' _) as [j|w]; [exact (B (Some j))|exact (B (Some i))].
  Qed.
  Lemma run_quiet : forall k r m, noact (run_on n (b r) km k m).
  Proof.
    induction k as [|k IH]; intros r m; [exact I|]. cbn [run_on]. apply noact_bind; [apply step_quiet|]. intros [ev [m'| |e]]; cbn [fst snd]; try exact I.
    apply noact_bind; [apply IH|]. intros; exact I.
  Qed.

  Lemma together_comes : forall J (P : nat -> prog (S * outc V)), (forall r, noact (P r)) -> together n J P ->
    exists x, comes n tt P x /\ among n alike_outc (fun r => snd (x r)) /\ J (fun r => fst (x r)).
  Proof. intros J P Q [x [H [A Hj]]]. exists x. split; auto. apply return_comes; auto. Qed.

  (** The call of the task. *)
  Lemma called_comes : forall i (t : nat -> task V S), among n alike_task t -> Inv i (fun r => t_user (t r)) ->
    exists x, comes n tt (fun r => called (b r i) (t r)) x /\ among n alike_outc (fun r => snd (x r)) /\ Inv i (fun r => fst (x r))
      /\ forall r, r < n -> not_called (t r) -> fst (x r) = t_user (t r).
  Proof.
    intros i t A Iu.
    assert (None_ : (forall r, r < n -> called (b r i) (t r) = Ret (t_user (t r), Stop)) ->
      exists x, comes n tt (fun r => called (b r i) (t r)) x /\ among n alike_outc (fun r => snd (x r)) /\ Inv i (fun r => fst (x r)) /\ forall r, r < n -> not_called (t r) -> fst (x r) = t_user (t r)).
    { intros E. exists (fun r => (t_user (t r), Stop)). split; [|split; [|split]]; auto.
      - apply comes_ext with (P := fun r => Ret (t_user (t r), Stop)); [intros; symmetry; auto|]. apply (comes_ret _ n tt (fun r => (t_user (t r), Stop))).
      - intros r q Lr Lq. constructor. }
    assert (Some_ : forall P : nat -> prog (S * outc V), (forall r, noact (P r)) -> together n (Inv i) P -> (forall r, r < n -> called (b r i) (t r) = P r) -> (forall r, r < n -> ~ not_called (t r)) ->
      exists x, comes n tt (fun r => called (b r i) (t r)) x /\ among n alike_outc (fun r => snd (x r)) /\ Inv i (fun r => fst (x r)) /\ forall r, r < n -> not_called (t r) -> fst (x r) = t_user (t r)).
    { intros P Q H E N. destruct (together_comes (Inv i) P Q H) as [x [C [B J]]]. exists x. split; [|split; [|split]]; auto.
      - apply comes_ext with (P := P); auto. intros; symmetry; auto.
      - intros r L X. destruct (N r L X). }
    assert (St : forall r, r < n -> t_state (t r) = t_state (t 0)) by (intros r L; destruct (A r 0 L pos) as (_ & _ & _ & _ & _ & E & _); auto).
    assert (Rq : forall r, r < n -> alike_opt (Forall2 alike) (t_requires (t r)) (t_requires (t 0))) by (intros r L; destruct (A r 0 L pos) as (_ & _ & _ & _ & _ & _ & _ & E & _); auto).
    assert (Qu : forall r, r < n -> alike_opt (Forall2 (Forall2 alike)) (t_in (t r)) (t_in (t 0))) by (intros r L; destruct (A r 0 L pos) as (_ & _ & _ & _ & _ & _ & _ & _ & E); auto).
    destruct (t_state (t 0)) eqn:S0.
    - destruct (t_requires (t 0)) as [rs0|] eqn:R0.
      + destruct (existsb is_none rs0) eqn:X0.
        * apply None_. intros r L. unfold called. rewrite St by auto. specialize (Rq r L). destruct (t_requires (t r)) as [rs|]; [|contradiction].
          simpl in Rq. rewrite (f2_existsb _ _ _ _ _ alike_is_none Rq), X0. reflexivity.
        * set (a := fun r => match t_requires (t r) with Some rs => rs | None => [] end).
          apply Some_ with (P := fun r => p_setup (b r i) (t_user (t r)) (a r)).
          -- intros. apply setup_quiet.
          -- apply (ks_setup n (Inv i) _ (keeps i) (fun r => t_user (t r)) a Iu). intros r q Lr Lq. destruct (A r q Lr Lq) as (_ & _ & _ & _ & _ & _ & _ & E & _). unfold a.
             pose proof (Rq r Lr) as X. pose proof (Rq q Lq) as Y. destruct (t_requires (t r)), (t_requires (t q)); try contradiction. exact E.
          -- intros r L. unfold called. rewrite St by auto. specialize (Rq r L). unfold a. destruct (t_requires (t r)) as [rs|]; [|contradiction]. simpl in Rq. rewrite (f2_existsb _ _ _ _ _ alike_is_none Rq), X0. reflexivity.
          -- intros r L. unfold not_called. rewrite St by auto. specialize (Rq r L). destruct (t_requires (t r)) as [rs|]; [|contradiction]. simpl in Rq. rewrite (f2_existsb _ _ _ _ _ alike_is_none Rq), X0. discriminate.
      + apply None_. intros r L. unfold called. rewrite St by auto. specialize (Rq r L). destruct (t_requires (t r)); [contradiction|reflexivity].
    - destruct (t_in (t 0)) as [rs0|] eqn:R0.
      + destruct (existsb is_nil rs0) eqn:X0.
        * apply None_. intros r L. unfold called. rewrite St by auto. specialize (Qu r L). destruct (t_in (t r)) as [rs|]; [|contradiction].
          simpl in Qu. rewrite (f2_existsb _ _ _ _ _ alike_is_nil Qu), X0. reflexivity.
        * set (a := fun r => match t_in (t r) with Some rs => q_heads rs | None => [] end).
          apply Some_ with (P := fun r => p_next (b r i) (t_user (t r)) (a r)).
          -- intros. apply next_quiet.
          -- apply (ks_next n (Inv i) _ (keeps i) (fun r => t_user (t r)) a Iu). intros r q Lr Lq. destruct (A r q Lr Lq) as (_ & _ & _ & _ & _ & _ & _ & _ & E). unfold a.
             pose proof (Qu r Lr) as X. pose proof (Qu q Lq) as Y. destruct (t_in (t r)), (t_in (t q)); try contradiction. apply alike_heads. exact E.
          -- intros r L. unfold called. rewrite St by auto. specialize (Qu r L). unfold a. destruct (t_in (t r)) as [rs|]; [|contradiction]. simpl in Qu. rewrite (f2_existsb _ _ _ _ _ alike_is_nil Qu), X0. reflexivity.
          -- intros r L. unfold not_called. rewrite St by auto. specialize (Qu r L). destruct (t_in (t r)) as [rs|]; [|contradiction]. simpl in Qu. rewrite (f2_existsb _ _ _ _ _ alike_is_nil Qu), X0. discriminate.
      + apply None_. intros r L. unfold called. rewrite St by auto. specialize (Qu r L). destruct (t_in (t r)); [contradiction|reflexivity].
    - apply Some_ with (P := fun r => p_finish (b r i) (t_user (t r))).
      + intros. apply finish_quiet.
      + apply (ks_finish n (Inv i) _ (keeps i) (fun r => t_user (t r)) Iu).
      + intros r L. unfold called. rewrite St by auto. reflexivity.
      + intros r L. unfold not_called. rewrite St by auto. auto.
    - apply None_. intros r L. unfold called. rewrite St by auto. reflexivity.
  Qed.

  Definition good_out (out : nat -> list (event V) * result V S) : Prop :=
    among n (Forall2 alike_event) (fun r => fst (out r)) /\ among n alike_result (fun r => snd (out r))
    /\ forall m', (forall r, r < n -> snd (out r) = Go (m' r)) -> together_alike m'.
  Lemma body_comes : forall m c, together_alike m -> exists out, comes n tt (fun r => body m r c) out /\ good_out out.
  Proof.
    intros m c [A U]. destruct c as [i|].
    - destruct (task_at (tasks (m 0)) i) as [t0|] eqn:T0.
      + set (t := fun r => match task_at (tasks (m r)) i with Some t => t | None => t0 end).
        assert (Et : forall r, r < n -> task_at (tasks (m r)) i = Some (t r)).
        { intros r L. destruct (A r 0 L pos) as (X & _ & _). pose proof (alike_nth _ _ i X) as Y. rewrite T0 in Y. unfold t. destruct (task_at (tasks (m r)) i); [reflexivity|contradiction]. }
        assert (At : among n alike_task t).
        { intros r q Lr Lq. destruct (A r q Lr Lq) as (X & _ & _). pose proof (alike_nth _ _ i X) as Y. rewrite (Et r Lr), (Et q Lq) in Y. exact Y. }
        assert (It : Inv i (fun r => t_user (t r))) by (apply U; intros r L; unfold users_of; rewrite Et by auto; reflexivity).
        destruct (called_comes i t At It) as [x [C [Ax [Ix Nx]]]].
        exists (fun r => step_at km (m r) i (with_outcome (x r) (t r))). split; [|split; [|split]].
        * apply comes_ext with (P := fun r => pbind (called (b r i) (t r)) ((fun r x => Ret (step_at km (m r) i (with_outcome x (t r)))) r)).
          { intros r L. unfold body. rewrite Et by auto. reflexivity. }
          apply comes_bind with (out := x); auto; [intros; exact I|]. apply (comes_ret _ n tt (fun r => step_at km (m r) i (with_outcome (x r) (t r)))).
        * intros r q Lr Lq. apply alike_step_at; auto.
        * intros r q Lr Lq. apply alike_step_at; auto.
        * intros m' E. split.
          -- intros r q Lr Lq. destruct (alike_step_at km (m r) (m q) i (t r) (t q) (x r) (x q)) as [_ X]; auto. rewrite (E r Lr), (E q Lq) in X. inversion X; auto.
          -- intros j u Hu. destruct (Nat.eqb_spec j i) as [->|Ne].
             ++ apply (ks_ranks n (Inv i) _ (keeps i) (fun r => fst (x r)) u); auto. intros r L. symmetry.
                pose proof (step_user km (m r) (m' r) i (t r) (x r) (Et r L) (Nx r L) (E r L) i (u r) (Hu r L)) as X. rewrite Nat.eqb_refl in X. exact X.
             ++ apply U. intros r L. pose proof (step_user km (m r) (m' r) i (t r) (x r) (Et r L) (Nx r L) (E r L) j (u r) (Hu r L)) as X. apply Nat.eqb_neq in Ne. rewrite Ne in X. exact X.
      + exists (fun _ => ([], Fail AttributeError)). split; [|split; [|split]].
        * apply comes_ext with (P := fun _ => Ret ([], Fail AttributeError)); [|apply (comes_ret _ n tt (fun _ => ([], Fail AttributeError)))].
          intros r L. destruct (A r 0 L pos) as (X & _ & _). pose proof (alike_nth _ _ i X) as Y. rewrite T0 in Y. unfold body. destruct (task_at (tasks (m r)) i); [contradiction|reflexivity].
        * intros r q Lr Lq. constructor.
        * intros r q Lr Lq. constructor.
        * intros m' E. specialize (E 0 pos). discriminate.
    - exists (fun _ => ([], Done)). split; [|split; [|split]].
      + apply (comes_ret _ n tt (fun _ => ([], Done))).
      + intros r q Lr Lq. constructor.
      + intros r q Lr Lq. constructor.
      + intros m' E. specialize (E 0 pos). discriminate.
  Qed.
  Lemma step_comes : forall m, together_alike m -> exists out, comes n tt (fun r => step_on n (b r) km (m r)) out /\ good_out out.
  Proof.
    intros m H. destruct (body_comes m (next_task (m 0)) H) as [out [C G]]. exists out. split; auto.
    pose proof H as [A _].
    assert (Ea : forall r, r < n -> available (m r) = available (m 0)) by (intros; apply alike_avail_list; apply A; auto).
    assert (En : forall r, r < n -> next_task (m r) = next_task (m 0)) by (intros; apply alike_next_task; apply A; auto).
    destruct (available (m 0)) as [|j a] eqn:E0.
    - apply comes_ext with (P := fun r => body m r (next_task (m 0))); auto. intros r L. unfold step_on, choose. rewrite (Ea r L), (En r L). reflexivity.
    - destruct (next_task (m 0)) as [i|] eqn:N0.
      + apply comes_coll with (c := CBcast 0) (v := fun _ => Idx i) (k := fun r l => match nth 0 l (Idx i) with Idx i => body m r (Some i) | Data _ => body m r (Some i) end); auto.
        * intros r L. unfold step_on, choose. rewrite (Ea r L), (En r L). reflexivity.
        * intros r L. apply step_quiet.
        * apply comes_ext with (P := fun r => body m r (Some i)); auto. intros r L. destruct n; [lia|]. reflexivity.
      + apply comes_ext with (P := fun r => body m r None); auto. intros r L. unfold step_on, choose. rewrite (Ea r L), (En r L). reflexivity.
  Qed.
  Theorem run_comes : forall k m, together_alike m -> exists out, comes n tt (fun r => run_on n (b r) km k (m r)) out /\ good_out out.
  Proof.
    induction k as [|k IH]; intros m H.
    - exists (fun r => ([], Go (m r))). split; [apply (comes_ret _ n tt (fun r => ([], Go (m r))))|]. split; [|split].
      + intros r q Lr Lq. constructor.
      + intros r q Lr Lq. constructor. apply H; auto.
      + intros m' E. assert (forall r, r < n -> m r = m' r) by (intros r L; specialize (E r L); cbn [snd] in E; congruence). destruct H as [A U]. split.
        * intros r q Lr Lq. rewrite <- !H0 by auto. auto.
        * intros i u Hu. apply U. intros r L. rewrite H0 by auto. auto.
    - destruct (step_comes m H) as [x [C [Ge [Gr Gk]]]]. cbn [run_on].
      set (f := fun (r : nat) (x : list (event V) * result V S) => match snd x with Go m' => pbind (run_on n (b r) km k m') (fun y => Ret (fst x ++ fst y, snd y)) | _ => Ret x end).
      assert (Qf : forall r y, r < n -> noact (f r y)).
      { intros r [ev [m'| |e]] L; unfold f; cbn [fst snd]; try exact I. apply noact_bind; [apply run_quiet|]. intros; exact I. }
      destruct (snd (x 0)) as [m0| |e0] eqn:X0.
      + set (m' := fun r => match snd (x r) with Go m => m | _ => m0 end).
        assert (Em : forall r, r < n -> snd (x r) = Go (m' r)).
        { intros r L. pose proof (Gr r 0 L pos) as X. cbv beta in X. rewrite X0 in X. unfold m'. inversion X; subst; reflexivity. }
        destruct (IH m' (Gk m' Em)) as [y [Cy [Ye [Yr Yk]]]].
        exists (fun r => (fst (x r) ++ fst (y r), snd (y r))). split; [|split; [|split]].
        * apply comes_bind with (out := x) (f := f); auto.
          apply comes_ext with (P := fun r => pbind (run_on n (b r) km k (m' r)) ((fun r y => Ret (fst (x r) ++ fst y, snd y)) r)).
          { intros r L. unfold f. rewrite Em by auto. reflexivity. }
          apply comes_bind with (out := y); auto; [intros; exact I|]. apply (comes_ret _ n tt (fun r => (fst (x r) ++ fst (y r), snd (y r)))).
        * intros r q Lr Lq. cbn [fst]. apply Forall2_app; [apply Ge|apply Ye]; auto.
        * intros r q Lr Lq. apply Yr; auto.
        * intros m'' E. apply Yk. exact E.
      + exists x. split; [|split; [|split]]; auto. apply comes_bind with (out := x) (f := f); auto.
        apply comes_ext with (P := fun r => Ret (x r)); [|apply comes_ret]. intros r L. pose proof (Gr r 0 L pos) as X. cbv beta in X. rewrite X0 in X. unfold f. inversion X as [| |]. reflexivity.
      + exists x. split; [|split; [|split]]; auto. apply comes_bind with (out := x) (f := f); auto.
        apply comes_ext with (P := fun r => Ret (x r)); [|apply comes_ret]. intros r L. pose proof (Gr r 0 L pos) as X. cbv beta in X. rewrite X0 in X. unfold f. inversion X as [| |]. reflexivity.
  Qed.
End Run.
