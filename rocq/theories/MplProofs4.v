From Coq Require Import List Arith Bool Lia ZArith.
From Verif Require Import PyBase PyStr PipeModel ColModel ColSpec ColProofs ColProofs2 MplModel MplSpec MplProofs MplProofs2 MplProofs3.
Import ListNotations.
Open Scope nat_scope.

(** * Behaviours do not matter for the manager. *)
Section Strip.
  Context {V S : Type}.
  Variable d : beh V S.
  Definition set_beh (t : task V S) : task V S :=
    let c := t_conf t in mktask (mkconf (c_in c) (c_req c) (c_out c) d (c_limit c) (c_base c)) (t_user t) (t_state t) (t_requires t) (t_in t) (t_num t).
  Definition strips : list (option (task V S)) -> list (option (task V S)) := map (option_map set_beh).
  Definition strip (m : mst V S) : mst V S := mkmst (strips (tasks m)) (head m) (idx m).
  Definition rok {X Y} (f : X -> Y) (x : res X) : res Y := match x with Ok v => Ok (f v) | Err e => Err e end.
  Lemma strips_at : forall ts i, task_at (strips ts) i = option_map set_beh (task_at ts i).
  Proof. intros. unfold task_at, strips. rewrite nth_error_map. destruct (nth_error ts i) as [[t|]|]; reflexivity. Qed.
  Lemma strips_lset : forall ts i x, strips (lset ts i x) = lset (strips ts) i (option_map set_beh x).
  Proof. unfold strips. induction ts as [|a ts IH]; intros [|i] x; cbn [lset map]; auto. f_equal. apply IH. Qed.
  Lemma strip_available : forall m, available (strip m) = available m.
  Proof.
    intros. unfold available. cbn [strip tasks idx]. unfold strips at 2. rewrite map_length. apply filter_ext. intros j. rewrite strips_at. destruct (task_at (tasks m) j); reflexivity.
  Qed.
  Lemma strip_next : forall m, next_task (strip m) = next_task m.
  Proof.
    intros m. unfold next_task. rewrite strip_available.
    assert (K : forall i, sort_key (tasks (strip m)) i = sort_key (tasks m) i) by (intros i; unfold sort_key; cbn [strip tasks]; rewrite strips_at; destruct (task_at (tasks m) i); reflexivity).
    replace (sorted_reverse (fun i j => key_leb (sort_key (tasks (strip m)) i) (sort_key (tasks (strip m)) j)) (available m))
      with (sorted_reverse (fun i j => key_leb (sort_key (tasks m) i) (sort_key (tasks m) j)) (available m)).
    - destruct (sorted_reverse _ (available m)); auto. unfold iter_tasks. cbn [strip tasks idx head]. unfold strips at 2. rewrite map_length. apply find_ext'. intros j. rewrite strips_at. destruct (task_at (tasks m) j); reflexivity.
    - unfold sorted_reverse. f_equal. apply insert_ext. intros x y. now rewrite !K.
  Qed.
  Lemma strip_advance : forall t, advance_state (set_beh t) = set_beh (advance_state t).
  Proof. intros t. unfold advance_state. cbn [set_beh t_state]. destruct (t_state t); reflexivity. Qed.
  Lemma strip_product : forall key v t, queue_product key v (set_beh t) = rok set_beh (queue_product key v t).
  Proof.
    intros key v t. unfold queue_product. change (req_keys (set_beh t)) with (req_keys t). change (t_requires (set_beh t)) with (t_requires t).
    destruct (existsb (seqb key) (req_keys t)).
    - destruct (t_requires t) as [rs|]; auto. destruct (put_requires _ rs key v) as [l|e]; auto. cbn [rbind].
      change (in_keys (with_requires (set_beh t) (Some l))) with (in_keys t). change (in_keys (with_requires t (Some l))) with (in_keys t). destruct (existsb (seqb key) (in_keys t)); auto.
      change (t_in (with_requires (set_beh t) (Some l))) with (t_in t). change (t_in (with_requires t (Some l))) with (t_in t). destruct (t_in t) as [qs|]; auto. destruct (put_in _ qs key v); auto.
    - cbn [rbind]. change (in_keys (set_beh t)) with (in_keys t). destruct (existsb (seqb key) (in_keys t)); auto. change (t_in (set_beh t)) with (t_in t). destruct (t_in t) as [qs|]; auto. destruct (put_in _ qs key v); auto.
  Qed.
  Lemma strip_all : forall key v ts, queue_all key v (strips ts) = rok strips (queue_all key v ts).
  Proof.
    intros key v ts. unfold strips. induction ts as [|[t|] ts IH]; cbn [map option_map queue_all]; auto.
    - rewrite strip_product. destruct (queue_product key v t); cbn [rok rbind]; auto. rewrite IH. destruct (queue_all key v ts); reflexivity.
    - rewrite IH. destruct (queue_all key v ts); reflexivity.
  Qed.
  Lemma strip_pairs : forall km kv ts, queue_pairs km kv (strips ts) = rok strips (queue_pairs km kv ts).
  Proof.
    intros km kv. induction kv as [|[k v] kv IH]; intros ts; cbn [queue_pairs]; auto. destruct (km k); auto. rewrite strip_all. destruct (queue_all k v ts); cbn [rok rbind]; auto.
  Qed.
  Lemma strip_head : forall ts h, new_head (strips ts) h = new_head ts h.
  Proof.
    intros ts h. unfold new_head, strips. rewrite skipn_map. replace (first_left (map (option_map set_beh) (skipn h ts))) with (first_left (skipn h ts)); auto.
    induction (skipn h ts) as [|[t|] l IH]; cbn [map option_map first_left]; auto. now rewrite IH.
  Qed.
  Definition same_result (a b : result V S) : Prop :=
    match a, b with Go m, Go m' => strip m = strip m' | Done, Done => True | Fail e, Fail e' => e = e' | _, _ => False end.
  Definition same_tres (a b : @tres V S) : Prop :=
    match a, b with TOut t o, TOut u p => set_beh t = set_beh u /\ o = p | TMissing, TMissing => True | TFinished, TFinished => True | TErr e, TErr e' => e = e' | _, _ => False end.
  Lemma same_step_at : forall km m m' i t u, strip m = strip m' -> set_beh t = set_beh u ->
    fst (pipeline_next i t) = fst (pipeline_next i u) -> same_tres (snd (pipeline_next i t)) (snd (pipeline_next i u)) ->
    fst (step_at km m i t) = fst (step_at km m' i u) /\ same_result (snd (step_at km m i t)) (snd (step_at km m' i u)).
  Proof.
    intros km m m' i t u M T E R. unfold step_at. destruct (pipeline_next i t) as [ev r], (pipeline_next i u) as [ev' r']. cbn [fst snd] in E, R. subst ev'.
    pose proof (f_equal (@tasks V S) M) as Mt. pose proof (f_equal (@head V S) M) as Mh. cbn [strip tasks head] in Mt, Mh. clear M.
    destruct r as [t1 o| | |e], r' as [u1 p| | |e']; simpl in R; try contradiction.
    - destruct R as [R <-]. assert (Ec : c_out (t_conf t1) = c_out (t_conf u1)) by (change (c_out (t_conf (set_beh t1)) = c_out (t_conf (set_beh u1))); now rewrite R).
      unfold out_keys. rewrite Ec. assert (L : strips (lset (tasks m) i (Some t1)) = strips (lset (tasks m') i (Some u1))) by (rewrite !strips_lset, Mt; simpl; now rewrite R).
      destruct (check_output _ o) as [[l|]|e]; [| |split; simpl; auto].
      + pose proof (strip_pairs km (combine (klist (c_out (t_conf u1))) l) (lset (tasks m) i (Some t1))) as P1.
        pose proof (strip_pairs km (combine (klist (c_out (t_conf u1))) l) (lset (tasks m') i (Some u1))) as P2. rewrite L in P1. rewrite P1 in P2.
        destruct (queue_pairs km _ (lset (tasks m) i (Some t1))), (queue_pairs km _ (lset (tasks m') i (Some u1))); simpl in P2; try discriminate; split; cbn [fst snd same_result]; auto; [|congruence].
        unfold strip. cbn [tasks head idx]. congruence.
      + split; cbn [fst snd same_result]; auto. unfold strip. cbn [tasks head idx]. congruence.
    - rewrite Mh. destruct (i =? head m'); split; cbn [fst snd same_result]; auto; unfold strip; cbn [tasks head idx]; rewrite ?strips_lset; cbn [option_map]; rewrite <- ?strip_advance; congruence.
    - split; cbn [fst snd same_result]; auto. unfold strip. cbn [tasks head idx]. rewrite <- (strip_head (lset (tasks m) i None)), <- (strip_head (lset (tasks m') i None)). rewrite !strips_lset, Mt, Mh. reflexivity.
    - split; cbn [fst snd same_result]; auto.
  Qed.
End Strip.

(** * Methods which make no calls. *)
Section Alone.
  Context {V S : Type}.
  (** What the call gives. *)
  Definition value (bh : beh V S) (t : task V S) : S * outc V :=
    match t_state t with
    | SSetup => match t_requires t with
                | Some rs => if existsb is_none rs then (t_user t, Stop) else b_setup bh (t_user t) rs
                | None => (t_user t, Stop)
                end
    | SNext => match t_in t with
               | Some qs => if existsb is_nil qs then (t_user t, Stop) else b_next bh (t_user t) (q_heads qs)
               | None => (t_user t, Stop)
               end
    | SFinish => b_finish bh (t_user t)
    | SRaise => (t_user t, Stop)
    end.
  Lemma called_quietly : forall W bh t, called (@quietly W V S bh) t = Ret (value bh t).
  Proof.
    intros W bh t. unfold value, called. destruct (t_state t); auto.
    - destruct (t_requires t) as [rs|]; auto. destruct (existsb is_none rs); auto.
    - destruct (t_in t) as [rs|]; auto. destruct (existsb is_nil rs); auto.
  Qed.
  Definition seq_step (bh : nat -> beh V S) (km : str -> bool) (m : mst V S) : list (event V) * result V S :=
    match next_task m with
    | None => ([], Done)
    | Some i => match task_at (tasks m) i with
                | None => ([], Fail AttributeError)
                | Some t => step_at km m i (with_outcome (value (bh i) t) t)
                end
    end.
  Fixpoint seq_run (bh : nat -> beh V S) (km : str -> bool) (k : nat) (m : mst V S) : list (event V) * result V S :=
    match k with
    | O => ([], Go m)
    | Datatypes.S k' => let x := seq_step bh km m in
        match snd x with Go m' => let y := seq_run bh km k' m' in (fst x ++ fst y, snd y) | _ => x end
    end.
  (** PipeModel does the same. *)
  Lemma step_is_step_at : forall km (m : mst V S), PipeModel.step km m =
    match next_task m with None => ([], Done) | Some i => match task_at (tasks m) i with None => ([], Done) | Some t => step_at km m i t end end.
  Proof. reflexivity. Qed.
  Lemma next_has_task : forall (m : mst V S) i, next_task m = Some i -> exists t, task_at (tasks m) i = Some t.
  Proof.
    intros m i H. unfold next_task in H. destruct (sorted_reverse _ (available m)) as [|j l] eqn:E.
    - unfold iter_tasks in H. apply find_some in H. destruct H as [_ H]. cbn [tasks] in H. destruct (task_at (tasks m) i); [eauto|discriminate].
    - injection H as <-. assert (I : In j (available m)).
      { unfold sorted_reverse in E. assert (In j (rev (py_sorted (fun i j => key_leb (sort_key (tasks m) i) (sort_key (tasks m) j)) (rev (available m))))) as I by (rewrite E; now left).
        apply in_rev in I. eapply Permutation.Permutation_in in I; [|apply Permutation.Permutation_sym, py_sorted_perm]. now apply in_rev in I. }
      unfold available in I. apply filter_In in I. destruct I as [_ I]. destruct (task_at (tasks m) j); [eauto|discriminate].
  Qed.
  Lemma same_next : forall d i t u, set_beh d t = set_beh d u ->
    fst (pipeline_next i (with_outcome (value (c_beh (t_conf u)) t) t)) = fst (pipeline_next i u)
    /\ same_tres d (snd (pipeline_next i (with_outcome (value (c_beh (t_conf u)) t) t))) (snd (pipeline_next i u)).
  Proof.
    intros d i [c us st rq ins num] [c' us' st' rq' ins' num'] E. unfold set_beh in E. cbn in E. injection E as E1 E2 E3 E4 E5 -> -> -> -> ->.
    unfold pipeline_next, value, called, with_outcome. cbn [t_state t_requires t_in t_conf c_beh b_setup b_next b_finish c_limit t_user quietly p_setup p_next p_finish t_num].
    assert (F : forall s' rq ins num, set_beh d (mktask (mkconf (c_in c) (c_req c) (c_out c) (mkbeh (fun _ _ => (us', Stop)) (fun _ _ => (us', Stop)) (fun _ => (us', Stop))) (c_limit c) (c_base c)) s' SNext rq ins num) = set_beh d (mktask c' s' SNext rq ins num)).
    { intros. unfold set_beh. cbn. congruence. }
    destruct st'.
    - destruct rq' as [rs|]; [|split; reflexivity]. destruct (existsb is_none rs); [split; reflexivity|]. destruct (b_setup (c_beh c') us' rs) as [s' r]. cbn [fst snd]. split; auto.
      destruct r; simpl; auto. split; auto. unfold set_beh, advance_state. cbn. unfold req_keys. cbn. rewrite E2. congruence.
    - destruct ins' as [qs|]; [|split; reflexivity]. destruct (existsb is_nil qs); [split; reflexivity|]. destruct (b_next (c_beh c') us' (q_heads qs)) as [s' r]. cbn [fst snd]. split; auto.
      destruct r as [o| |e]; simpl; auto.
      + destruct o; simpl; try (split; auto; unfold set_beh; cbn; congruence); rewrite E4; destruct (limit_reached (c_limit c') (num' + 1)); split; auto; unfold set_beh; cbn; congruence.
      + split; auto. unfold set_beh; cbn. congruence.
    - destruct (b_finish (c_beh c') us') as [s' r]. cbn [fst snd]. split; auto. destruct r; simpl; auto. split; auto. unfold set_beh; cbn. congruence.
    - split; reflexivity.
  Qed.

  (** The behaviours of a manager. *)
  Definition has_behs (bh : nat -> beh V S) (m : mst V S) : Prop := forall i t, task_at (tasks m) i = Some t -> c_beh (t_conf t) = bh i.
  Lemma product_conf : forall key v (t t' : task V S), queue_product key v t = Ok t' -> t_conf t' = t_conf t.
  Proof.
    intros key v t t' H. unfold queue_product in H.
    destruct (existsb (seqb key) (req_keys t)).
    - destruct (t_requires t) as [rs|]; [|discriminate]. destruct (put_requires _ rs key v); [|discriminate]. cbn [rbind] in H.
      destruct (existsb _ _); [|now injection H as <-]. destruct (t_in _); [|discriminate]. destruct (put_in _ _ _ _); [|discriminate]. now injection H as <-.
    - cbn [rbind] in H. destruct (existsb _ _); [|now injection H as <-]. destruct (t_in _); [|discriminate]. destruct (put_in _ _ _ _); [|discriminate]. now injection H as <-.
  Qed.
  Definition confs (ts : list (option (task V S))) (j : nat) : option (tconf V S) := option_map (@t_conf V S) (task_at ts j).
  Lemma all_conf : forall key v (ts ts' : list (option (task V S))), queue_all key v ts = Ok ts' -> forall j, confs ts' j = confs ts j.
  Proof.
    intros key v ts. induction ts as [|[t|] ts IH]; cbn [queue_all]; intros ts' H.
    - injection H as <-. auto.
    - destruct (queue_product key v t) as [t1|] eqn:E; [|discriminate]. cbn [rbind] in H. destruct (queue_all key v ts) as [us|]; [|discriminate]. injection H as <-.
      intros [|j]; [|exact (IH us eq_refl j)]. unfold confs. simpl. now rewrite (product_conf _ _ _ _ E).
    - destruct (queue_all key v ts) as [us|]; [|discriminate]. injection H as <-. intros [|j]; [reflexivity|]. exact (IH us eq_refl j).
  Qed.
  Lemma pairs_conf : forall km kv (ts ts' : list (option (task V S))), queue_pairs km kv ts = Ok ts' -> forall j, confs ts' j = confs ts j.
  Proof.
    intros km kv. induction kv as [|[k v] kv IH]; cbn [queue_pairs]; intros ts ts' H j; [now injection H as <-|].
    destruct (km k); [|now apply IH]. destruct (queue_all k v ts) as [us|] eqn:E; [|discriminate]. cbn [rbind] in H. rewrite (IH _ _ H). apply (all_conf _ _ _ _ E).
  Qed.
  Lemma advance_conf : forall t : task V S, t_conf (advance_state t) = t_conf t.
  Proof. intros t. unfold advance_state. destruct (t_state t); reflexivity. Qed.
  Lemma next_conf : forall i (t : task V S), match snd (pipeline_next i t) with TOut t' _ => t_conf t' = t_conf t | _ => True end.
  Proof.
    intros i t. unfold pipeline_next. destruct (t_state t).
    - destruct (t_requires t) as [rs|]; [|exact I]. destruct (existsb is_none rs); [exact I|]. destruct (b_setup _ _ _) as [s' [o| |e]]; cbn [snd]; auto. now rewrite advance_conf.
    - destruct (t_in t) as [rs|]; [|exact I]. destruct (existsb is_nil rs); [exact I|]. destruct (b_next _ _ _) as [s' [o| |e]]; cbn [snd]; auto.
      + destruct o; auto; destruct (limit_reached _ _); rewrite ?advance_conf; auto.
      + now rewrite advance_conf.
    - destruct (b_finish _ _) as [s' [o| |e]]; cbn [snd]; auto. now rewrite advance_conf.
    - exact I.
  Qed.
  Lemma step_behs : forall bh km (m m' : mst V S), has_behs bh m -> snd (PipeModel.step km m) = Go m' -> has_behs bh m'.
  Proof.
    intros bh km m m' B H. rewrite step_is_step_at in H. destruct (next_task m) as [i|]; [|discriminate]. destruct (task_at (tasks m) i) as [t|] eqn:T; [|discriminate].
    pose proof (task_at_lt _ _ _ T) as L. pose proof (next_conf i t) as P. unfold step_at in H. destruct (pipeline_next i t) as [ev r]. cbn [snd] in P.
    assert (G : forall y ts, (forall j, confs ts j = confs (lset (tasks m) i y) j) -> (forall t', y = Some t' -> t_conf t' = t_conf t) -> forall j u, task_at ts j = Some u -> c_beh (t_conf u) = bh j).
    { intros y ts E Y j u U. specialize (E j). unfold confs in E. rewrite U, lset_at in E by auto. destruct (Nat.eqb_spec j i) as [->|].
      - destruct y as [t'|]; [|discriminate]. injection E as E. rewrite E, (Y t' eq_refl). now apply B.
      - destruct (task_at (tasks m) j) as [w|] eqn:Tw; [|discriminate]. injection E as E. rewrite E. now apply B. }
    destruct r as [t' o| | |e].
    - destruct (check_output _ o) as [[l|]|e]; [| |discriminate].
      + destruct (queue_pairs _ _ _) as [ts|] eqn:Q; [|discriminate]. injection H as <-. intros j u. cbn [tasks]. apply (G (Some t') ts); [apply (pairs_conf _ _ _ _ Q)|congruence].
      + injection H as <-. intros j u. apply (G (Some t')); [reflexivity|congruence].
    - destruct (i =? head m); cbn [snd] in H; injection H as <-.
      + intros j u. apply (G (Some (advance_state t))); [reflexivity|]. intros t' E. injection E as <-. apply advance_conf.
      + intros j u. cbn [tasks]. apply B.
    - injection H as <-. intros j u. apply (G None); [reflexivity|discriminate].
    - discriminate.
  Qed.

  Lemma seq_step_alone : forall d bh km m m', strip d m = strip d m' -> has_behs bh m' ->
    fst (seq_step bh km m) = fst (PipeModel.step km m') /\ same_result d (snd (seq_step bh km m)) (snd (PipeModel.step km m')).
  Proof.
    intros d bh km m m' E B. unfold seq_step. rewrite step_is_step_at.
    assert (N : next_task m = next_task m') by (rewrite <- (strip_next d m), E; apply strip_next). rewrite N. destruct (next_task m') as [i|] eqn:N'; [|split; reflexivity].
    destruct (next_has_task m' i N') as [u U]. rewrite U.
    assert (T : option_map (set_beh d) (task_at (tasks m) i) = Some (set_beh d u)).
    { rewrite <- strips_at. change (strips d (tasks m)) with (tasks (strip d m)). rewrite E. cbn [strip tasks]. rewrite strips_at, U. reflexivity. }
    destruct (task_at (tasks m) i) as [t|]; [|discriminate]. cbn [option_map] in T. apply (f_equal (fun o => match o with Some x => x | None => set_beh d u end)) in T.
    pose proof (B i u U) as Bu. rewrite <- Bu. destruct (same_next d i t u T) as [H1 H2]. apply same_step_at; auto.
  Qed.
  Lemma seq_run_alone : forall d bh km k m m', strip d m = strip d m' -> has_behs bh m' ->
    fst (seq_run bh km k m) = fst (PipeModel.run km k m') /\ same_result d (snd (seq_run bh km k m)) (snd (PipeModel.run km k m')).
  Proof.
    induction k as [|k IH]; intros m m' E B; [split; [reflexivity|exact E]|]. cbn [seq_run PipeModel.run].
    destruct (seq_step_alone d bh km m m' E B) as [H1 H2]. pose proof (step_behs bh km m') as Bs. destruct (seq_step bh km m) as [ev r], (PipeModel.step km m') as [ev' r']. cbn [fst snd] in *. subst ev'.
    destruct r as [m1| |e], r' as [m1'| |e']; simpl in H2; try contradiction; try (split; simpl; auto; fail).
    destruct (IH m1 m1' H2 (Bs m1' B eq_refl)) as [I1 I2]. destruct (seq_run bh km k m1) as [e1 r1], (PipeModel.run km k m1') as [e2 r2]. cbn [fst snd] in *. split; [congruence|auto].
  Qed.
End Alone.

Section Pure.
  Context {W V S : Type}.
  Variable n : nat.
  Variable bh : nat -> nat -> beh V S.
  Variable km : str -> bool.
  Variable Inv : nat -> (nat -> S) -> Prop.
  Hypothesis pos : 0 < n.
  Notation b := (fun r i => @quietly W V S (bh r i)).
  Hypothesis keeps : forall i, keeps_step n (Inv i) (fun r => b r i).

  Lemma comes_unique : forall R (P : nat -> proc unit (msg W) R) x y, comes n tt P x -> comes n tt P y -> forall r, r < n -> x r = y r.
  Proof.
    intros R P x y [Q H] [_ H'] r L. pose proof (unique (tt, family n P) _ _ (quiet_family n P Q) H (all_ret_stuck R n tt x) H' (all_ret_stuck R n tt y)) as E.
    assert (F : nth_error (family n (fun r => @Ret unit (msg W) R (x r))) r = nth_error (family n (fun r => Ret (y r))) r) by congruence.
    rewrite !family_nth in F. apply Nat.ltb_lt in L. rewrite L in F. congruence.
  Qed.
  Lemma pure_step : forall m, together_alike n Inv m -> comes n tt (fun r => step_on n (b r) km (m r)) (fun r => seq_step (bh r) km (m r)).
  Proof.
    intros m H. pose proof H as [A _].
    assert (Ea : forall r, r < n -> available (m r) = available (m 0)) by (intros; apply alike_avail_list; apply A; auto).
    assert (En : forall r, r < n -> next_task (m r) = next_task (m 0)) by (intros; apply alike_next_task; apply A; auto).
    assert (Bd : comes n tt (fun r => body b km m r (next_task (m 0))) (fun r => seq_step (bh r) km (m r))).
    { apply comes_ext with (P := fun r => Ret (seq_step (bh r) km (m r))); [|apply comes_ret]. intros r L. unfold seq_step, body. rewrite (En r L). destruct (next_task (m 0)) as [i|]; auto.
      destruct (task_at (tasks (m r)) i); auto. rewrite called_quietly. reflexivity. }
    destruct (available (m 0)) as [|j a] eqn:E0.
    - eapply comes_ext; [|exact Bd]. intros r L. unfold step_on, choose. rewrite (Ea r L), (En r L). reflexivity.
    - destruct (next_task (m 0)) as [i|] eqn:N0.
      + apply comes_coll with (c := CBcast 0) (v := fun _ => Idx i) (k := fun r l => match nth 0 l (Idx i) with Idx i => body b km m r (Some i) | Data _ => body b km m r (Some i) end); auto.
        * intros r L. unfold step_on, choose. rewrite (Ea r L), (En r L). reflexivity.
        * intros r L. apply (step_quiet n b km Inv keeps).
        * eapply comes_ext; [|exact Bd]. intros r L. destruct n; [lia|]. reflexivity.
      + eapply comes_ext; [|exact Bd]. intros r L. unfold step_on, choose. rewrite (Ea r L), (En r L). reflexivity.
  Qed.
  Lemma pure_run : forall k m, together_alike n Inv m -> comes n tt (fun r => run_on n (b r) km k (m r)) (fun r => seq_run (bh r) km k (m r)).
  Proof.
    induction k as [|k IH]; intros m H; [apply (comes_ret _ n tt (fun r => ([], Go (m r))))|]. cbn [run_on seq_run].
    destruct (step_comes n b km Inv pos keeps m H) as [x [C [Ge [Gr Gk]]]]. pose proof (pure_step m H) as C'.
    assert (Ex : forall r, r < n -> x r = seq_step (bh r) km (m r)) by (intros r L; apply (comes_unique _ _ x (fun r => seq_step (bh r) km (m r)) C C' r L)).
    set (f := fun (r : nat) (x : list (event V) * result V S) => match snd x with Go m' => pbind (run_on n (b r) km k m') (fun y => Ret (fst x ++ fst y, snd y)) | _ => Ret x end).
    assert (Qf : forall r y, r < n -> noact (f r y)).
    { intros r [ev [m'| |e]] L; unfold f; cbn [fst snd]; try exact I. apply noact_bind; [apply (run_quiet n b km Inv keeps)|]. intros; exact I. }
    apply comes_bind with (out := fun r => seq_step (bh r) km (m r)) (f := f); auto.
    destruct (snd (x 0)) as [m0| |e0] eqn:X0.
    - set (m' := fun r => match snd (x r) with Go m => m | _ => m0 end).
      assert (Em : forall r, r < n -> snd (x r) = Go (m' r)).
      { intros r L. pose proof (Gr r 0 L pos) as X. cbv beta in X. rewrite X0 in X. unfold m'. inversion X; subst; reflexivity. }
      apply comes_ext with (P := fun r => pbind (run_on n (b r) km k (m' r)) ((fun r y => Ret (fst (seq_step (bh r) km (m r)) ++ fst y, snd y)) r)).
      { intros r L. unfold f. rewrite <- (Ex r L), (Em r L). reflexivity. }
      apply comes_bind with (out := fun r => seq_run (bh r) km k (m' r)); [apply IH; now apply Gk|intros; exact I|].
      apply comes_ext with (P := fun r => Ret (match snd (seq_step (bh r) km (m r)) with Go m' => let y := seq_run (bh r) km k m' in (fst (seq_step (bh r) km (m r)) ++ fst y, snd y) | _ => seq_step (bh r) km (m r) end)).
      { intros r L. cbv beta zeta. rewrite <- (Ex r L), (Em r L). reflexivity. }
      apply comes_ret with (out := fun r => match snd (seq_step (bh r) km (m r)) with Go m' => let y := seq_run (bh r) km k m' in (fst (seq_step (bh r) km (m r)) ++ fst y, snd y) | _ => seq_step (bh r) km (m r) end).
    - eapply comes_ext; [|apply comes_ret]. intros r L. cbv beta zeta. unfold f. rewrite <- (Ex r L). pose proof (Gr r 0 L pos) as X. cbv beta in X. rewrite X0 in X. inversion X. reflexivity.
    - eapply comes_ext; [|apply comes_ret]. intros r L. cbv beta zeta. unfold f. rewrite <- (Ex r L). pose proof (Gr r 0 L pos) as X. cbv beta in X. rewrite X0 in X. inversion X. reflexivity.
  Qed.
End Pure.
