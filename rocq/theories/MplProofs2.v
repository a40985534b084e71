From Coq Require Import List Arith Bool Lia ZArith.
From Verif Require Import PyBase PyStr PipeModel ColModel ColSpec ColProofs ColProofs2 MplModel MplSpec MplProofs.
Import ListNotations.
Open Scope nat_scope.

Section Alike.
  Context {V S : Type}.
  Notation alike := (@alike V).
  Lemma alike_is_none : forall a b, alike a b -> is_none a = is_none b.
  Proof. destruct 1; reflexivity. Qed.
  Lemma f2_length : forall X Y (R : X -> Y -> Prop) l l', Forall2 R l l' -> length l = length l'.
  Proof. induction 1; simpl; congruence. Qed.
  Lemma f2_existsb : forall X (f : X -> bool) (R : X -> X -> Prop) l l', (forall a b, R a b -> f a = f b) -> Forall2 R l l' -> existsb f l = existsb f l'.
  Proof. intros X f R l l' H. induction 1; simpl; auto. rewrite IHForall2. f_equal. auto. Qed.
  Lemma f2_forallb : forall X (f : X -> bool) (R : X -> X -> Prop) l l', (forall a b, R a b -> f a = f b) -> Forall2 R l l' -> forallb f l = forallb f l'.
  Proof. intros X f R l l' H. induction 1; simpl; auto. rewrite IHForall2. f_equal. auto. Qed.
  Lemma f2_firstn : forall X (R : X -> X -> Prop) k l l', Forall2 R l l' -> Forall2 R (firstn k l) (firstn k l').
  Proof. intros X R k l l' H. revert k. induction H; intros [|k]; simpl; auto. Qed.
  Lemma f2_skipn : forall X (R : X -> X -> Prop) k l l', Forall2 R l l' -> Forall2 R (skipn k l) (skipn k l').
  Proof. intros X R k l l' H. revert k. induction H; intros [|k]; simpl; auto. Qed.
  Lemma f2_map_eq : forall X Y (f : X -> Y) (R : X -> X -> Prop) l l', (forall a b, R a b -> f a = f b) -> Forall2 R l l' -> map f l = map f l'.
  Proof. intros X Y f R l l' H. induction 1; simpl; auto. f_equal; auto. Qed.
  Lemma f2_map : forall X Y (f : X -> Y) (R : X -> X -> Prop) (R' : Y -> Y -> Prop) l l', (forall a b, R a b -> R' (f a) (f b)) -> Forall2 R l l' -> Forall2 R' (map f l) (map f l').
  Proof. intros X Y f R R' l l' H. induction 1; simpl; auto. Qed.
  Lemma alike_is_nil : forall a b : list (pv V), Forall2 alike a b -> is_nil a = is_nil b.
  Proof. destruct 1; reflexivity. Qed.

  Notation alike_task := (@alike_task V S).
  Lemma alike_available : forall t u, alike_task t u -> is_available t = is_available u.
  Proof.
    intros t u (E1 & E2 & E3 & E4 & E5 & Es & En & Hr & Hi). unfold is_available. rewrite Es. destruct (t_state u); auto.
    - destruct (t_requires t), (t_requires u); simpl in Hr; try contradiction; auto.
      apply f2_forallb with (R := alike); auto. intros a b H. now rewrite (alike_is_none a b H).
    - destruct (t_in t), (t_in u); simpl in Hi; try contradiction; auto. do 3 f_equal.
      apply f2_map_eq with (R := Forall2 alike); auto. intros. eapply f2_length; eauto.
  Qed.
  Lemma alike_priority : forall t u, alike_task t u -> priority t = priority u.
  Proof.
    intros t u (E1 & E2 & E3 & E4 & E5 & Es & En & Hr & Hi). unfold priority. rewrite Es, E5. f_equal. destruct (t_state u); auto.
    - destruct (t_requires t), (t_requires u); simpl in Hr; try contradiction; auto.
      erewrite f2_forallb with (R := alike); [reflexivity| |exact Hr]. intros a b H. now rewrite (alike_is_none a b H).
    - destruct (t_in t), (t_in u); simpl in Hi; try contradiction; auto. unfold in_keys, out_keys. rewrite E1, E3. do 3 f_equal.
      apply f2_map_eq with (R := Forall2 alike); auto. intros. eapply f2_length; eauto.
  Qed.
  Definition alike_tasks := Forall2 (alike_opt alike_task).
  Lemma alike_nth : forall ts us i, alike_tasks ts us -> alike_opt alike_task (task_at ts i) (task_at us i).
  Proof.
    intros ts us i H. unfold task_at. revert i. induction H as [|a b ts us A H IH]; intros [|i]; simpl; auto.
    destruct a, b; simpl in *; auto.
  Qed.
  Lemma find_ext' : forall X (f g : X -> bool) l, (forall x, f x = g x) -> find f l = find g l.
  Proof. intros X f g l H. induction l as [|x l IH]; simpl; auto. rewrite H, IH. reflexivity. Qed.
  Lemma insert_ext : forall (le le' : nat -> nat -> bool) l, (forall a b, le a b = le' a b) -> py_sorted le l = py_sorted le' l.
  Proof.
    intros le le' l H. unfold py_sorted. induction l as [|x l IH]; simpl; auto. rewrite IH.
    generalize (fold_right (sort_insert le') [] l). intros k. induction k as [|y k IHk]; simpl; auto. rewrite H, IHk. reflexivity.
  Qed.
  Lemma alike_avail_list : forall a b : mst V S, alike_manager a b -> available a = available b.
  Proof.
    intros a b (H & Eh & Ei). unfold available. rewrite Ei, (f2_length _ _ _ _ _ H). apply filter_ext. intros j.
    pose proof (alike_nth _ _ j H) as A. destruct (task_at (tasks a) j), (task_at (tasks b) j); simpl in A; try contradiction; auto. now apply alike_available.
  Qed.
  Lemma alike_next_task : forall a b : mst V S, alike_manager a b -> next_task a = next_task b.
  Proof.
    intros a b H. unfold next_task. rewrite (alike_avail_list a b H). destruct H as (H & Eh & Ei).
    assert (K : forall i, sort_key (tasks a) i = sort_key (tasks b) i).
    { intros j. unfold sort_key. pose proof (alike_nth _ _ j H) as A. destruct (task_at (tasks a) j), (task_at (tasks b) j); simpl in A; try contradiction; auto.
      rewrite (alike_priority _ _ A). destruct A as (_ & _ & _ & _ & -> & _). reflexivity. }
    replace (sorted_reverse (fun i j => key_leb (sort_key (tasks a) i) (sort_key (tasks a) j)) (available b))
      with (sorted_reverse (fun i j => key_leb (sort_key (tasks b) i) (sort_key (tasks b) j)) (available b)).
    - destruct (sorted_reverse _ (available b)); auto. unfold iter_tasks. cbn [tasks idx]. rewrite Eh, (f2_length _ _ _ _ _ H). apply find_ext'. intros j.
      pose proof (alike_nth _ _ j H) as A. destruct (task_at (tasks a) j), (task_at (tasks b) j); simpl in A; try contradiction; auto.
    - unfold sorted_reverse. f_equal. apply insert_ext. intros x y. now rewrite !K.
  Qed.

  Lemma alike_advance : forall t u, alike_task t u -> alike_task (advance_state t) (advance_state u).
  Proof.
    intros t u (E1 & E2 & E3 & E4 & E5 & Es & En & Hr & Hi). unfold advance_state. rewrite Es. destruct (t_state u) eqn:Eu.
    - unfold alike_task, MplSpec.alike_task; cbn [t_conf t_state t_num t_requires t_in]. repeat match goal with |- _ /\ _ => split end; auto.
      + unfold req_keys. rewrite E2. destruct (t_requires t), (t_requires u); simpl in Hr; try contradiction; auto.
        rewrite (f2_existsb _ is_none alike (firstn (length (klist (c_req (t_conf u)))) l) (firstn (length (klist (c_req (t_conf u)))) l0) alike_is_none); auto. now apply f2_firstn.
      + exact Logic.I.
    - unfold MplSpec.alike_task; cbn [t_conf t_state t_num t_requires t_in]. repeat match goal with |- _ /\ _ => split end; auto. exact Logic.I.
    - unfold MplSpec.alike_task; cbn [t_conf t_state t_num t_requires t_in]. repeat match goal with |- _ /\ _ => split end; auto.
    - unfold MplSpec.alike_task. repeat match goal with |- _ /\ _ => split end; auto; congruence.
  Qed.
  Lemma alike_lset : forall ts us i a b, alike_tasks ts us -> alike_opt alike_task a b -> alike_tasks (lset ts i a) (lset us i b).
  Proof. intros ts us i a b H A. revert i. induction H as [|x y ts us X H IH]; intros [|i]; simpl; constructor; auto. apply IH. Qed.

  Lemma alike_put_requires : forall ks key v w rs rs', alike v w -> Forall2 alike rs rs' ->
    match put_requires ks rs key v, put_requires ks rs' key w with Ok l, Ok l' => Forall2 alike l l' | Err e, Err e' => e = e' | _, _ => False end.
  Proof.
    intros ks key v w rs rs' A H. revert ks. induction H as [|a b rs rs' X H IH]; intros [|k ks]; cbn [put_requires]; auto.
    - destruct (existsb (seqb key) (k :: ks)); auto.
    - specialize (IH ks). destruct (seqb key k).
      + rewrite (alike_is_none _ _ X). destruct (is_none b); auto. destruct (put_requires ks rs key v), (put_requires ks rs' key w); simpl; try contradiction; auto.
      + destruct (put_requires ks rs key v), (put_requires ks rs' key w); simpl; try contradiction; auto.
  Qed.
  Lemma alike_put_in : forall ks key v w qs qs', alike v w -> Forall2 (Forall2 alike) qs qs' ->
    match put_in ks qs key v, put_in ks qs' key w with Ok l, Ok l' => Forall2 (Forall2 alike) l l' | Err e, Err e' => e = e' | _, _ => False end.
  Proof.
    intros ks key v w rs rs' A H. revert ks. induction H as [|a b rs rs' X H IH]; intros [|k ks]; cbn [put_in]; auto.
    - destruct (existsb (seqb key) (k :: ks)); auto.
    - specialize (IH ks). destruct (put_in ks rs key v), (put_in ks rs' key w); simpl; try contradiction; auto.
      constructor; auto. destruct (seqb key k); auto. apply Forall2_app; auto.
  Qed.
  Lemma alike_queue_product : forall key v w t u, alike v w -> alike_task t u ->
    match queue_product key v t, queue_product key w u with Ok a, Ok b => alike_task a b | Err _, Err _ => True | _, _ => False end.
  Proof.
    intros key v w t u A T. unfold queue_product.
    assert (B : match (if existsb (seqb key) (req_keys t) then match t_requires t with None => Err PipelineRuntimeError | Some rs => rbind (put_requires (req_keys t) rs key v) (fun l => Ok (with_requires t (Some l))) end else Ok t),
                      (if existsb (seqb key) (req_keys u) then match t_requires u with None => Err PipelineRuntimeError | Some rs => rbind (put_requires (req_keys u) rs key w) (fun l => Ok (with_requires u (Some l))) end else Ok u) with
                Ok a, Ok b => alike_task a b | Err _, Err _ => True | _, _ => False end).
    { destruct T as (E1 & E2 & E3 & E4 & E5 & Es & En & Hr & Hi). unfold req_keys. rewrite E2. destruct (existsb (seqb key) (klist (c_req (t_conf u)))).
      - destruct (t_requires t) as [rs|], (t_requires u) as [rs'|]; simpl in Hr; try contradiction; auto.
        pose proof (alike_put_requires (klist (c_req (t_conf u))) key v w rs rs' A Hr) as P.
        destruct (put_requires _ rs key v), (put_requires _ rs' key w); simpl; try contradiction; auto.
        unfold MplSpec.alike_task; cbn [t_conf t_state t_num t_requires t_in with_requires]. repeat match goal with |- _ /\ _ => split end; auto.
      - unfold MplSpec.alike_task. repeat match goal with |- _ /\ _ => split end; auto. }
    destruct (if existsb (seqb key) (req_keys t) then _ else _) as [t1|e1], (if existsb (seqb key) (req_keys u) then _ else _) as [u1|e2]; simpl; try contradiction; auto.
    destruct B as (E1 & E2 & E3 & E4 & E5 & Es & En & Hr & Hi). unfold in_keys. rewrite E1. destruct (existsb (seqb key) (klist (c_in (t_conf u1)))).
    - destruct (t_in t1) as [qs|], (t_in u1) as [qs'|]; simpl in Hi; try contradiction; auto.
      pose proof (alike_put_in (klist (c_in (t_conf u1))) key v w qs qs' A Hi) as P.
      destruct (put_in _ qs key v), (put_in _ qs' key w); simpl; try contradiction; auto.
      unfold MplSpec.alike_task; cbn [t_conf t_state t_num t_requires t_in with_in]. repeat match goal with |- _ /\ _ => split end; auto.
    - unfold MplSpec.alike_task. repeat match goal with |- _ /\ _ => split end; auto.
  Qed.
  Lemma alike_queue_all : forall key v w ts us, alike v w -> alike_tasks ts us ->
    match queue_all key v ts, queue_all key w us with Ok a, Ok b => alike_tasks a b | Err _, Err _ => True | _, _ => False end.
  Proof.
    intros key v w ts us A H. induction H as [|a b ts us X H IH]; cbn [queue_all]; [constructor|].
    destruct a as [t|], b as [u|]; simpl in X; try contradiction.
    - pose proof (alike_queue_product key v w t u A X) as P. destruct (queue_product key v t), (queue_product key w u); simpl; try contradiction; auto.
      destruct (queue_all key v ts), (queue_all key w us); simpl; try contradiction; auto. constructor; auto.
    - destruct (queue_all key v ts), (queue_all key w us); simpl; try contradiction; auto. constructor; simpl; auto.
  Qed.
  Lemma alike_queue_pairs : forall km ks l l' ts us, Forall2 alike l l' -> alike_tasks ts us ->
    match queue_pairs km (combine ks l) ts, queue_pairs km (combine ks l') us with Ok a, Ok b => alike_tasks a b | Err _, Err _ => True | _, _ => False end.
  Proof.
    intros km ks l l' ts us H. revert ks ts us. induction H as [|a b l l' X H IH]; intros [|k ks] ts us T; cbn [combine queue_pairs]; auto.
    destruct (km k); [|apply IH; auto]. pose proof (alike_queue_all k a b ts us X T) as P. destruct (queue_all k a ts), (queue_all k b us); simpl; try contradiction; auto. apply IH; auto.
  Qed.
  Lemma alike_check_output : forall k o o', alike o o' ->
    match check_output k o, check_output k o' with Ok (Some l), Ok (Some l') => Forall2 alike l l' | Ok None, Ok None => True | Err _, Err _ => True | _, _ => False end.
  Proof.
    intros k o o' A. unfold check_output. destruct A as [|v w|l l' H|l l' H]; auto; destruct (klist k) as [|x [|y r]]; auto.
    - destruct k; auto. constructor; auto. constructor.
    - destruct k; auto.
    - rewrite (f2_length _ _ _ _ _ H). destruct (_ =? _); auto.
    - destruct k; auto. constructor; auto. now constructor.
    - rewrite (f2_length _ _ _ _ _ H). destruct (_ =? _); auto.
  Qed.

  (** [with_outcome] and the call. *)
  Lemma alike_with : forall t u x y, alike_task t u -> alike_task (with_outcome x t) (with_outcome y u).
  Proof. intros t u x y T. exact T. Qed.
  Lemma alike_with_num : forall t u k, alike_task t u -> alike_task (with_num t k) (with_num u k).
  Proof. intros t u k (E1 & E2 & E3 & E4 & E5 & Es & En & Hr & Hi). unfold MplSpec.alike_task. cbn [t_conf t_state t_num t_requires t_in with_num]. repeat match goal with |- _ /\ _ => split end; auto. Qed.
  Definition alike_tres (a b : @tres V S) : Prop :=
    match a, b with
    | TOut t o, TOut u p => alike_task t u /\ alike o p
    | TMissing, TMissing => True | TFinished, TFinished => True | TErr _, TErr _ => True
    | _, _ => False end.
  Lemma alike_heads : forall qs qs', Forall2 (Forall2 alike) qs qs' -> Forall2 alike (q_heads qs) (q_heads qs').
  Proof. intros. apply f2_map with (R := Forall2 alike); auto. intros a b []; simpl; auto. constructor. Qed.
  Lemma alike_tails : forall qs qs', Forall2 (Forall2 alike) qs qs' -> Forall2 (Forall2 alike) (q_tails qs) (q_tails qs').
  Proof. intros. apply f2_map with (R := Forall2 alike); auto. intros a b []; simpl; auto. Qed.
  Lemma alike_pipeline_next : forall i t u x y, alike_task t u -> alike_outc (snd x) (snd y) ->
    Forall2 alike_event (fst (pipeline_next i (with_outcome x t))) (fst (pipeline_next i (with_outcome y u)))
    /\ alike_tres (snd (pipeline_next i (with_outcome x t))) (snd (pipeline_next i (with_outcome y u))).
  Proof.
    intros i t u [s r] [s' r'] T A. cbn [snd] in A. pose proof T as (E1 & E2 & E3 & E4 & E5 & Es & En & Hr & Hi).
    unfold pipeline_next. cbn [with_outcome t_state t_requires t_in t_conf c_beh b_setup b_next b_finish c_limit]. rewrite Es. destruct (t_state u) eqn:Su.
    - destruct (t_requires t) as [rs|] eqn:Et, (t_requires u) as [rs'|] eqn:Eu; simpl in Hr; try contradiction; [|split; simpl; auto].
      rewrite (f2_existsb _ _ _ _ _ alike_is_none Hr). destruct (existsb is_none rs'); [split; simpl; auto|]. cbn [fst snd]. split; [repeat constructor; auto|].
      destruct A; simpl; auto. split; auto. apply alike_advance. unfold MplSpec.alike_task. cbn [with_user with_outcome t_conf t_state t_num t_requires t_in c_in c_req c_out c_limit c_base]. rewrite Et, Eu.
      repeat match goal with |- _ /\ _ => split end; auto; congruence.
    - destruct (t_in t) as [qs|] eqn:Et, (t_in u) as [qs'|] eqn:Eu; simpl in Hi; try contradiction; [|split; simpl; auto].
      rewrite (f2_existsb _ _ _ _ _ alike_is_nil Hi). destruct (existsb is_nil qs'); [split; simpl; auto|]. cbn [fst snd]. split; [repeat constructor; auto; now apply alike_heads|].
      assert (B : alike_task (with_user (with_in (with_outcome (s, r) t) (Some (q_tails qs))) s) (with_user (with_in (with_outcome (s', r') u) (Some (q_tails qs'))) s')).
      { unfold MplSpec.alike_task. cbn [with_user with_in with_outcome t_conf t_state t_num t_requires t_in c_in c_req c_out c_limit c_base]. repeat match goal with |- _ /\ _ => split end; auto; [congruence|]. simpl. now apply alike_tails. }
      destruct A as [o p O| |e e']; simpl; auto.
      + assert (G : alike_tres (TOut (if limit_reached (c_limit (t_conf t)) (t_num t + 1) then advance_state (with_num (with_user (with_in (with_outcome (s, PipeModel.Ret o) t) (Some (q_tails qs))) s) (t_num t + 1)) else with_num (with_user (with_in (with_outcome (s, PipeModel.Ret o) t) (Some (q_tails qs))) s) (t_num t + 1)) o)
                    (TOut (if limit_reached (c_limit (t_conf u)) (t_num u + 1) then advance_state (with_num (with_user (with_in (with_outcome (s', PipeModel.Ret p) u) (Some (q_tails qs'))) s') (t_num u + 1)) else with_num (with_user (with_in (with_outcome (s', PipeModel.Ret p) u) (Some (q_tails qs'))) s') (t_num u + 1)) p)).
        { split; auto. rewrite E4, En. pose proof (alike_with_num _ _ (t_num u + 1) B) as N. destruct (limit_reached _ _); [now apply alike_advance|exact N]. }
        destruct O; try exact G. split; [exact B|constructor].
      + split; [now apply alike_advance|constructor].
    - cbn [fst snd]. split; [repeat constructor; auto|]. destruct A; simpl; auto. split; auto. apply alike_advance. exact T.
    - split; simpl; auto.
  Qed.
  Lemma alike_first_left : forall ts us, alike_tasks ts us -> first_left ts = first_left us.
  Proof. induction 1 as [|a b ts us X H IH]; simpl; auto. destruct a, b; simpl in X; try contradiction; auto. now rewrite IH. Qed.
  Lemma alike_new_head : forall ts us h, alike_tasks ts us -> new_head ts h = new_head us h.
  Proof. intros ts us h H. unfold new_head. rewrite (alike_first_left (skipn h ts) (skipn h us)); auto. now apply f2_skipn. Qed.

  Theorem alike_step_at : forall km m m' i t u x y, alike_manager m m' -> alike_task t u -> alike_outc (snd x) (snd y) ->
    Forall2 alike_event (fst (step_at km m i (with_outcome x t))) (fst (step_at km m' i (with_outcome y u)))
    /\ alike_result (snd (step_at km m i (with_outcome x t))) (snd (step_at km m' i (with_outcome y u))).
  Proof.
    intros km m m' i t u x y M T A. pose proof (alike_pipeline_next i t u x y T A) as [Pe Pr]. unfold step_at.
    destruct M as (Mt & Mh & Mi).
    destruct (pipeline_next i (with_outcome x t)) as [ev r], (pipeline_next i (with_outcome y u)) as [ev' r']. cbn [fst snd] in Pe, Pr.
    destruct r as [t1 o| | |e], r' as [u1 p| | |e']; simpl in Pr; try contradiction.
    - destruct Pr as [T1 O]. pose proof (alike_check_output (c_out (t_conf u1)) o p O) as C.
      assert (Eo : c_out (t_conf t1) = c_out (t_conf u1)) by (destruct T1 as (_ & _ & E & _); exact E).
      unfold out_keys. rewrite Eo.
      pose proof (alike_lset _ _ i (Some t1) (Some u1) Mt T1) as L.
      destruct (check_output _ o) as [[l|]|e], (check_output _ p) as [[l'|]|e']; try contradiction.
      + pose proof (alike_queue_pairs km (klist (c_out (t_conf u1))) l l' _ _ C L) as Q.
        destruct (queue_pairs km _ (lset (tasks m) i (Some t1))), (queue_pairs km _ (lset (tasks m') i (Some u1))); try contradiction; split; cbn [fst snd]; auto; constructor.
        split; [exact Q|]. split; auto.
      + split; cbn [fst snd]; auto. constructor. split; [exact L|]. split; auto.
      + split; cbn [fst snd]; auto. constructor.
    - rewrite Mh. destruct (i =? head m'); cbn [fst snd].
      + split; [apply Forall2_app; auto; repeat constructor|]. constructor. split; [|split; auto]. cbn [tasks]. apply alike_lset; auto. simpl. now apply alike_advance, alike_with.
      + split; auto. constructor. split; auto.
    - cbn [fst snd]. split; [apply Forall2_app; auto; repeat constructor|]. constructor.
      assert (L : alike_tasks (lset (tasks m) i None) (lset (tasks m') i None)) by (apply alike_lset; simpl; auto).
      split; [exact L|]. split; auto. cbn [head]. rewrite Mh. now apply alike_new_head.
    - cbn [fst snd]. split; auto. constructor.
  Qed.
End Alike.
