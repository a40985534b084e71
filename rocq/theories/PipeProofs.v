(** Invariants of single tasks. *)
From Coq Require Import List Bool Arith ZArith Lia.
From Verif Require Import PyBase PyStr PipeModel PipeSpec.
Import ListNotations.
Open Scope list_scope.
Open Scope nat_scope.

Section P.
Context {V S : Type}.
Notation task := (task V S).
Notation pv := (pv V).
Notation event := (event V).

Definition nx (L : list event) : list (list pv) :=
  flat_map (fun e => match e with ENext _ a _ => [a] | _ => [] end) L.
Definition outs (L : list event) : nat :=
  length (filter (fun e => match e with ENext _ _ (Ret PNone) => false
                                      | ENext _ _ (Ret _) => true | _ => false end) L).

Lemma nx_app : forall a b, nx (a ++ b) = nx a ++ nx b.
Proof. intros; apply flat_map_app. Qed.
Lemma outs_app : forall a b, outs (a ++ b) = outs a + outs b.
Proof. intros; unfold outs. rewrite filter_app, app_length; lia. Qed.

(** Where a task is, from its own events. *)
Inductive life (c : tconf V S) : list event -> pstate -> Prop :=
| life0 : life c [] SSetup
| life_setup : forall i a r, ~ In PNone a -> length a = length (klist (c_req c)) ->
    life c [ESetup i a r] SNext
| life_starve0 : forall i, life c [EStarve i] SFinish
| life_next : forall L i a r, life c L SNext ->
    (r = Ret PNone \/ exists o, r = Ret o /\ o <> PNone /\
       limit_reached (c_limit c) (Z.of_nat (outs L + 1)) = false) ->
    life c (L ++ [ENext i a r]) SNext
| life_stop : forall L i a, life c L SNext -> life c (L ++ [ENext i a Stop]) SFinish
| life_limit : forall L i a o, life c L SNext -> o <> PNone ->
    limit_reached (c_limit c) (Z.of_nat (outs L + 1)) = true ->
    life c (L ++ [ENext i a (Ret o)]) SFinish
| life_starve : forall L i, life c L SNext -> life c (L ++ [EStarve i]) SFinish
| life_finish : forall L i r, life c L SFinish -> life c (L ++ [EFinish i r]) SRaise.

Definition slot_ok (r : pv) (P : list pv) : Prop :=
  (r = PNone /\ forall x, In x P -> x = PNone) \/ (r <> PNone /\ In r P).

Definition cols_ok (c : tconf V S) (L : list event) (P : str -> list pv) : Prop :=
  Forall (fun a => length a = length (klist (c_in c))) (nx L) /\
  forall j k, nth_error (klist (c_in c)) j = Some k ->
    exists rest, P k = map (fun a => nth j a PNone) (nx L) ++ rest.

Definition queues_ok (c : tconf V S) (L : list event) (P : str -> list pv)
    (qs : list (list pv)) : Prop :=
  length qs = length (klist (c_in c)) /\
  forall j k q, nth_error (klist (c_in c)) j = Some k -> nth_error qs j = Some q ->
    P k = map (fun a => nth j a PNone) (nx L) ++ q.

Definition args_ok (c : tconf V S) (L : list event) (P : str -> list pv) : Prop :=
  forall i a r j k, In (ESetup i a r) L -> nth_error (klist (c_req c)) j = Some k ->
    In (nth j a PNone) (P k).

Definition task_ok (c : tconf V S) (L : list event) (P : str -> list pv) (t : task) : Prop :=
  t_conf t = c /\ life c L (t_state t) /\ t_num t = Z.of_nat (outs L) /\
  Forall (fun a => length a = length (klist (c_in c))) (nx L) /\
  cols_ok c L P /\ args_ok c L P /\
  match t_in t with
  | Some qs => queues_ok c L P qs
  | None => t_state t = SFinish \/ t_state t = SRaise
  end /\
  match t_requires t with
  | Some rs => t_state t = SSetup /\ length rs = length (klist (c_req c)) /\
      forall j k r, nth_error (klist (c_req c)) j = Some k -> nth_error rs j = Some r ->
        slot_ok r (P k)
  | None => t_state t <> SSetup
  end.

Definition gone_ok (c : tconf V S) (L : list event) (P : str -> list pv) : Prop :=
  exists L' i, L = L' ++ [ERemove i] /\ life c L' SRaise /\ cols_ok c L P /\ args_ok c L P.

Definition slot_inv (c : tconf V S) (L : list event) (P : str -> list pv) (ot : option task) : Prop :=
  match ot with Some t => task_ok c L P t | None => gone_ok c L P end.

Lemma init_ok : forall cs P, (forall k, P k = []) ->
  task_ok (fst cs) [] P (init_task cs).
Proof.
  intros cs P HP. repeat split; cbn; auto.
  - constructor.
  - intros j k _. exists []. now rewrite HP.
  - intros i a r j k [].
  - now rewrite repeat_length.
  - intros j k q _ Hq. rewrite HP. apply nth_error_In, repeat_spec in Hq. now subst.
  - now rewrite repeat_length.
  - intros j k r _ Hr. apply nth_error_In, repeat_spec in Hr. subst. left; split; auto.
    rewrite HP; intros x [].
Qed.

(** ** Growing products *)
Definition grows (P Q : str -> list pv) := forall k, exists r, Q k = P k ++ r.

Lemma cols_grow : forall c L P Q, grows P Q -> cols_ok c L P -> cols_ok c L Q.
Proof.
  intros c L P Q G [H1 H2]; split; auto. intros j k Hj.
  destruct (H2 j k Hj) as [r Hr], (G k) as [r' Hr'].
  exists (r ++ r'). now rewrite Hr', Hr, <- app_assoc.
Qed.
Lemma args_grow : forall c L P Q, grows P Q -> args_ok c L P -> args_ok c L Q.
Proof.
  intros c L P Q G H i a r j k Hi Hj. destruct (G k) as [r' Hr']. rewrite Hr'.
  apply in_or_app; left. eapply H; eauto.
Qed.
Lemma gone_grow : forall c L P Q, grows P Q -> gone_ok c L P -> gone_ok c L Q.
Proof.
  intros c L P Q G (L' & i & E & A & B & C). exists L', i. repeat split; auto.
  - apply B.
  - now apply (proj2 (cols_grow _ _ _ _ G B)).
  - now apply (args_grow _ _ _ _ G C).
Qed.

Definition addp (P : str -> list pv) (k : str) (v : pv) : str -> list pv :=
  fun k' => if seqb k k' then P k' ++ [v] else P k'.
Lemma addp_grows : forall P k v, grows P (addp P k v).
Proof.
  intros P k v k'; unfold addp. destruct (seqb k k'); eauto. exists []; now rewrite app_nil_r.
Qed.

(** ** Delivery *)
Lemma existsb_seqb : forall key ks, existsb (seqb key) ks = true <-> In key ks.
Proof.
  intros key ks. rewrite existsb_exists. split.
  - intros (x & Hx & E). apply seqb_eq in E. now subst.
  - intros H; exists key; split; auto. apply seqb_refl.
Qed.

Lemma put_in_ok : forall ks (qs : list (list pv)) key v l, put_in ks qs key v = Ok l ->
  length qs = length ks ->
  length l = length ks /\
  forall j k q', nth_error ks j = Some k -> nth_error l j = Some q' ->
    exists q, nth_error qs j = Some q /\ q' = if seqb key k then q ++ [v] else q.
Proof.
  induction ks as [|k ks IH]; intros [|q qs] key v l H HL; try discriminate.
  - cbn in H. injection H as <-. split; auto. intros [|j] k q' H; discriminate.
  - cbn in H, HL. destruct (put_in ks qs key v) as [l'|] eqn:E; cbn in H; [|discriminate].
    injection H as <-. destruct (IH _ _ _ _ E ltac:(lia)) as [A B].
    split; [cbn; lia|]. intros [|j] k' q' Hk Hq; cbn in *.
    + injection Hk as <-. injection Hq as <-. eauto.
    + eauto.
Qed.

Lemma put_in_total : forall ks (qs : list (list pv)) key v, length qs = length ks ->
  exists l, put_in ks qs key v = Ok l.
Proof.
  induction ks as [|k ks IH]; intros [|q qs] key v H; try discriminate; cbn; eauto.
  destruct (IH qs key v) as [l ->]; [cbn in H; lia|]. cbn; eauto.
Qed.

Lemma put_requires_ok : forall ks (rs : list pv) key v l, put_requires ks rs key v = Ok l ->
  length rs = length ks ->
  length l = length ks /\
  forall j k r', nth_error ks j = Some k -> nth_error l j = Some r' ->
    exists r, nth_error rs j = Some r /\
      if seqb key k then r = PNone /\ r' = v else r' = r.
Proof.
  induction ks as [|k ks IH]; intros [|r rs] key v l H HL; try discriminate.
  - cbn in H. injection H as <-. split; auto. intros [|j] k q' H; discriminate.
  - cbn in H, HL. destruct (seqb key k) eqn:Ek.
    + destruct (is_none r) eqn:En; [|discriminate].
      destruct (put_requires ks rs key v) as [l'|] eqn:E; cbn in H; [|discriminate].
      injection H as <-. destruct (IH _ _ _ _ E ltac:(lia)) as [A B].
      split; [cbn; lia|]. intros [|j] k' r' Hk Hr; cbn in *; [|eauto].
      injection Hk as <-. injection Hr as <-. exists r. rewrite Ek. repeat split; auto.
      now destruct r.
    + destruct (put_requires ks rs key v) as [l'|] eqn:E; cbn in H; [|discriminate].
      injection H as <-. destruct (IH _ _ _ _ E ltac:(lia)) as [A B].
      split; [cbn; lia|]. intros [|j] k' r' Hk Hr; cbn in *; [|eauto].
      injection Hk as <-. injection Hr as <-. exists r. rewrite Ek. auto.
Qed.

Lemma put_requires_err : forall ks (rs : list pv) key v e, put_requires ks rs key v = Err e ->
  length rs = length ks ->
  e = PipelineRuntimeError /\
  exists j r, nth_error ks j = Some key /\ nth_error rs j = Some r /\ r <> PNone.
Proof.
  induction ks as [|k ks IH]; intros [|r rs] key v e H HL; try discriminate.
  cbn in H, HL. destruct (seqb key k) eqn:Ek.
  - apply seqb_eq in Ek; subst k. destruct (is_none r) eqn:En.
    + destruct (put_requires ks rs key v) as [l'|] eqn:E; cbn in H; [discriminate|].
      injection H as <-. destruct (IH _ _ _ _ E ltac:(lia)) as (A & j & r' & B).
      split; auto. exists (Datatypes.S j), r'. exact B.
    + injection H as <-. split; auto. exists 0, r. cbn. repeat split; auto.
      intros ->; discriminate.
  - destruct (put_requires ks rs key v) as [l'|] eqn:E; cbn in H; [discriminate|].
    injection H as <-. destruct (IH _ _ _ _ E ltac:(lia)) as (A & j & r' & B).
    split; auto. exists (Datatypes.S j), r'. exact B.
Qed.

Lemma slot_grow : forall (r : pv) P v, (r <> PNone \/ v = PNone) -> slot_ok r P -> slot_ok r (P ++ [v]).
Proof.
  intros r P v H [[A B]|[A B]].
  - destruct H as [H| ->]; [congruence|]. left; split; auto.
    intros x Hx; apply in_app_or in Hx as [?|[<-|[]]]; auto.
  - right; split; auto. apply in_or_app; auto.
Qed.

Lemma requires_part : forall c L P key v (t t1 : task), task_ok c L P t ->
  (if existsb (seqb key) (req_keys t)
   then match t_requires t with
        | None => Err PipelineRuntimeError
        | Some rs => rbind (put_requires (req_keys t) rs key v) (fun l => Ok (with_requires t (Some l)))
        end
   else Ok t) = Ok t1 ->
  t_conf t1 = t_conf t /\ t_state t1 = t_state t /\ t_num t1 = t_num t /\ t_in t1 = t_in t /\
  t_user t1 = t_user t /\
  match t_requires t1 with
  | Some rs => t_state t = SSetup /\ length rs = length (klist (c_req c)) /\
      forall j k r, nth_error (klist (c_req c)) j = Some k -> nth_error rs j = Some r ->
        slot_ok r (addp P key v k)
  | None => t_state t <> SSetup
  end.
Proof.
  intros c L P key v t t1 (Hc & _ & _ & _ & _ & _ & _ & Hr) H.
  unfold req_keys in H. rewrite Hc in H.
  destruct (existsb (seqb key) (klist (c_req c))) eqn:Ee.
  - destruct (t_requires t) as [rs|]; [|discriminate].
    destruct Hr as (A & B & C).
    destruct (put_requires (klist (c_req c)) rs key v) as [l|] eqn:Ep; [|discriminate].
    cbn [rbind] in H. injection H as <-. cbn.
    destruct (put_requires_ok _ _ _ _ _ Ep B) as [D F].
    repeat split; auto. intros j k r Hj Hl.
    destruct (F _ _ _ Hj Hl) as (r0 & Hr0 & Hi). specialize (C _ _ _ Hj Hr0).
    unfold addp. destruct (seqb key k) eqn:Ek.
    + destruct Hi as [-> ->]. destruct C as [[_ C]|[C _]]; [|congruence].
      destruct v; try (right; split; [discriminate|apply in_or_app; right; left; reflexivity]).
      left; split; auto. intros x Hx; apply in_app_or in Hx as [?|[<-|[]]]; auto.
    + now subst.
  - injection H as <-. repeat split; auto.
    destruct (t_requires t) as [rs|]; auto.
    destruct Hr as (A & B & C). repeat split; auto. intros j k r Hj Hl.
    unfold addp. destruct (seqb key k) eqn:Ek; [|eauto].
    apply seqb_eq in Ek; subst k. apply nth_error_In in Hj.
    apply existsb_seqb in Hj. congruence.
Qed.

Lemma queue_product_ok : forall c L P key v (t t' : task), task_ok c L P t ->
  queue_product key v t = Ok t' ->
  task_ok c L (addp P key v) t' /\ t_conf t' = t_conf t /\ t_state t' = t_state t /\
  t_user t' = t_user t.
Proof.
  intros c L P key v t t' HT H. unfold queue_product in H.
  set (R := if existsb (seqb key) (req_keys t) then _ else Ok t) in H.
  destruct R as [t1|] eqn:ER; [|discriminate]. cbn [rbind] in H.
  destruct (requires_part c L P key v t t1 HT ER) as (C1 & S1 & N1 & I1 & U1 & R1).
  clear ER R. destruct HT as (Hc & Hl & Hn & Hf & Hcol & Ha & Hi & _).
  pose proof (addp_grows P key v) as G.
  unfold in_keys in H. rewrite C1, Hc, I1 in H.
  destruct (existsb (seqb key) (klist (c_in c))) eqn:Ee.
  - destruct (t_in t) as [qs|]; [|discriminate].
    destruct Hi as [Hlen Hq].
    destruct (put_in (klist (c_in c)) qs key v) as [l|] eqn:Ep; [|discriminate].
    cbn [rbind] in H. injection H as <-. cbn. split; [|auto].
    destruct (put_in_ok _ _ _ _ _ Ep Hlen) as [D F].
    unfold task_ok; cbn. rewrite S1, N1.
    split; [congruence|]. split; [auto|]. split; [auto|]. split; [auto|].
    split; [now apply (cols_grow _ _ _ _ G)|]. split; [now apply (args_grow _ _ _ _ G)|].
    split; [|exact R1].
    split; auto. intros j k q' Hj Hq'.
    destruct (F _ _ _ Hj Hq') as (q & Hq0 & ->). specialize (Hq _ _ _ Hj Hq0).
    unfold addp. destruct (seqb key k); auto. now rewrite Hq, app_assoc.
  - injection H as <-. split; [|auto].
    unfold task_ok. rewrite S1, N1, C1, I1.
    split; [congruence|]. split; [auto|]. split; [auto|]. split; [auto|].
    split; [now apply (cols_grow _ _ _ _ G)|]. split; [now apply (args_grow _ _ _ _ G)|].
    split; [|exact R1].
    destruct (t_in t) as [qs|]; auto. destruct Hi as [Hlen Hq].
    split; auto. intros j k q Hj Hq0. unfold addp.
    destruct (seqb key k) eqn:Ek; [|eauto].
    apply seqb_eq in Ek; subst k. apply nth_error_In in Hj.
    apply existsb_seqb in Hj. congruence.
Qed.

(** Why a delivery can be refused. *)
Lemma queue_product_err : forall c L P key v (t : task) e, task_ok c L P t ->
  queue_product key v t = Err e ->
  e = PipelineRuntimeError /\
  ((In key (klist (c_req c)) /\ (t_requires t = None \/ exists x, In x (P key))) \/
   (In key (klist (c_in c)) /\ t_in t = None)).
Proof.
  intros c L P key v t e HT H. unfold queue_product in H.
  set (R := if existsb (seqb key) (req_keys t) then _ else Ok t) in H.
  destruct R as [t1|] eqn:ER; cbn [rbind] in H.
  - destruct (requires_part c L P key v t t1 HT ER) as (C1 & S1 & N1 & I1 & U1 & R1).
    clear ER R. destruct HT as (Hc & Hl & Hn & Hf & Hcol & Ha & Hi & _).
    unfold in_keys in H. rewrite C1, Hc, I1 in H.
    destruct (existsb (seqb key) (klist (c_in c))) eqn:Ee; [|discriminate].
    apply existsb_seqb in Ee.
    destruct (t_in t) as [qs|]; [|injection H as <-; auto].
    destruct Hi as [Hlen _]. destruct (put_in_total _ _ key v Hlen) as [l El].
    rewrite El in H. discriminate.
  - injection H as <-. subst R.
    destruct HT as (Hc & _ & _ & _ & _ & _ & _ & Hr).
    unfold req_keys in ER. rewrite Hc in ER.
    destruct (existsb (seqb key) (klist (c_req c))) eqn:Ee; [|discriminate].
    apply existsb_seqb in Ee.
    destruct (t_requires t) as [rs|]; [|injection ER as <-; split; auto; left; split; auto].
    destruct Hr as (A & B & C).
    destruct (put_requires (klist (c_req c)) rs key v) as [l|] eqn:Ep; [discriminate|].
    cbn [rbind] in ER. injection ER as <-.
    destruct (put_requires_err _ _ _ _ _ Ep B) as (-> & j & r & Hj & Hjr & Hn).
    split; auto. left; split; auto. right.
    destruct (C _ _ _ Hj Hjr) as [[? _]|[_ ?]]; [congruence|eauto].
Qed.
End P.
