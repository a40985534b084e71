(** Exchanges in which every pair of ranks has at most one message:
    [transpose_blocks], [gather_local] and the check of the environment. *)
From Coq Require Import List Arith ZArith Bool Lia.
From Verif Require Import PyBase PartModel PartProofs SliceModel RedModel RedProofs MsgModel MsgSpec MsgProofs MsgProofs2 MsgProofs3 MsgProg MsgProofs4.
Import ListNotations.
Open Scope nat_scope.

(** * Lists *)
Lemma flat_map_flat_map : forall X Y Z (f : X -> list Y) (g : Y -> list Z) l,
  flat_map g (flat_map f l) = flat_map (fun x => flat_map g (f x)) l.
Proof. induction l; simpl; auto. rewrite flat_map_app, IHl. auto. Qed.
Lemma flat_map_ext_in : forall X Y (f g : X -> list Y) l, (forall x, In x l -> f x = g x) -> flat_map f l = flat_map g l.
Proof. induction l; simpl; intros; auto. rewrite H by auto. f_equal. apply IHl. auto. Qed.
Lemma flat_map_map' : forall X Y (f : X -> Y) l, flat_map (fun x => [f x]) l = map f l.
Proof. induction l; simpl; congruence. Qed.
Lemma flat_map_none : forall X Y (l : list X), flat_map (fun _ => @nil Y) l = [].
Proof. induction l; simpl; auto. Qed.
Lemma flat_map_pick : forall Y (f : nat -> list Y) r l, NoDup l ->
  flat_map (fun i => if r =? i then f i else []) l = if in_dec Nat.eq_dec r l then f r else [].
Proof.
  induction l as [|a l IH]; intros N; [reflexivity|]. inversion N; subst. cbn [flat_map]. rewrite IH by auto.
  destruct (in_dec Nat.eq_dec r l), (in_dec Nat.eq_dec r (a :: l)) as [i'|i']; simpl in i'; destruct (Nat.eqb_spec r a) as [->|];
    try (exfalso; intuition; congruence); rewrite ?app_nil_r; auto.
Qed.
Lemma flat_map_pick_seq : forall Y (f : nat -> list Y) r n, r < n ->
  flat_map (fun i => if r =? i then f i else []) (seq 0 n) = f r.
Proof.
  intros. rewrite flat_map_pick by apply seq_NoDup. destruct (in_dec Nat.eq_dec r (seq 0 n)) as [|C]; auto.
  exfalso. apply C. apply in_seq. lia.
Qed.
Lemma NoDup_app_intro : forall X (a b : list X), NoDup a -> NoDup b -> (forall x, In x a -> In x b -> False) -> NoDup (a ++ b).
Proof.
  induction a; simpl; intros; auto. inversion H; subst. constructor.
  - intros I. apply in_app_or in I. destruct I; auto. eapply H1; eauto.
  - apply IHa; auto. intros; eapply H1; eauto.
Qed.
Lemma NoDup_flat_map : forall X Y (f : X -> list Y) l, NoDup l -> (forall x, In x l -> NoDup (f x)) ->
  (forall x y z, In x l -> In y l -> In z (f x) -> In z (f y) -> x = y) -> NoDup (flat_map f l).
Proof.
  induction l; simpl; intros; [constructor|]. inversion H; subst. apply NoDup_app_intro; auto.
  - apply IHl; auto. intros; eapply H1; eauto.
  - intros z Iz J. apply in_flat_map in J. destruct J as [y [J1 J2]]. assert (a = y) by (eapply H1; eauto). subst. auto.
Qed.

Section Units.
  Context {D : Type} (blank : D).
  Notation op := (op D).

  (** An exchange is started by writing and sending buffers and by receives. *)
  Inductive unit_ : Type :=
  | LS (q d t b : nat) (v : D)
  | SD (q d t b : nat)
  | RV (q src : nat) (t : option nat) (b : nat).
  Definition uops (u : unit_) : list op :=
    match u with
    | LS q d t b v => [Local [] [b] (fun _ => [v]); Isend q d t b]
    | SD q d t b => [Isend q d t b]
    | RV q s t b => [Irecv q s t b]
    end.
  Definition tok (u : unit_) : opn :=
    match u with LS q _ _ b _ => (q, false, b) | SD q _ _ b => (q, false, b) | RV q _ _ b => (q, true, b) end.
  Definition compatU (e : opn) (u : unit_) : Prop :=
    match u with
    | LS q _ _ b _ => oreq e <> q /\ obuf e <> b
    | SD q _ _ b => oreq e <> q /\ (orcv e = true -> obuf e <> b)
    | RV q _ _ b => oreq e <> q /\ obuf e <> b
    end.
  Lemma rfe_unit : forall u o p, (forall e, In e o -> compatU e u) -> rfe o (uops u ++ p) = rfe (tok u :: o) p.
  Proof.
    intros u o p H.
    assert (F : forall (f : opn -> bool) (x y : option (list opn)), (forall e, In e o -> f e = true) -> (if forallb f o then x else y) = x).
    { intros f x y K. rewrite (proj2 (forallb_forall f o)); auto. }
    destruct u as [q d t b v|q d t b|q s t b]; simpl.
    - rewrite F; [apply F|]; intros e I; destruct (H e I) as [A B]; apply Nat.eqb_neq in A, B; rewrite ?A, B; simpl; rewrite orb_true_r; auto.
    - apply F; intros e I; destruct (H e I) as [A B]; apply Nat.eqb_neq in A; rewrite A; simpl.
      destruct (orcv e); simpl; auto. apply negb_true_iff, Nat.eqb_neq; auto.
    - apply F; intros e I; destruct (H e I) as [A B]; apply Nat.eqb_neq in A, B; rewrite A, B; auto.
  Qed.
  Lemma rfe_units : forall U o p, NoDup U -> (forall u v, In u U -> In v U -> u <> v -> compatU (tok u) v) ->
    (forall e v, In e o -> In v U -> compatU e v) -> rfe o (flat_map uops U ++ p) = rfe (rev (map tok U) ++ o) p.
  Proof.
    induction U as [|u U IH]; intros o p N H HO; [reflexivity|].
    cbn [flat_map]. rewrite <- app_assoc. rewrite rfe_unit by (intros; apply HO; auto; left; auto).
    apply NoDup_cons_iff in N. destruct N as [N1 N2]. rewrite IH; auto.
    - simpl. rewrite <- app_assoc. auto.
    - intros a b Ia Ib. apply H; right; auto.
    - intros e v [<-|Ie] Iv; [apply H; [left; auto|right; auto|intro; subst; contradiction]|apply HO; [auto|right; auto]].
  Qed.
  Lemma rfe_waits : forall W o p, rfe o (map Wait W ++ p) = rfe (filter (fun e => negb (mem (oreq e) W)) o) (p : list op).
  Proof.
    induction W as [|w W IH]; intros o p; simpl.
    - rewrite filter_all; auto.
    - rewrite IH. f_equal. induction o as [|e o IHo]; simpl; auto. destruct (Nat.eqb_spec (oreq e) w); simpl; auto.
      unfold mem in *. simpl. destruct (existsb (Nat.eqb (oreq e)) W); simpl; auto. f_equal. auto.
  Qed.
  Lemma filter_none : forall X (f : X -> bool) l, (forall x, In x l -> f x = false) -> filter f l = [].
  Proof. induction l; simpl; intros; auto. rewrite H by auto. auto. Qed.

  (** * What an exchange does *)
  Definition slist (u : unit_) : list (nat * nat * nat * nat) :=
    match u with LS q d t b _ => [(q, d, t, b)] | SD q d t b => [(q, d, t, b)] | RV _ _ _ _ => [] end.
  Definition rlist (u : unit_) : list rcv := match u with RV q s t b => [mkr q s t b] | _ => [] end.
  Definition wr1 (s : list D) (u : unit_) : list D := match u with LS _ _ _ b v => put b v s | _ => s end.
  Definition writes (U : list unit_) (s : list D) : list D := fold_left wr1 U s.
  Fixpoint number (c : nat) (l : list (nat * nat * nat * nat)) : list (msg D) :=
    match l with
    | [] => []
    | (q, d, t, b) :: l' => mkm c q d t (InBuf b) :: number (S c) l'
    end.
  Lemma number_app : forall a b c, number c (a ++ b) = number c a ++ number (c + length a) b.
  Proof.
    induction a as [|[[[q d] t] e] a IH]; intros b c; simpl; [rewrite Nat.add_0_r; auto|]. f_equal. rewrite IH.
    replace (S c + length a) with (c + S (length a)) by lia. auto.
  Qed.
  Lemma runs_units : forall U rest s a l c k,
    runs blank (mkrk rest (writes U s) (a ++ number c (flat_map slist U)) (l ++ flat_map rlist U) (c + length (flat_map slist U))) k ->
    runs blank (mkrk (flat_map uops U ++ rest) s a l c) k.
  Proof.
    induction U as [|u U IH]; intros rest s a l c k H.
    - simpl in *. rewrite !app_nil_r, Nat.add_0_r in H. auto.
    - destruct u as [q d t b v|q d t b|q sr t b]; simpl in *.
      + apply runs_local, runs_isend. apply IH. simpl. rewrite <- app_assoc. simpl.
        replace (S (c + length (flat_map slist U))) with (c + S (length (flat_map slist U))) by lia. auto.
      + apply runs_isend. apply IH. rewrite <- app_assoc. simpl.
        replace (S (c + length (flat_map slist U))) with (c + S (length (flat_map slist U))) by lia. auto.
      + apply runs_irecv. apply IH. rewrite <- app_assoc. simpl. auto.
  Qed.
  Lemma number_mids : forall l c, map mid (number c l) = seq c (length l).
  Proof. induction l as [|[[[q d] t] b] l IH]; intros; simpl; auto. f_equal. auto. Qed.
  Lemma number_dsts : forall l c, map mdst (number c l) = map (fun '(q, d, t, b) => d) l.
  Proof. induction l as [|[[[q d] t] b] l IH]; intros; simpl; auto. f_equal. auto. Qed.
  Lemma number_in : forall l c m, In m (number c l) -> exists q d t b, In (q, d, t, b) l /\ mdst m = d /\ mtag m = t /\ mpay m = InBuf b.
  Proof.
    induction l as [|[[[q d] t] b] l IH]; intros c m; simpl; [tauto|]. intros [<-|I].
    - exists q, d, t, b. simpl. auto 10.
    - destruct (IH _ _ I) as [q' [d' [t' [b' [I' E]]]]]. exists q', d', t', b'. auto.
  Qed.
  Lemma number_has : forall l c q d t b, In (q, d, t, b) l -> exists m, In m (number c l) /\ mdst m = d /\ mtag m = t /\ mpay m = InBuf b.
  Proof.
    induction l as [|[[[q' d'] t'] b'] l IH]; intros c q d t b; simpl; [tauto|]. intros [E|I].
    - injection E as -> -> -> ->. eexists. split; [left; reflexivity|]. auto.
    - destruct (IH (S c) _ _ _ _ I) as [m [I' E]]. exists m. auto.
  Qed.

  Record xpaired (n : nat) (U : nat -> list unit_) : Prop := mkxp {
    xp_recv : forall r x, r < n -> In x (flat_map rlist (U r)) -> rsrc x < n /\
      exists q t b, In (q, r, t, b) (flat_map slist (U (rsrc x))) /\ tagok (rtag x) t = true;
    xp_send : forall p q d t b, p < n -> In (q, d, t, b) (flat_map slist (U p)) -> d < n /\ exists x, In x (flat_map rlist (U d)) /\ rsrc x = p;
    xp_dsts : forall p, p < n -> NoDup (map (fun '(q, d, t, b) => d) (flat_map slist (U p)));
    xp_srcs : forall p, p < n -> NoDup (map rsrc (flat_map rlist (U p)));
    xp_reqs : forall p, p < n -> NoDup (map rreq (flat_map rlist (U p)));
    xp_bufs : forall p q d t b x, p < n -> In (q, d, t, b) (flat_map slist (U p)) -> In x (flat_map rlist (U p)) -> b <> rbuf x }.

  Lemma does_exchange : forall n U S S' (W : nat -> nat -> D), xpaired n U ->
    (forall p q d t b, p < n -> In (q, d, t, b) (flat_map slist (U p)) -> W p d = get blank (writes (U p) (S p)) b) ->
    (forall r, r < n -> S' r = puts (map rbuf (flat_map rlist (U r))) (map (fun x => W (rsrc x) r) (flat_map rlist (U r))) (writes (U r) (S r))) ->
    does blank n (fun r => flat_map uops (U r)) S S'.
  Proof.
    intros n U S S' W X HW HS eg rest c. exists (fun r => c r + length (flat_map slist (U r))).
    pose (g := fun r => mkrk (rest r) (writes (U r) (S r)) (number (c r) (flat_map slist (U r))) (flat_map rlist (U r))
                             (c r + length (flat_map slist (U r)))).
    eapply steps_trans; [apply (runs_world _ eg n _ g)|].
    { intros r L. apply runs_units. simpl. apply runs_refl. }
    assert (P : paired n g).
    { constructor; unfold g; cbn [sends recvs].
      - intros r x L I. destruct (xp_recv _ _ X r x L I) as [L1 [q [t [b [I1 T]]]]]. split; auto.
        destruct (number_has _ (c (rsrc x)) _ _ _ _ I1) as [m [J [E1 [E2 E3]]]]. exists m. rewrite E1, E2. auto.
      - intros p m L I. apply number_in in I. destruct I as [q [d [t [b [I [E1 [E2 E3]]]]]]]. rewrite E1.
        apply (xp_send _ _ X p q d t b); auto.
      - intros p L. rewrite number_dsts. apply (xp_dsts _ _ X); auto.
      - intros p L. apply (xp_srcs _ _ X); auto.
      - intros p L. rewrite number_mids. apply seq_NoDup.
      - intros p L. apply (xp_reqs _ _ X); auto.
      - intros p m b x L I E J. apply number_in in I. destruct I as [q [d [t [b' [I [E1 [E2 E3]]]]]]].
        assert (b = b') by congruence. subst. eapply (xp_bufs _ _ X); eauto. }
    eapply steps_trans; [apply deliver_all; exact P|].
    erewrite world_ext; [apply steps_refl|]. intros r L. unfold settled. f_equal. rewrite HS by auto.
    unfold g at 1 2 4. cbn [recvs store]. f_equal. apply map_ext_in. intros x I.
    destruct (xp_recv _ _ X r x L I) as [L1 [q [t [b [I1 T]]]]]. rewrite (HW _ _ _ _ _ L1 I1).
    unfold V. destruct (number_has _ (c (rsrc x)) _ _ _ _ I1) as [m [J [E1 [E2 E3]]]].
    rewrite (msg_to_spec _ r m); auto.
    - unfold value. rewrite E3. auto.
    - apply (pr_dsts _ _ P); auto.
  Qed.
  Lemma does_waits : forall n (W : nat -> list nat) S, does blank n (fun r => map Wait (W r)) S S.
  Proof.
    intros n W S eg rest c. exists c. apply runs_world. intros r L. induction (W r); simpl; [apply runs_refl|].
    apply runs_wait. auto.
  Qed.
  Lemma get_puts_in : forall bs vs s b v, NoDup bs -> In (b, v) (combine bs vs) -> b < length s -> get blank (puts bs vs s) b = v.
  Proof.
    induction bs as [|b0 bs IH]; destruct vs as [|v0 vs]; simpl; intros s b v N I L; try tauto.
    inversion N; subst. destruct I as [E|I].
    - injection E as -> ->. rewrite get_puts by auto. apply get_put_same; auto.
    - apply IH; auto. rewrite put_length. auto.
  Qed.
  Lemma in_combine_map : forall X (f : X -> nat) (g : X -> D) l x, In x l -> In (f x, g x) (combine (map f l) (map g l)).
  Proof. induction l; simpl; intros; [tauto|]. destruct H as [->|H]; auto. Qed.
End Units.
Arguments unit_ : clear implicits.

(** * [transpose_blocks] *)
Section Transpose.
  Context {D : Type} (blank : D) (n : nat) (block : nat -> nat -> D).
  Definition tr_units (r : nat) : list (unit_ D) :=
    flat_map (fun ir => flat_map (fun ic =>
      (if r =? ir then [LS ic ic (transpose_tag n ir ic) ic (block ir ic)] else [])
      ++ (if r =? ic then [RV (n + ir) ir (Some (transpose_tag n ir ic)) (n + ir)] else [])) (seq 0 n)) (seq 0 n).
  Lemma tr_uops : forall r, flat_map uops (tr_units r) = flat_map (fun ir => flat_map (tr_start n block r ir) (seq 0 n)) (seq 0 n).
  Proof.
    intros r. unfold tr_units. rewrite flat_map_flat_map. apply flat_map_ext_in. intros ir _.
    rewrite flat_map_flat_map. apply flat_map_ext_in. intros ic _. unfold tr_start. rewrite flat_map_app.
    f_equal; [destruct (r =? ir); auto|destruct (r =? ic); auto].
  Qed.
  Lemma tr_in : forall r u, r < n -> In u (tr_units r) <->
    (exists ic, ic < n /\ u = LS ic ic (transpose_tag n r ic) ic (block r ic)) \/
    (exists ir, ir < n /\ u = RV (n + ir) ir (Some (transpose_tag n ir r)) (n + ir)).
  Proof.
    intros r u L. unfold tr_units. rewrite in_flat_map. split.
    - intros [ir [I1 I]]. rewrite in_flat_map in I. destruct I as [ic [I2 I]]. apply in_seq in I1, I2. apply in_app_or in I.
      destruct I as [I|I].
      + destruct (Nat.eqb_spec r ir) as [->|]; simpl in I; [|tauto]. destruct I as [<-|[]]. left. exists ic. split; auto; lia.
      + destruct (Nat.eqb_spec r ic) as [->|]; simpl in I; [|tauto]. destruct I as [<-|[]]. right. exists ir. split; auto; lia.
    - intros [[ic [L1 ->]]|[ir [L1 ->]]].
      + exists r. split; [apply in_seq; lia|]. apply in_flat_map. exists ic. split; [apply in_seq; lia|]. rewrite Nat.eqb_refl. simpl. auto.
      + exists ir. split; [apply in_seq; lia|]. apply in_flat_map. exists r. split; [apply in_seq; lia|].
        apply in_or_app. right. rewrite Nat.eqb_refl. simpl. auto.
  Qed.
  Lemma tr_slist : forall r, r < n -> flat_map slist (tr_units r) = map (fun ic => (ic, ic, transpose_tag n r ic, ic)) (seq 0 n).
  Proof.
    intros r L. unfold tr_units. rewrite flat_map_flat_map.
    rewrite (flat_map_ext_in _ _ _ (fun ir => if r =? ir then map (fun ic => (ic, ic, transpose_tag n ir ic, ic)) (seq 0 n) else [])).
    - apply flat_map_pick_seq with (f := fun ir => map (fun ic => (ic, ic, transpose_tag n ir ic, ic)) (seq 0 n)); auto.
    - intros ir _. rewrite flat_map_flat_map. destruct (r =? ir).
      + rewrite <- flat_map_map'. apply flat_map_ext_in. intros ic _. destruct (r =? ic); auto.
      + rewrite (flat_map_ext_in _ _ _ (fun _ => [])); [apply flat_map_none|]. intros ic _. destruct (r =? ic); auto.
  Qed.
  Lemma tr_rlist : forall r, r < n -> flat_map rlist (tr_units r) = map (fun ir => mkr (n + ir) ir (Some (transpose_tag n ir r)) (n + ir)) (seq 0 n).
  Proof.
    intros r L. unfold tr_units. rewrite flat_map_flat_map. rewrite <- flat_map_map'. apply flat_map_ext_in. intros ir _.
    rewrite flat_map_flat_map.
    rewrite <- (flat_map_pick_seq _ (fun ic => [mkr (n + ir) ir (Some (transpose_tag n ir ic)) (n + ir)]) r n L).
    apply flat_map_ext_in. intros ic _. destruct (r =? ir), (r =? ic); auto.
  Qed.
  Lemma writes_get : forall U s b, (forall u, In u U -> match u with LS _ _ _ b' _ => b' <> b | _ => True end) ->
    get blank (writes U s) b = get blank s b.
  Proof.
    induction U as [|u U IH]; simpl; intros s b H; auto. rewrite IH by (intros v J; apply H; right; exact J). specialize (H u (or_introl eq_refl)).
    destruct u; simpl; auto. apply get_put_other. auto.
  Qed.
  Lemma writes_length : forall U (s : list D), length (writes U s) = length s.
  Proof. induction U as [|u U IH]; simpl; intros; auto. rewrite IH. destruct u; simpl; auto. apply put_length. Qed.
  Lemma writes_hit : forall U s b v q d t, (forall q' d' t' v', In (LS q' d' t' b v') U -> v' = v) ->
    In (LS q d t b v) U -> b < length s -> get blank (writes U s) b = v.
  Proof.
    induction U as [|u U IH]; simpl; intros s b v q d t H I L; [tauto|].
    assert (X : (exists q' d' t' v', In (LS q' d' t' b v') U) \/ forall u, In u U -> match u with LS _ _ _ b' _ => b' <> b | _ => True end).
    { clear. induction U as [|u U IH]; [right; simpl; tauto|]. destruct IH as [[q' [d' [t' [v' I]]]]|IH].
      - left. exists q', d', t', v'. right; auto.
      - destruct u as [q d t b' v| |]; try (right; intros u [<-|J]; [exact I|apply IH; exact J]).
        destruct (Nat.eq_dec b' b) as [->|N]; [left; exists q, d, t, v; left; auto|right; intros u [<-|J]; [exact N|apply IH; exact J]]. }
    destruct X as [[q' [d' [t' [v' I']]]]|X].
    - assert (v' = v) by (eapply H; eauto). subst. eapply (IH _ _ _ q' d' t'); eauto.
      destruct u; simpl; rewrite ?put_length; auto.
    - rewrite writes_get by auto. destruct I as [->|I].
      + simpl. apply get_put_same; auto.
      + exfalso. apply X in I. auto.
  Qed.

  (** The buffers at the end. *)
  Definition tr_final (s : nat -> list D) (r : nat) : list D :=
    puts (map (fun ir => n + ir) (seq 0 n)) (map (fun ir => block ir r) (seq 0 n)) (writes (tr_units r) (s r)).
  Lemma tr_does : forall s, (forall r, r < n -> n + n <= length (s r)) -> does blank n (transpose_prog n block) s (tr_final s).
  Proof.
    intros s Ls. unfold transpose_prog.
    apply (does_app blank n (fun r => flat_map (fun ir => flat_map (tr_start n block r ir) (seq 0 n)) (seq 0 n))
      (fun r => [Barrier] ++ map Wait (seq 0 n) ++ [Barrier] ++ map (fun ir => Wait (n + ir)) (seq 0 n)) s (tr_final s)).
    - apply does_ext with (P := fun r => flat_map uops (tr_units r)) (S := s) (S' := tr_final s); auto; [|intros; apply tr_uops].
      apply does_exchange with (W := block).
      + constructor.
        * intros r x L I. rewrite tr_rlist in I by auto. apply in_map_iff in I. destruct I as [ir [<- I]]. apply in_seq in I.
          cbn [rsrc rtag]. split; [lia|]. exists r, (transpose_tag n ir r), r. rewrite tr_slist by lia. split; [|simpl; apply Nat.eqb_refl].
          apply in_map_iff. exists r. split; auto. apply in_seq. lia.
        * intros p q d t b L I. rewrite tr_slist in I by auto. apply in_map_iff in I. destruct I as [ic [E I]]. apply in_seq in I.
          injection E as <- <- <- <-. split; [lia|]. rewrite tr_rlist by lia. eexists. split; [|].
          -- apply in_map_iff. exists p. split; [reflexivity|apply in_seq; lia].
          -- auto.
        * intros p L. rewrite tr_slist by auto. rewrite map_map, map_id. apply seq_NoDup.
        * intros p L. rewrite tr_rlist by auto. rewrite map_map. simpl. rewrite map_id. apply seq_NoDup.
        * intros p L. rewrite tr_rlist by auto. rewrite map_map. simpl. apply FinFun.Injective_map_NoDup; [|apply seq_NoDup].
          intros a b E. lia.
        * intros p q d t b x L I J. rewrite tr_slist in I by auto. rewrite tr_rlist in J by auto.
          apply in_map_iff in I, J. destruct I as [ic [E I]], J as [ir [<- J]]. injection E as <- <- <- <-. apply in_seq in I, J. simpl. lia.
      + intros p q d t b L I. rewrite tr_slist in I by auto. apply in_map_iff in I. destruct I as [ic [E I]]. apply in_seq in I.
        injection E as <- <- <- <-. symmetry. apply (writes_hit _ _ _ _ ic ic (transpose_tag n p ic)).
        * intros q' d' t' v' J. apply tr_in in J; auto. destruct J as [[ic' [_ E]]|[ir [_ E]]]; congruence.
        * apply tr_in; auto. left. exists ic. split; auto. lia.
        * specialize (Ls p L). lia.
      + intros r L. unfold tr_final. rewrite tr_rlist by auto. rewrite !map_map. auto.
    - apply (does_app blank n (fun r => [Barrier]) (fun r => map Wait (seq 0 n) ++ [Barrier] ++ map (fun ir => Wait (n + ir)) (seq 0 n)) _ (tr_final s)).
      + apply does_barrier.
      + apply (does_app blank n (fun r => map Wait (seq 0 n)) (fun r => [Barrier] ++ map (fun ir => Wait (n + ir)) (seq 0 n)) _ (tr_final s)).
        * apply does_waits.
        * apply (does_app blank n (fun r => [Barrier]) (fun r => map (fun ir => Wait (n + ir)) (seq 0 n)) _ (tr_final s)).
          -- apply does_barrier.
          -- apply does_ext with (P := fun r => map Wait (map (fun ir => n + ir) (seq 0 n))) (S := tr_final s) (S' := tr_final s); auto.
             apply does_waits. intros. apply map_map.
  Qed.
  Lemma tr_nodup : forall r, r < n -> NoDup (tr_units r).
  Proof.
    intros r L. unfold tr_units. apply NoDup_flat_map; [apply seq_NoDup| |].
    - intros ir I. apply in_seq in I. apply NoDup_flat_map; [apply seq_NoDup| |].
      + intros ic _. destruct (r =? ir), (r =? ic); simpl; repeat constructor; simpl; intuition; discriminate.
      + intros x y z _ _ Ix Iy. apply in_app_or in Ix, Iy. revert Ix Iy.
        destruct (r =? ir), (Nat.eqb_spec r x), (Nat.eqb_spec r y); simpl; intuition; subst; auto; congruence.
    - intros x y z _ _ Ix Iy. apply in_flat_map in Ix, Iy. destruct Ix as [i [_ Ix]], Iy as [j [_ Iy]]. apply in_app_or in Ix, Iy. revert Ix Iy.
      destruct (Nat.eqb_spec r x), (Nat.eqb_spec r y), (Nat.eqb_spec r i), (Nat.eqb_spec r j); simpl; intuition; subst; auto; try congruence;
        match goal with H : RV ?a _ _ _ = RV ?b _ _ _ |- _ => injection H; intros; lia | _ => idtac end.
  Qed.
  Lemma rfe_tr : forall r, r < n -> rfe [] (transpose_prog n block r) = Some [].
  Proof.
    intros r L. unfold transpose_prog. rewrite <- tr_uops. rewrite rfe_units.
    - cbn [app rfe]. rewrite rfe_waits. cbn [app rfe].
      replace (map (fun ir => @Wait D (n + ir)) (seq 0 n)) with (map (@Wait D) (map (fun ir => n + ir) (seq 0 n)) ++ []) by (rewrite map_map, app_nil_r; auto).
      rewrite rfe_waits. simpl. f_equal. apply filter_none. intros e I. apply filter_In in I. destruct I as [I M].
      rewrite app_nil_r in I. apply in_rev in I. apply in_map_iff in I. destruct I as [u [<- I]]. apply tr_in in I; auto.
      apply negb_false_iff. apply negb_true_iff in M. destruct I as [[ic [Li ->]]|[ir [Li ->]]]; unfold oreq in *; simpl in *.
      + apply mem_false in M. exfalso. apply M. apply in_seq. lia.
      + destruct (mem (n + ir) (map (fun ir => n + ir) (seq 0 n))) eqn:E; auto. apply mem_false in E. exfalso. apply E.
        apply in_map_iff. exists ir. split; auto. apply in_seq. lia.
    - apply tr_nodup; auto.
    - intros u v Iu Iv N. apply tr_in in Iu, Iv; auto. destruct Iu as [[a [La ->]]|[a [La ->]]], Iv as [[b [Lb ->]]|[b [Lb ->]]];
        unfold compatU, tok, oreq, obuf; simpl; try lia.
      + assert (a <> b) by congruence. lia.
      + assert (a <> b) by congruence. lia.
    - intros e v [].
  Qed.
End Transpose.

(** * [gather_local] *)
Section Gather.
  Context {D : Type} (blank : D) (n : nat) (nonempty : nat -> bool) (piece : nat -> D).
  Notation ne := (filter nonempty (seq 0 n)).
  Lemma ne_in : forall i, In i ne <-> i < n /\ nonempty i = true.
  Proof. intros. rewrite filter_In, in_seq. intuition lia. Qed.
  Definition gl_units (root r : nat) : list (unit_ D) :=
    (if nonempty r then [SD 0 root 0 0] else [])
    ++ (if r =? root then map (fun i => RV (1 + i) i (Some 0) (1 + i)) ne else []).
  Lemma gl_slist : forall root r, flat_map slist (gl_units root r) = if nonempty r then [(0, root, 0, 0)] else [].
  Proof.
    intros. unfold gl_units. rewrite flat_map_app.
    replace (flat_map slist (if r =? root then map (fun i => @RV D (1 + i) i (Some 0) (1 + i)) ne else [])) with (@nil (nat * nat * nat * nat)).
    - rewrite app_nil_r. destruct (nonempty r); auto.
    - destruct (r =? root); auto. induction ne; simpl; auto.
  Qed.
  Lemma gl_rlist : forall root r, flat_map rlist (gl_units root r) = if r =? root then map (fun i => mkr (1 + i) i (Some 0) (1 + i)) ne else [].
  Proof.
    intros. unfold gl_units. rewrite flat_map_app.
    replace (flat_map rlist (if nonempty r then [@SD D 0 root 0 0] else [])) with (@nil rcv) by (destruct (nonempty r); auto).
    destruct (r =? root); auto. simpl. induction ne; simpl; auto. f_equal. auto.
  Qed.
  Lemma gl_writes : forall root r s, writes (gl_units root r) s = s.
  Proof.
    intros. unfold gl_units, writes. rewrite fold_left_app.
    replace (fold_left wr1 (if nonempty r then [@SD D 0 root 0 0] else []) s) with s by (destruct (nonempty r); auto).
    destruct (r =? root); auto. induction ne; simpl; auto.
  Qed.
  Definition full (s : list D) : list D := puts (map (fun i => 1 + i) ne) (map piece ne) s.
  Lemma gl_does : forall root s, root < n -> (forall r, r < n -> nonempty r = true -> get blank (s r) 0 = piece r) ->
    does blank n (gather_local_prog n nonempty root) s (fun r => if r =? root then full (s r) else s r).
  Proof.
    intros root s Lr Hp.
    apply does_ext with (P := fun r => flat_map uops (gl_units root r) ++
       map Wait (if r =? root then map (fun i => 1 + i) ne ++ (if nonempty r then [0] else []) else if nonempty r then [0] else []))
       (S := s) (S' := fun r => if r =? root then full (s r) else s r); auto.
    - apply does_app with (S' := fun r => if r =? root then full (s r) else s r); [|apply does_waits].
      apply does_exchange with (W := fun p _ => piece p).
      + constructor.
        * intros r x L I. rewrite gl_rlist in I. destruct (Nat.eqb_spec r root) as [->|]; [|destruct I].
          apply in_map_iff in I. destruct I as [i [<- I]]. apply ne_in in I. destruct I as [I1 I2]. cbn [rsrc rtag]. split; auto.
          exists 0, 0, 0. rewrite gl_slist, I2. split; [left; auto|auto].
        * intros p q d t b L I. rewrite gl_slist in I. destruct (nonempty p) eqn:E; [|destruct I]. destruct I as [I|[]].
          injection I as <- <- <- <-. split; auto. rewrite gl_rlist, Nat.eqb_refl. eexists. split.
          -- apply in_map_iff. exists p. split; [reflexivity|]. apply ne_in. auto.
          -- auto.
        * intros p L. rewrite gl_slist. destruct (nonempty p); simpl; repeat constructor; auto.
        * intros p L. rewrite gl_rlist. destruct (p =? root); [|constructor]. rewrite map_map. simpl. rewrite map_id. apply NoDup_filter, seq_NoDup.
        * intros p L. rewrite gl_rlist. destruct (p =? root); [|constructor]. rewrite map_map. cbn [rreq].
          apply FinFun.Injective_map_NoDup; [|apply NoDup_filter, seq_NoDup]. intros a b E. lia.
        * intros p q d t b x L I J. rewrite gl_slist in I. destruct (nonempty p); [|destruct I]. destruct I as [I|[]]. injection I as <- <- <- <-.
          rewrite gl_rlist in J. destruct (p =? root); [|destruct J]. apply in_map_iff in J. destruct J as [i [<- _]]. simpl. lia.
      + intros p q d t b L I. rewrite gl_slist in I. destruct (nonempty p) eqn:E; [|destruct I]. destruct I as [I|[]]. injection I as <- <- <- <-.
        rewrite gl_writes. symmetry. auto.
      + intros r L. rewrite gl_rlist, gl_writes. destruct (r =? root); auto. unfold full. rewrite !map_map. auto.
    - intros r L. unfold gather_local_prog, gl_units. rewrite flat_map_app, <- app_assoc. f_equal; [destruct (nonempty r); auto|].
      destruct (r =? root).
      + rewrite map_app, map_map, <- app_assoc. f_equal; [|f_equal; destruct (nonempty r); auto].
        induction ne; simpl; auto. f_equal. auto.
      + simpl. destruct (nonempty r); auto.
  Qed.
  Lemma full_length : forall (s : list D), length (full s) = length s.
  Proof.
    intros. unfold full. generalize (map (fun i => 1 + i) ne) (map piece ne). intros bs. revert s.
    induction bs; destruct l; simpl; auto. rewrite IHbs. apply put_length.
  Qed.
  Lemma full_zero : forall s, get blank (full s) 0 = get blank s 0.
  Proof. intros. apply get_puts. intros I. apply in_map_iff in I. destruct I as [i [E _]]. lia. Qed.
  Lemma full_section : forall s i, i < n -> n < length s -> get blank (full s) (1 + i) = if nonempty i then piece i else get blank s (1 + i).
  Proof.
    intros s i L Ls. destruct (nonempty i) eqn:E.
    - apply get_puts_in; [| |lia].
      + apply FinFun.Injective_map_NoDup; [|apply NoDup_filter, seq_NoDup]. intros a b Eb. lia.
      + apply (in_combine_map _ (fun i => 1 + i) piece). apply ne_in. auto.
    - apply get_puts. intros I. apply in_map_iff in I. destruct I as [j [Ej I]]. apply ne_in in I. assert (j = i) by lia. subst. destruct I; congruence.
  Qed.
  Lemma common_does : forall s, (forall r, r < n -> nonempty r = true -> get blank (s r) 0 = piece r) ->
    does blank n (to_common_prog n nonempty) s (fun r => full (s r)).
  Proof.
    intros s Hp. apply does_ext with (P := to_common_prog n nonempty) (S := fun r => if r <? 0 then full (s r) else s r)
      (S' := fun r => if r <? n then full (s r) else s r); auto.
    - apply (does_loop blank n (fun root r => gather_local_prog n nonempty root r) (fun j r => if r <? j then full (s r) else s r) n).
      intros j Lj. eapply does_ext; [apply (gl_does j (fun r => if r <? j then full (s r) else s r) Lj)| | |]; auto.
      + intros r L E. destruct (r <? j); auto. rewrite full_zero. auto.
      + intros r L. cbv beta. destruct (Nat.eqb_spec r j) as [->|N].
        * rewrite Nat.ltb_irrefl. replace (j <? j + 1) with true by (symmetry; apply Nat.ltb_lt; lia). auto.
        * destruct (Nat.ltb_spec r j), (Nat.ltb_spec r (j + 1)); auto; lia.
    - intros r L. rewrite (proj2 (Nat.ltb_lt r n)); auto.
  Qed.
  Lemma rfe_gl : forall root r, rfe [] (gather_local_prog (D := D) n nonempty root r) = Some [].
  Proof.
    intros root r. unfold gather_local_prog.
    replace ((if nonempty r then [Isend 0 root 0 0] else []) ++
       (if r =? root then map (fun i => Irecv (1 + i) i (Some 0) (1 + i)) ne ++ map (fun i => Wait (1 + i)) ne else []) ++
       (if nonempty r then [Wait 0] else []))
      with (flat_map uops (gl_units root r) ++
       map Wait ((if r =? root then map (fun i => 1 + i) ne else []) ++ (if nonempty r then [0] else [])) ++ []).
    - rewrite rfe_units.
      + rewrite rfe_waits. simpl. f_equal. apply filter_none. intros e I. apply negb_false_iff.
        rewrite app_nil_r in I. apply in_rev in I. apply in_map_iff in I. destruct I as [u [<- I]].
        match goal with |- ?b = true => destruct b eqn:Eb; auto end. apply mem_false in Eb. exfalso. apply Eb. clear Eb.
        unfold gl_units in I. apply in_app_or in I. apply in_or_app. destruct I as [I|I].
        * destruct (nonempty r); [|destruct I]. destruct I as [<-|[]]. right. left. auto.
        * destruct (r =? root); [|destruct I]. apply in_map_iff in I. destruct I as [i [<- I]]. left. apply in_map_iff. exists i. auto.
      + unfold gl_units. apply NoDup_app_intro.
        * destruct (nonempty r); repeat constructor; auto.
        * destruct (r =? root); [|constructor]. apply FinFun.Injective_map_NoDup; [|apply NoDup_filter, seq_NoDup]. intros a b E. congruence.
        * intros x I J. destruct (nonempty r); [|destruct I]. destruct I as [<-|[]]. destruct (r =? root); [|destruct J].
          apply in_map_iff in J. destruct J as [i [E _]]. discriminate.
      + intros u v Iu Iv N. unfold gl_units in Iu, Iv. apply in_app_or in Iu, Iv.
        destruct (nonempty r), (r =? root); simpl in Iu, Iv; rewrite ?in_map_iff in Iu, Iv;
          destruct Iu as [Iu|Iu], Iv as [Iv|Iv];
          repeat match goal with H : _ \/ False |- _ => destruct H as [H|[]] | H : False |- _ => destruct H
            | H : exists _, _ |- _ => destruct H as [? [H ?]] end; subst; try congruence;
          unfold compatU, tok, oreq, obuf, orcv; simpl; split; try congruence; try lia.
      + intros e v [].
    - unfold gl_units. rewrite flat_map_app, <- !app_assoc, app_nil_r. f_equal; [destruct (nonempty r); auto|].
      rewrite map_app. destruct (r =? root).
      + rewrite map_map, <- app_assoc. f_equal; [|f_equal; destruct (nonempty r); auto].
        induction ne; simpl; auto. f_equal. auto.
      + simpl. destruct (nonempty r); auto.
  Qed.
  Lemma rfe_common : forall r, rfe [] (to_common_prog (D := D) n nonempty r) = Some [].
  Proof.
    intros r. unfold to_common_prog. generalize (seq 0 n) at 1. intros l. 
    induction l as [|j l IH]; [reflexivity|]. cbn [flat_map]. erewrite rfe_app; [exact IH|apply rfe_gl].
  Qed.
End Gather.

(** * The check of the environment *)
Section Check.
  Context {D : Type} (blank : D) (n : nat).
  Definition ck_units (r : nat) : list (unit_ D) :=
    flat_map (fun i => [RV i (recv_from n r i) None (1 + recv_from n r i); SD (n + i) (send_to n r i) 0 0]) (seq 0 n).
  Lemma ck_slist : forall r, flat_map slist (ck_units r) = map (fun i => (n + i, send_to n r i, 0, 0)) (seq 0 n).
  Proof. intros. unfold ck_units. rewrite flat_map_flat_map. apply flat_map_map'. Qed.
  Lemma ck_rlist : forall r, flat_map rlist (ck_units r) = map (fun i => mkr i (recv_from n r i) None (1 + recv_from n r i)) (seq 0 n).
  Proof. intros. unfold ck_units. rewrite flat_map_flat_map. apply flat_map_map'. Qed.
  Lemma ck_writes : forall r s, writes (ck_units r) s = s.
  Proof. intros. unfold ck_units, writes. induction (seq 0 n); simpl; auto. Qed.
  Lemma ck_in : forall r u, In u (ck_units r) <-> (exists i, i < n /\ u = RV i (recv_from n r i) None (1 + recv_from n r i))
    \/ (exists i, i < n /\ u = SD (n + i) (send_to n r i) 0 0).
  Proof.
    intros. unfold ck_units. rewrite in_flat_map. split.
    - intros [i [I [<-|[<-|[]]]]]; apply in_seq in I; [left|right]; exists i; split; auto; lia.
    - intros [[i [L ->]]|[i [L ->]]]; exists i; split; try (apply in_seq; lia); simpl; auto.
  Qed.
  Lemma send_inj : forall r i j, r < n -> i < n -> j < n -> send_to n r i = send_to n r j -> i = j.
  Proof.
    intros r i j Lr Li Lj E. destruct (partners n r i Lr Li) as [P1 _]. destruct (each_pair_once n r (send_to n r i) Lr P1) as [k [_ [_ U]]].
    rewrite (U i Li eq_refl). rewrite (U j Lj); auto.
  Qed.
  Lemma recv_inj : forall r i j, r < n -> i < n -> j < n -> recv_from n r i = recv_from n r j -> i = j.
  Proof.
    intros r i j Lr Li Lj E. destruct (partners n r i Lr Li) as [_ [P2 [_ P4]]]. destruct (partners n r j Lr Lj) as [_ [_ [_ Q4]]].
    apply (send_inj (recv_from n r i)); auto. rewrite P4. rewrite E. auto.
  Qed.
  Lemma NoDup_map_in : forall X Y (f : X -> Y) l, NoDup l -> (forall a b, In a l -> In b l -> f a = f b -> a = b) -> NoDup (map f l).
  Proof.
    induction l; simpl; intros; [constructor|]. inversion H; subst. constructor; [|apply IHl; auto; intros; apply H0; auto].
    intros I. apply in_map_iff in I. destruct I as [x [E I]]. assert (a = x) by (apply H0; auto). subst. auto.
  Qed.
  Definition ck_final (s : nat -> list D) (r : nat) : list D :=
    puts (map (fun i => 1 + recv_from n r i) (seq 0 n)) (map (fun i => get blank (s (recv_from n r i)) 0) (seq 0 n)) (s r).
  Lemma ck_does : forall s, does blank n (check_prog n) s (ck_final s).
  Proof.
    intros s. unfold check_prog.
    apply (does_app blank n (fun r => flat_map (fun i => [Irecv i (recv_from n r i) None (1 + recv_from n r i);
                      Isend (n + i) (send_to n r i) 0 0]) (seq 0 n)) (fun r => map Wait (seq 0 n) ++ [Barrier]) s (ck_final s)).
    - apply does_ext with (P := fun r => flat_map uops (ck_units r)) (S := s) (S' := ck_final s); auto.
      2:{ intros r _. unfold ck_units. rewrite flat_map_flat_map. apply flat_map_ext_in. auto. }
      apply does_exchange with (W := fun p _ => get blank (s p) 0).
      + constructor.
        * intros r x L I. rewrite ck_rlist in I. apply in_map_iff in I. destruct I as [i [<- I]]. apply in_seq in I. cbn [rsrc rtag].
          destruct (partners n r i L) as [P1 [P2 [P3 P4]]]; [lia|]. split; auto. exists (n + i), 0, 0. rewrite ck_slist. split; auto.
          apply in_map_iff. exists i. rewrite P4. split; auto. apply in_seq. lia.
        * intros p q d t b L I. rewrite ck_slist in I. apply in_map_iff in I. destruct I as [i [E I]]. apply in_seq in I. injection E as <- <- <- <-.
          destruct (partners n p i L) as [P1 [P2 [P3 P4]]]; [lia|]. split; auto. rewrite ck_rlist.
          exists (mkr i (recv_from n (send_to n p i) i) None (1 + recv_from n (send_to n p i) i)). split; auto.
          apply in_map_iff. exists i. split; auto. apply in_seq. lia.
        * intros p L. rewrite ck_slist, map_map. apply NoDup_map_in; [apply seq_NoDup|]. intros a b Ia Ib. apply in_seq in Ia, Ib. apply send_inj; lia.
        * intros p L. rewrite ck_rlist, map_map. cbn [rsrc]. apply NoDup_map_in; [apply seq_NoDup|]. intros a b Ia Ib. apply in_seq in Ia, Ib. apply recv_inj; lia.
        * intros p L. rewrite ck_rlist, map_map. cbn [rreq]. rewrite map_id. apply seq_NoDup.
        * intros p q d t b x L I J. rewrite ck_slist in I. rewrite ck_rlist in J. apply in_map_iff in I, J.
          destruct I as [i [E _]], J as [j [<- _]]. injection E as <- <- <- <-. simpl. lia.
      + intros p q d t b L I. rewrite ck_slist in I. apply in_map_iff in I. destruct I as [i [E _]]. injection E as <- <- <- <-.
        rewrite ck_writes. auto.
      + intros r L. rewrite ck_rlist, ck_writes, !map_map. auto.
    - apply (does_app blank n (fun r => map Wait (seq 0 n)) (fun r => [Barrier]) _ (ck_final s)); [apply does_waits|apply does_barrier].
  Qed.
  Lemma ck_get : forall s r p, r < n -> p < n -> n < length (s r) -> get blank (ck_final s r) (1 + p) = get blank (s p) 0.
  Proof.
    intros s r p Lr Lp Ls. destruct (receive_from_each n r p Lr Lp) as [i [Li E]]. unfold ck_final. apply get_puts_in; [| |lia].
    - apply NoDup_map_in; [apply seq_NoDup|]. intros a b Ia Ib Eb. apply in_seq in Ia, Ib. apply (recv_inj r); lia.
    - rewrite <- E. apply (in_combine_map _ (fun i => 1 + recv_from n r i) (fun i => get blank (s (recv_from n r i)) 0)). apply in_seq. lia.
  Qed.
  Lemma rfe_ck : forall r, r < n -> exists o, rfe [] (check_prog (D := D) n r) = Some o.
  Proof.
    intros r L. unfold check_prog.
    replace (flat_map (fun i => [Irecv i (recv_from n r i) None (1 + recv_from n r i); Isend (n + i) (send_to n r i) 0 0]) (seq 0 n))
      with (flat_map uops (ck_units r)) by (unfold ck_units; rewrite flat_map_flat_map; apply flat_map_ext_in; auto).
    rewrite rfe_units.
    - rewrite rfe_waits. simpl. eauto.
    - unfold ck_units. apply NoDup_flat_map; [apply seq_NoDup| |].
      + intros. repeat constructor; simpl; intuition; discriminate.
      + intros x y z Ix Iy [<-|[<-|[]]] [E|[E|[]]]; try discriminate; injection E; intros; lia.
    - intros u v Iu Iv N. apply ck_in in Iu, Iv. destruct Iu as [[a [La ->]]|[a [La ->]]], Iv as [[b [Lb ->]]|[b [Lb ->]]];
        unfold compatU, tok, oreq, obuf, orcv; simpl; split; try lia; try congruence.
      + intros E. apply N. assert (a = b) by (apply (recv_inj r); auto; lia). congruence.
      + intros E. apply N. assert (a = b) by lia. congruence.
    - intros e v [].
  Qed.
End Check.
