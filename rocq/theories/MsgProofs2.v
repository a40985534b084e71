(** Local confluence, termination, and the unique outcome. *)
From Coq Require Import List Arith Bool Lia Wf_nat.
From Verif Require Import MsgModel MsgProofs.
Import ListNotations.
Open Scope nat_scope.

Section Conf2.
  Context {D : Type} (blank : D).
  Notation rk := (rk D). Notation op := (op D). Notation msg := (msg D).
  Notation inv := (@inv D). Notation rinv := (@rinv D).
  Notation exec := (exec blank). Notation copy := (copy blank). Notation value := (value blank).

  Definition SP (k : rk) (q i : nat) (t : option nat) (tg : nat) (v : D) : Prop :=
    exists m l1 l2, sends k = l1 ++ m :: l2 /\ mid m = i /\ mdst m = q /\ mtag m = tg /\ value k m = v
      /\ forall m', In m' l1 -> mdst m' = q -> tagok t (mtag m') = false.
  Definition RP (k : rk) (p rq b : nat) (t : option nat) (tg : nat) : Prop :=
    exists l3 l4, recvs k = l3 ++ mkr rq p t b :: l4 /\ forall x', In x' l3 -> rsrc x' = p -> tagok (rtag x') tg = false.
  Definition M (st : list rk) (p q i rq b : nat) (v : D) : Prop :=
    exists kp kq t tg, nth_error st p = Some kp /\ nth_error st q = Some kq /\ tagok t tg = true
      /\ SP kp q i t tg v /\ RP kq p rq b t tg.
  Definition mstep (p q i rq b : nat) (v : D) (st : list rk) : list rk := upd q (take rq b v) (upd p (leave i) st).
  Definition CP (k : rk) (i : nat) : Prop := exists m b, In m (sends k) /\ mpay m = InBuf b /\ mid m = i.

  Lemma M_step : forall eg st p q i rq b v, M st p q i rq b v -> step blank eg st (mstep p q i rq b v st).
  Proof.
    intros eg st p q i rq b v [kp [kq [t [tg [E1 [E2 [T [[m [l1 [l2 [S1 [S2 [S3 [S4 [S5 S6]]]]]]]] [l3 [l4 [R1 R2]]]]]]]]]]].
    unfold mstep. subst. eapply (step_match blank eg st p (mdst m) kp kq m (mkr rq p t b)); eauto.
  Qed.
  Lemma step_M : forall st p q kp kq (m : msg) x l1 l2 l3 l4,
      nth_error st p = Some kp -> nth_error st q = Some kq ->
      sends kp = l1 ++ m :: l2 -> recvs kq = l3 ++ x :: l4 ->
      mdst m = q -> rsrc x = p -> tagok (rtag x) (mtag m) = true ->
      (forall m', In m' l1 -> mdst m' = q -> tagok (rtag x) (mtag m') = false) ->
      (forall x', In x' l3 -> rsrc x' = p -> tagok (rtag x') (mtag m) = false) ->
      M st p q (mid m) (rreq x) (rbuf x) (value kp m).
  Proof.
    intros. exists kp, kq, (rtag x), (mtag m). split; [auto|split; [auto|split; [auto|split]]].
    - exists m, l1, l2. auto 10.
    - exists l3, l4. split; auto. rewrite H2. subst p. destruct x; auto.
  Qed.

  (** * Stability at a rank *)
  Lemma SP_exec : forall k q i t tg v, rinv k -> SP k q i t tg v -> SP (exec k) q i t tg v.
  Proof.
    intros k q i t tg v H [m [l1 [l2 [S1 [S2 [S3 [S4 [S5 S6]]]]]]]].
    assert (I : In m (sends k)) by (rewrite S1; apply in_elt).
    unfold exec. destruct (prog k) as [|[rd wr f|q' dst tag b|q' src tag b|q'|] p] eqn:E; simpl; auto.
    - exists m, l1, l2; auto 10.
    - exists m, l1, l2; simpl. repeat (split; auto). unfold value in *. simpl. destruct (mpay m) eqn:Pm; auto.
      rewrite get_puts; auto. destruct (inv_local _ _ _ _ _ H E) as [_ A]. eauto.
    - exists m, l1, (l2 ++ [mkm (cnt k) q' dst tag (InBuf b)]). simpl. split; [rewrite S1, <- app_assoc; reflexivity|]. auto 10.
    - exists m, l1, l2; auto 10.
    - exists m, l1, l2; auto 10.
    - exists m, l1, l2; auto 10.
  Qed.
  Lemma RP_exec : forall k p rq b t tg, RP k p rq b t tg -> RP (exec k) p rq b t tg.
  Proof.
    intros k p rq b t tg [l3 [l4 [R1 R2]]]. unfold exec.
    destruct (prog k) as [|[rd wr f|q' dst tag b'|q' src tag b'|q'|] p'] eqn:E; simpl; try (exists l3, l4; auto; fail).
    exists l3, (l4 ++ [mkr q' src tag b']). simpl. rewrite R1, <- app_assoc. auto.
  Qed.
  Lemma SP_pass : forall k q i t tg v, SP k q i t tg v -> SP (pass k) q i t tg v.
  Proof. intros k q i t tg v [m [l1 [l2 H]]]. exists m, l1, l2. exact H. Qed.
  Lemma RP_pass : forall (k : rk) p rq b t tg, RP k p rq b t tg -> RP (pass k) p rq b t tg.
  Proof. intros k p rq b t tg H. exact H. Qed.
  Lemma copy_dst : forall s i m, mdst (copy_msg blank s i m) = mdst m.
  Proof. intros. unfold copy_msg. destruct (mid m =? i); auto. Qed.
  Lemma copy_tag : forall s i m, mtag (copy_msg blank s i m) = mtag m.
  Proof. intros. unfold copy_msg. destruct (mid m =? i); auto. Qed.
  Lemma copy_mid : forall s i m, mid (copy_msg blank s i m) = mid m.
  Proof. intros. unfold copy_msg. destruct (mid m =? i); auto. Qed.
  Lemma SP_copy : forall k j q i t tg v, SP k q i t tg v -> SP (copy j k) q i t tg v.
  Proof.
    intros k j q i t tg v [m [l1 [l2 [S1 [S2 [S3 [S4 [S5 S6]]]]]]]].
    exists (copy_msg blank (store k) j m), (map (copy_msg blank (store k) j) l1), (map (copy_msg blank (store k) j) l2).
    rewrite copy_mid, copy_dst, copy_tag. repeat (split; auto).
    - simpl. rewrite S1, map_app. auto.
    - rewrite <- S5. unfold value, copy, copy_msg. simpl. destruct (mid m =? j); auto. simpl. destruct (mpay m); auto.
    - intros m' I. apply in_map_iff in I. destruct I as [m0 [<- I]]. rewrite copy_dst, copy_tag. auto.
  Qed.
  Lemma RP_copy : forall k j p rq b t tg, RP k p rq b t tg -> RP (copy j k) p rq b t tg.
  Proof. intros k j p rq b t tg H. exact H. Qed.
  Lemma SP_leave : forall (k : rk) j q i t tg v, i <> j -> SP k q i t tg v -> SP (leave j k) q i t tg v.
  Proof.
    intros k j q i t tg v N [m [l1 [l2 [S1 [S2 [S3 [S4 [S5 S6]]]]]]]].
    eexists m, (filter (fun m => negb (mid m =? j)) l1), (filter (fun m => negb (mid m =? j)) l2). repeat (split; auto).
    - simpl. rewrite S1, filter_app. simpl. rewrite S2. destruct (Nat.eqb_spec i j); [congruence|]. auto.
    - intros m' I. apply filter_In in I. apply S6; tauto.
  Qed.
  Lemma RP_leave : forall (k : rk) j p rq b t tg, RP k p rq b t tg -> RP (leave j k) p rq b t tg.
  Proof. intros k j p rq b t tg H. exact H. Qed.
  Lemma SP_take : forall k rq b w q i t tg v, (forall m c, In m (sends k) -> mpay m = InBuf c -> c <> b) ->
    SP k q i t tg v -> SP (take rq b w k) q i t tg v.
  Proof.
    intros k rq b w q i t tg v F [m [l1 [l2 [S1 [S2 [S3 [S4 [S5 S6]]]]]]]]. exists m, l1, l2. repeat (split; auto).
    rewrite <- S5. unfold value, take. simpl. destruct (mpay m) eqn:Pm; auto. apply get_put_other. eapply F; eauto. rewrite S1. apply in_elt.
  Qed.
  Lemma RP_take : forall (k : rk) rq' b' w p rq b t tg, rq <> rq' -> RP k p rq b t tg -> RP (take rq' b' w k) p rq b t tg.
  Proof.
    intros k rq' b' w p rq b t tg N [l3 [l4 [R1 R2]]].
    exists (filter (fun x => negb (rreq x =? rq')) l3), (filter (fun x => negb (rreq x =? rq')) l4). split.
    - simpl. rewrite R1, filter_app. simpl. destruct (Nat.eqb_spec rq rq'); [congruence|]. auto.
    - intros x' I. apply filter_In in I. apply R2; tauto.
  Qed.
  Lemma CP_exec : forall k i, CP k i -> CP (exec k) i.
  Proof.
    intros k i [m [b [I [P E]]]]. exists m, b. split; auto. unfold exec.
    destruct (prog k) as [|[] p]; simpl; auto. apply in_or_app; auto.
  Qed.
  Lemma CP_copy : forall k i j, i <> j -> CP k i -> CP (copy j k) i.
  Proof.
    intros k i j N [m [b [I [P E]]]]. exists m, b. split; auto. simpl. apply in_map_iff. exists m. split; auto.
    unfold copy_msg. destruct (Nat.eqb_spec (mid m) j); auto. congruence.
  Qed.
  Lemma CP_leave : forall k i j, i <> j -> CP k i -> CP (leave j k) i.
  Proof.
    intros k i j N [m [b [I [P E]]]]. exists m, b. split; auto. simpl. apply filter_In. split; auto.
    apply negb_true_iff, Nat.eqb_neq. congruence.
  Qed.
  Lemma CP_take : forall (k : rk) i q b v, CP k i -> CP (take q b v k) i.
  Proof. intros k i q b v H. exact H. Qed.
  Lemma CP_pass : forall (k : rk) i, CP k i -> CP (pass k) i.
  Proof. intros k i H. exact H. Qed.
  Lemma CP_cnt : forall k i, rinv k -> CP k i -> i < cnt k.
  Proof. intros k i H [m [b [I [P <-]]]]. apply (ri_cnt _ H); auto. Qed.
  Lemma SP_cnt : forall k q i t tg v, rinv k -> SP k q i t tg v -> i < cnt k.
  Proof. intros k q i t tg v H [m [l1 [l2 [S1 [<- _]]]]]. apply (ri_cnt _ H). rewrite S1. apply in_elt. Qed.
  Lemma RP_in : forall (k : rk) p rq b t tg, RP k p rq b t tg -> In (mkr rq p t b) (recvs k).
  Proof. intros k p rq b t tg [l3 [l4 [R1 _]]]. rewrite R1. apply in_elt. Qed.

  (** * Stability of a match *)
  Lemma M_upd : forall st p q i rq b v r f, M st p q i rq b v ->
    (forall k q t tg v, nth_error st r = Some k -> r = p -> SP k q i t tg v -> SP (f k) q i t tg v) ->
    (forall k p b t tg, nth_error st r = Some k -> r = q -> RP k p rq b t tg -> RP (f k) p rq b t tg) ->
    M (upd r f st) p q i rq b v.
  Proof.
    intros st p q i rq b v r f [kp [kq [t [tg [E1 [E2 [T [S R]]]]]]]] F G.
    exists (if p =? r then f kp else kp), (if q =? r then f kq else kq), t, tg. rewrite !upd_nth, E1, E2. simpl.
    destruct (Nat.eqb_spec p r), (Nat.eqb_spec q r); subst; auto 10.
  Qed.
  Lemma CP_upd : forall st r k i r' f, nth_error st r = Some k -> CP k i ->
    (r' = r -> CP k i -> CP (f k) i) -> exists k', nth_error (upd r' f st) r = Some k' /\ CP k' i.
  Proof.
    intros. rewrite upd_nth, H. simpl. destruct (Nat.eqb_spec r r'); eauto.
  Qed.
  Lemma CP_step : forall eg st r k i, nth_error st r = Some k -> CP k i -> eg r i = true -> step blank eg st (upd r (copy i) st).
  Proof. intros eg st r k i E [m [b [I [P <-]]]] G. eapply step_copy; eauto. Qed.

  Definition join (eg : nat -> nat -> bool) (y z : list rk) : Prop :=
    exists w, steps blank eg y w /\ steps blank eg z w.
  Lemma join_sym : forall eg y z, join eg y z -> join eg z y.
  Proof. intros eg y z [w [A B]]. exists w; auto. Qed.
  Lemma steps_one : forall eg s t, step blank eg s t -> steps blank eg s t.
  Proof. intros. eapply steps_cons; [eauto|apply steps_refl]. Qed.
  Lemma join_one : forall eg y z w, step blank eg y w -> step blank eg z w -> join eg y z.
  Proof. intros. exists w. split; apply steps_one; auto. Qed.
  Lemma join_refl : forall eg y, join eg y y.
  Proof. intros. exists y. split; apply steps_refl. Qed.

  Lemma ready_not_barrier : forall k : rk, ready k = true -> at_barrier k = true -> False.
  Proof. unfold ready, at_barrier. intros k. destruct (prog k) as [|[] p]; congruence. Qed.

  (** Two ranks, or the same. *)
  Lemma nth_upd : forall st r k r' (f : rk -> rk), nth_error st r = Some k ->
    exists k', nth_error (upd r' f st) r = Some k' /\ (k' = k \/ r = r' /\ k' = f k).
  Proof. intros. rewrite upd_nth, H. simpl. destruct (Nat.eqb_spec r r'); eauto. Qed.

  Lemma join_op_op : forall eg st r k r' k', nth_error st r = Some k -> ready k = true ->
    nth_error st r' = Some k' -> ready k' = true -> join eg (upd r exec st) (upd r' exec st).
  Proof.
    intros. destruct (Nat.eq_dec r r') as [->|N]; [apply join_refl|].
    apply join_one with (upd r' exec (upd r exec st)).
    - eapply step_op; [rewrite upd_other by auto; eauto|auto].
    - rewrite upd_comm by (intros; congruence). eapply step_op; [rewrite upd_other by auto; eauto|auto].
  Qed.
  Lemma join_op_copy : forall eg st r k r' k' i, inv st -> nth_error st r = Some k -> ready k = true ->
    nth_error st r' = Some k' -> CP k' i -> eg r' i = true -> join eg (upd r exec st) (upd r' (copy i) st).
  Proof.
    intros eg st r k r' k' i Hi E R E' C G. apply join_one with (upd r' (copy i) (upd r exec st)).
    - destruct (CP_upd st r' k' i r exec E' C) as [k2 [E2 C2]]; [intros; apply CP_exec; auto|]. eapply CP_step; eauto.
    - rewrite upd_comm.
      + destruct (nth_upd _ _ _ r' (copy i) E) as [k2 [E2 [->|[-> ->]]]]; eapply step_op; eauto. apply ready_copy; auto.
      + intros <- x Ex. assert (x = k') by congruence. subst. apply exec_copy; [eapply Hi; eauto|]. apply CP_cnt; auto. eapply Hi; eauto.
  Qed.
  Lemma join_op_match : forall eg st r k p q i rq b v, inv st -> nth_error st r = Some k -> ready k = true ->
    M st p q i rq b v -> join eg (upd r exec st) (mstep p q i rq b v st).
  Proof.
    intros eg st r k p q i rq b v Hi E R Hm. apply join_one with (mstep p q i rq b v (upd r exec st)).
    - apply M_step. apply M_upd; auto; intros; [apply SP_exec; auto; eapply Hi; eauto|apply RP_exec; auto].
    - pose proof Hm as [kp [kq [t [tg [E1 [E2 [T [S V]]]]]]]]. unfold mstep.
      replace (upd q (take rq b v) (upd p (leave i) (upd r exec st)))
        with (upd r exec (upd q (take rq b v) (upd p (leave i) st))).
      + destruct (nth_upd _ _ _ p (leave i) E) as [k2 [F2 G2]].
        destruct (nth_upd _ _ _ q (take rq b v) F2) as [k3 [F3 G3]].
        eapply step_op; [exact F3|].
        assert (ready k2 = true) by (destruct G2 as [->|[_ ->]]; auto; apply ready_leave; auto).
        destruct G3 as [->|[_ ->]]; auto. apply ready_take; auto.
      + rewrite (upd_comm _ r q).
        * f_equal. apply upd_comm. intros -> x Ex. assert (x = kp) by congruence. subst. symmetry. apply exec_leave.
          eapply Hi; eauto. eapply SP_cnt; [eapply Hi; eauto|eauto].
        * intros -> x Ex. destruct (nth_upd _ _ _ p (leave i) E2) as [k4 [F4 G4]].
          assert (x = k4) by congruence. subst x. pose proof (RP_in _ _ _ _ _ _ V) as Iv.
          assert (rinv kq) by (eapply Hi; eauto).
          assert (Hk : rinv k4 /\ In (mkr rq p t b) (recvs k4)).
          { destruct G4 as [->|[_ ->]]; auto. split; auto. apply rinv_leave; auto. }
          destruct Hk as [Hk1 Hk2]. symmetry. apply (exec_take blank (mkr rq p t b) v k4); auto.
  Qed.
  Lemma barrier_upd : forall st (f : rk -> rk) r, (forall k, In k st -> at_barrier k = true) ->
    (forall k, at_barrier (f k) = at_barrier k) -> forall k, In k (upd r f st) -> at_barrier k = true.
  Proof.
    intros st f r H F k I. apply In_nth_error in I. destruct I as [j E]. rewrite upd_nth in E.
    destruct (j =? r); [|eapply H, nth_error_In; eauto]. destruct (nth_error st j) eqn:E1; try discriminate.
    simpl in E. injection E as <-. rewrite F. eapply H, nth_error_In; eauto.
  Qed.
  Lemma upd_nil : forall (st : list rk) r f, st <> [] -> upd r f st <> [].
  Proof. intros st r f N E. apply N. apply length_zero_iff_nil. rewrite <- (upd_length _ r f st), E. auto. Qed.
  Lemma join_barrier_copy : forall eg st r k i, st <> [] -> (forall k, In k st -> at_barrier k = true) ->
    nth_error st r = Some k -> CP k i -> eg r i = true -> join eg (map pass st) (upd r (copy i) st).
  Proof.
    intros eg st r k i N B E C G. apply join_one with (upd r (copy i) (map pass st)).
    - eapply CP_step; [rewrite nth_error_map, E; reflexivity| apply CP_pass; eauto|auto].
    - rewrite upd_map by auto. apply step_barrier; [apply upd_nil; auto|]. apply barrier_upd; auto.
  Qed.
  Lemma join_barrier_match : forall eg st p q i rq b v, st <> [] -> (forall k, In k st -> at_barrier k = true) ->
    M st p q i rq b v -> join eg (map pass st) (mstep p q i rq b v st).
  Proof.
    intros eg st p q i rq b v N B Hm. apply join_one with (mstep p q i rq b v (map pass st)).
    - apply M_step. destruct Hm as [kp [kq [t [tg [E1 [E2 [T [S V]]]]]]]]. exists (pass kp), (pass kq), t, tg.
      rewrite !nth_error_map, E1, E2. repeat (split; auto).
    - unfold mstep. rewrite (upd_map _ p), upd_map by auto. apply step_barrier; [do 2 apply upd_nil; auto|].
      apply barrier_upd; auto. apply barrier_upd; auto.
  Qed.
  Lemma join_copy_copy : forall eg st r k i r' k' i', nth_error st r = Some k -> CP k i -> eg r i = true ->
    nth_error st r' = Some k' -> CP k' i' -> eg r' i' = true -> join eg (upd r (copy i) st) (upd r' (copy i') st).
  Proof.
    intros eg st r k i r' k' i' E C G E' C' G'.
    destruct (Nat.eq_dec r r') as [->|N]; [destruct (Nat.eq_dec i i') as [->|N]; [apply join_refl|]|].
    - assert (k = k') by congruence. subst. apply join_one with (upd r' (copy i') (upd r' (copy i) st)).
      + eapply CP_step; [apply upd_same; eauto|apply CP_copy; auto|auto].
      + rewrite upd_comm by (intros; apply copy_copy). eapply CP_step; [apply upd_same; eauto|apply CP_copy; auto|auto].
    - apply join_one with (upd r' (copy i') (upd r (copy i) st)).
      + eapply CP_step; [rewrite upd_other by auto; eauto|auto|auto].
      + rewrite upd_comm by (intros; congruence). eapply CP_step; [rewrite upd_other by auto; eauto|auto|auto].
  Qed.
  Lemma join_copy_match : forall eg st r k j p q i rq b v, inv st -> nth_error st r = Some k -> CP k j -> eg r j = true ->
    M st p q i rq b v -> join eg (upd r (copy j) st) (mstep p q i rq b v st).
  Proof.
    intros eg st r k j p q i rq b v Hi E C G Hm.
    assert (Hm' : M (upd r (copy j) st) p q i rq b v) by (apply M_upd; auto; intros; apply SP_copy; auto).
    apply M_step with (eg := eg) in Hm'.
    destruct (Nat.eq_dec r p) as [->|N]; [destruct (Nat.eq_dec j i) as [->|N]|].
    - exists (mstep p q i rq b v st). split; [|apply steps_refl]. apply steps_one.
      replace (mstep p q i rq b v st) with (mstep p q i rq b v (upd p (copy i) st)); auto.
      unfold mstep. f_equal. rewrite upd_fuse. apply upd_ext. intros; apply leave_copy_same.
    - apply join_one with (mstep p q i rq b v (upd p (copy j) st)); auto.
      pose proof Hm as [kp [kq [t [tg [E1 [E2 [T [Sp V]]]]]]]]. unfold mstep.
      replace (upd q (take rq b v) (upd p (leave i) (upd p (copy j) st)))
        with (upd p (copy j) (upd q (take rq b v) (upd p (leave i) st))).
      + destruct (CP_upd st p k j p (leave i) E C) as [k2 [F2 C2]]; [intros; apply CP_leave; auto|].
        destruct (CP_upd _ p k2 j q (take rq b v) F2 C2) as [k3 [F3 C3]]; [auto|]. eapply CP_step; eauto.
      + rewrite (upd_comm _ p q).
        * f_equal. apply upd_comm. intros; symmetry; apply leave_copy.
        * intros <- x Ex. apply copy_take. destruct (nth_upd _ _ _ p (leave i) E2) as [k4 [F4 G4]].
          assert (x = k4) by congruence. subst x. pose proof (RP_in _ _ _ _ _ _ V) as Iv.
          assert (rinv kq) by (eapply Hi; eauto).
          assert (Hk : rinv k4 /\ In (mkr rq p t b) (recvs k4)).
          { destruct G4 as [->|[_ ->]]; auto. split; auto. apply rinv_leave; auto. }
          destruct Hk as [Hk1 Hk2]. intros m c Im Pm. eapply (inv_send_recv k4 m c (mkr rq p t b)); eauto.
    - apply join_one with (mstep p q i rq b v (upd r (copy j) st)); auto.
      pose proof Hm as [kp [kq [t [tg [E1 [E2 [T [Sp V]]]]]]]]. unfold mstep.
      rewrite <- (upd_comm _ r p) by (intros; congruence).
      rewrite <- (upd_comm _ r q).
      + destruct (CP_upd st r k j p (leave i) E C) as [k2 [F2 C2]]; [intros; congruence|].
        destruct (CP_upd _ r k2 j q (take rq b v) F2 C2) as [k3 [F3 C3]]; [auto|]. eapply CP_step; eauto.
      + intros -> x Ex. rewrite upd_other in Ex by auto. apply copy_take.
        assert (x = kq) by congruence. subst. intros m c Im Pm.
        apply (inv_send_recv kq m c (mkr rq p t b)); auto; [eapply Hi; eauto|eapply RP_in; eauto].
  Qed.

  Lemma split_unique : forall X (P : X -> Prop) (a b c d : list X) (x y : X),
    a ++ x :: b = c ++ y :: d -> (forall z, In z a -> ~ P z) -> (forall z, In z c -> ~ P z) -> P x -> P y -> x = y.
  Proof.
    induction a as [|z a IHa]; destruct c as [|w c]; simpl; intros d x y E Ha Hc Px Py.
    - congruence.
    - injection E as -> E. exfalso. apply (Hc w); auto.
    - injection E as <- E. exfalso. apply (Ha z); auto.
    - injection E as <- E. apply (IHa b c d); auto.
  Qed.
  (** Of two different matches neither shares the message or the receive. *)
  Lemma M_unique : forall st p q i rq b v p' q' i' rq' b' v', inv st -> M st p q i rq b v -> M st p' q' i' rq' b' v' ->
    (p = p' /\ i = i') \/ (q = q' /\ rq = rq') -> p = p' /\ q = q' /\ i = i' /\ rq = rq' /\ b = b' /\ v = v'.
  Proof.
    intros st p q i rq b v p' q' i' rq' b' v' Hi
      [kp [kq [t [tg [E1 [E2 [T [[m [l1 [l2 [S1 [S2 [S3 [S4 [S5 S6]]]]]]]] [l3 [l4 [R1 R2]]]]]]]]]]]
      [kp' [kq' [t' [tg' [E1' [E2' [T' [[m' [l1' [l2' [S1' [S2' [S3' [S4' [S5' S6']]]]]]]] [l3' [l4' [R1' R2']]]]]]]]]]].
    assert (Im : In m (sends kp)) by (rewrite S1; apply in_elt).
    assert (Im' : In m' (sends kp')) by (rewrite S1'; apply in_elt).
    intros [[-> ->]|[-> ->]].
    - assert (kp = kp') by congruence. subst kp'.
      assert (m = m') by (apply (inv_send_send kp); auto; [apply (Hi p'); auto|congruence]). subst m'.
      assert (q = q') by congruence. subst q'. assert (kq = kq') by congruence. subst kq'.
      rewrite S4 in S4'. subst tg'.
      assert (Ex : mkr rq p' t b = mkr rq' p' t' b').
      { eapply (split_unique _ (fun x => rsrc x = p' /\ tagok (rtag x) tg = true)); [rewrite <- R1, <- R1'; reflexivity| | | |]; simpl; auto.
        - intros z I [A B]. specialize (R2 z I A). simpl in *. congruence.
        - intros z I [A B]. specialize (R2' z I A). simpl in *. congruence. }
      injection Ex as <- <- <-. subst. auto 10.
    - assert (kq = kq') by congruence. subst kq'.
      assert (Ix : In (mkr rq' p t b) (recvs kq)) by (rewrite R1; apply in_elt).
      assert (Ix' : In (mkr rq' p' t' b') (recvs kq)) by (rewrite R1'; apply in_elt).
      assert (Hk : rinv kq) by (eapply Hi; eauto).
      destruct (inv_recv_recv _ _ _ Hk Ix Ix') as [Ex|[Ex _]]; [|simpl in Ex; congruence].
      injection Ex as <- <- <-. assert (kp = kp') by congruence. subst kp'.
      assert (m = m').
      { eapply (split_unique _ (fun m => mdst m = q' /\ tagok t (mtag m) = true)); [rewrite <- S1, <- S1'; reflexivity| | | |]; simpl; auto.
        - intros z I [A B]. specialize (S6 z I A). simpl in *. congruence.
        - intros z I [A B]. specialize (S6' z I A). simpl in *. congruence.
        - rewrite S4; auto.
        - rewrite S4'; auto. }
      subst m'. subst. auto 10.
  Qed.

  Lemma M_after : forall st p q i rq b v p' q' i' rq' b' v', inv st -> M st p q i rq b v -> M st p' q' i' rq' b' v' ->
    (p <> p' \/ i <> i') -> (q <> q' \/ rq <> rq') -> M (mstep p q i rq b v st) p' q' i' rq' b' v'.
  Proof.
    intros st p q i rq b v p' q' i' rq' b' v' Hi Hm Hm' A B.
    destruct Hm as [kp [kq [t [tg [E1 [E2 [T [Sp V]]]]]]]]. pose proof (RP_in _ _ _ _ _ _ V) as Iv.
    unfold mstep. apply M_upd; [apply M_upd; auto| |].
    - intros k q0 t0 tg0 v0 F Ep R. apply SP_leave; auto. destruct A; congruence.
    - intros k q0 t0 tg0 v0 F Ep R. destruct (nth_upd _ _ _ p (leave i) E2) as [k4 [F4 G4]].
      assert (k = k4) by congruence. subst k. apply SP_take; auto.
      intros m c Im Pm. apply (inv_send_recv kq m c (mkr rq p t b)); auto; [apply (Hi q); auto|].
      destruct G4 as [->|[_ ->]]; auto. simpl in Im. apply filter_In in Im. tauto.
    - intros k p0 b0 t0 tg0 F Eq R. apply RP_take; auto. destruct B; congruence.
  Qed.
  Lemma mstep_comm : forall p q i rq b v p' q' i' rq' b' v' (st : list rk), (q = q' -> b <> b') ->
    mstep p' q' i' rq' b' v' (mstep p q i rq b v st) = mstep p q i rq b v (mstep p' q' i' rq' b' v' st).
  Proof.
    intros. unfold mstep.
    rewrite (upd_comm _ p' q) by (intros; apply leave_take).
    rewrite (upd_comm _ q' q) by (intros Eq; intros; apply take_take; intro; subst; apply H; auto).
    rewrite (upd_comm _ p' p) by (intros; apply leave_leave).
    rewrite (upd_comm _ q' p) by (intros; symmetry; apply leave_take). reflexivity.
  Qed.
  Lemma join_match_match : forall eg st p q i rq b v p' q' i' rq' b' v', inv st ->
    M st p q i rq b v -> M st p' q' i' rq' b' v' -> join eg (mstep p q i rq b v st) (mstep p' q' i' rq' b' v' st).
  Proof.
    intros eg st p q i rq b v p' q' i' rq' b' v' Hi Hm Hm'.
    assert (X : ((p = p' /\ i = i') \/ (q = q' /\ rq = rq')) \/ ((p <> p' \/ i <> i') /\ (q <> q' \/ rq <> rq'))) by lia.
    destruct X as [X|[A B]].
    { destruct (M_unique _ _ _ _ _ _ _ _ _ _ _ _ _ Hi Hm Hm' X) as [-> [-> [-> [-> [-> ->]]]]]. apply join_refl. }
    apply join_one with (mstep p' q' i' rq' b' v' (mstep p q i rq b v st)).
    - apply M_step. apply M_after; auto.
    - rewrite mstep_comm.
      + apply M_step. apply M_after; auto; lia.
      + intros <-. destruct Hm as [kp [kq [t [tg [E1 [E2 [T [Sp V]]]]]]]]. destruct Hm' as [kp' [kq' [t' [tg' [E1' [E2' [T' [Sp' V']]]]]]]].
        assert (kq = kq') by congruence. subst kq'. assert (Hq : rinv kq) by (eapply Hi; eauto).
        destruct (inv_recv_recv _ _ _ Hq (RP_in _ _ _ _ _ _ V) (RP_in _ _ _ _ _ _ V')) as [Ex|[_ Ex]]; [|exact Ex].
        injection Ex; intros; destruct B; congruence.
  Qed.

  Theorem local_confluence : forall eg st y z, inv st -> step blank eg st y -> step blank eg st z -> join eg y z.
  Proof.
    intros eg st y z Hi S1 S2.
    assert (Hmm : forall st p q kp kq (m : msg) x l1 l2 l3 l4 y,
      nth_error st p = Some kp -> nth_error st q = Some kq ->
      sends kp = l1 ++ m :: l2 -> recvs kq = l3 ++ x :: l4 ->
      mdst m = q -> rsrc x = p -> tagok (rtag x) (mtag m) = true ->
      (forall m', In m' l1 -> mdst m' = q -> tagok (rtag x) (mtag m') = false) ->
      (forall x', In x' l3 -> rsrc x' = p -> tagok (rtag x') (mtag m) = false) ->
      (M st p q (mid m) (rreq x) (rbuf x) (value kp m) ->
       join eg (mstep p q (mid m) (rreq x) (rbuf x) (value kp m) st) y) ->
      join eg (upd q (take (rreq x) (rbuf x) (value kp m)) (upd p (leave (mid m)) st)) y).
    { intros. apply H8. eapply step_M; eauto. }
    destruct S1.
    - destruct S2.
      + eapply join_op_op; eauto.
      + exfalso. eapply ready_not_barrier; eauto. apply H2. eapply nth_error_In; eauto.
      + eapply join_op_copy; eauto. exists m, b; auto.
      + apply join_sym. eapply Hmm; eauto. intros. apply join_sym. eapply join_op_match; eauto.
    - destruct S2.
      + exfalso. eapply ready_not_barrier; eauto. apply H0. eapply nth_error_In; eauto.
      + apply join_refl.
      + eapply join_barrier_copy; eauto. exists m, b; auto.
      + apply join_sym. eapply Hmm; eauto. intros. apply join_sym. eapply join_barrier_match; eauto.
    - destruct S2.
      + apply join_sym. eapply join_op_copy; eauto. exists m, b; auto.
      + apply join_sym. eapply join_barrier_copy; eauto. exists m, b; auto.
      + eapply join_copy_copy; eauto; [exists m, b; auto|exists m0, b0; auto].
      + apply join_sym. eapply Hmm; eauto. intros. apply join_sym. eapply join_copy_match; eauto. exists m, b; auto.
    - eapply Hmm; eauto. intros Hm. destruct S2.
      + apply join_sym. eapply join_op_match; eauto.
      + apply join_sym. eapply join_barrier_match; eauto.
      + apply join_sym. eapply join_copy_match; eauto. exists m0, b; auto.
      + apply join_sym. eapply Hmm; eauto. intros. apply join_sym. apply join_match_match; auto.
  Qed.
End Conf2.
