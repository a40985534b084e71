(** The unique outcome, and how to find it. *)
From Coq Require Import List Arith Bool Lia Wf_nat.
From Verif Require Import MsgModel MsgSpec MsgProofs MsgProofs2.
Import ListNotations.
Open Scope nat_scope.

Section Out.
  Context {D : Type} (blank : D).
  Notation rk := (rk D). Notation op := (op D). Notation msg := (msg D).
  Notation inv := (@inv D). Notation rinv := (@rinv D).
  Notation exec := (exec blank). Notation copy := (copy blank). Notation value := (value blank).

  (** * Every event makes the rest shorter *)
  Definition wmsg (m : msg) : nat := if is_copied (mpay m) then 1 else 2.
  Definition wt (k : rk) : nat := 3 * length (prog k) + list_sum (map wmsg (sends k)).
  Definition total (st : list rk) : nat := list_sum (map wt st).

  Lemma list_sum_app' : forall a b, list_sum (a ++ b) = list_sum a + list_sum b.
  Proof. induction a; simpl; intros; auto. rewrite IHa. lia. Qed.
  Lemma total_upd : forall st r k f, nth_error st r = Some k -> total (upd r f st) + wt k = total st + wt (f k).
  Proof.
    unfold total. induction st; destruct r; simpl; intros; try discriminate.
    - injection H as ->. lia.
    - specialize (IHst _ _ f H). lia.
  Qed.
  Lemma wt_exec : forall k : rk, ready k = true -> wt (exec k) < wt k.
  Proof.
    intros k. unfold ready, exec, wt. destruct (prog k) as [|[rd wr f|q dst tag b|q src tag b|q|] p] eqn:E; simpl; intros; try discriminate; try lia.
    rewrite map_app, list_sum_app'. simpl. lia.
  Qed.
  Lemma wt_pass : forall k : rk, at_barrier k = true -> wt (pass k) < wt k.
  Proof. intros k. unfold at_barrier, pass, wt. destruct (prog k) as [|[] p]; simpl; intros; try discriminate; lia. Qed.
  Lemma wmsg_copy : forall s i m, wmsg (copy_msg blank s i m) <= wmsg m.
  Proof. intros. unfold copy_msg, wmsg. destruct (mid m =? i); simpl; auto. destruct (mpay m); simpl; lia. Qed.
  Lemma wt_copy : forall k i, CP k i -> wt (copy i k) < wt k.
  Proof.
    intros k i [m [b [I [P <-]]]]. unfold wt, copy. simpl. apply Nat.add_lt_mono_l. induction (sends k); simpl in *; [tauto|].
    assert (G : forall l, list_sum (map wmsg (map (copy_msg blank (store k) (mid m)) l)) <= list_sum (map wmsg l)).
    { induction l0; simpl; auto. pose proof (wmsg_copy (store k) (mid m) a0). lia. }
    destruct I as [->|I].
    - specialize (G l). assert (wmsg (copy_msg blank (store k) (mid m) m) < wmsg m); [|lia].
      unfold copy_msg, wmsg. rewrite Nat.eqb_refl, P. simpl. lia.
    - specialize (IHl I). pose proof (wmsg_copy (store k) (mid m) a). lia.
  Qed.
  Lemma wt_leave : forall (k : rk) m, In m (sends k) -> wt (leave (mid m) k) < wt k.
  Proof.
    intros k m I. unfold wt, leave. simpl. apply Nat.add_lt_mono_l. induction (sends k); simpl in *; [tauto|].
    assert (G : forall l : list msg, list_sum (map wmsg (filter (fun m0 => negb (mid m0 =? mid m)) l)) <= list_sum (map wmsg l)).
    { induction l0; simpl; auto. destruct (negb (mid a0 =? mid m)); simpl; lia. }
    assert (W : forall x : msg, 1 <= wmsg x) by (intros x; unfold wmsg; destruct (is_copied (mpay x)); lia).
    destruct I as [->|I].
    - rewrite Nat.eqb_refl. simpl. specialize (G l). specialize (W m). lia.
    - specialize (IHl I). destruct (negb (mid a =? mid m)); simpl; lia.
  Qed.
  Lemma step_total : forall eg s t, step blank eg s t -> total t < total s.
  Proof.
    intros eg s t H. destruct H.
    - pose proof (total_upd _ _ _ exec H). pose proof (wt_exec _ H0). lia.
    - destruct st; [congruence|]. unfold total. simpl. pose proof (wt_pass r (H0 r (or_introl eq_refl))).
      assert (list_sum (map wt (map pass st)) <= list_sum (map wt st)); [|lia].
      assert (B : forall k, In k st -> at_barrier k = true) by (intros; apply H0; right; auto). clear - B.
      induction st; simpl in *; auto. pose proof (wt_pass a (B a (or_introl eq_refl))).
      specialize (IHst (fun k I => B k (or_intror I))). lia.
    - pose proof (total_upd _ _ _ (copy (mid m)) H). pose proof (wt_copy k (mid m)).
      assert (CP k (mid m)) by (exists m, b; auto). specialize (H4 H5). lia.
    - assert (I : In m (sends kp)) by (rewrite H1; apply in_elt).
      pose proof (total_upd _ _ _ (leave (mid m)) H). pose proof (wt_leave _ _ I).
      destruct (nth_upd _ _ _ p (leave (mid m)) H0) as [k' [F _]].
      pose proof (total_upd _ _ _ (take (rreq x) (rbuf x) (value kp m)) F).
      assert (wt (take (rreq x) (rbuf x) (value kp m) k') = wt k') by reflexivity. lia.
  Qed.
  Lemma run_total : forall eg n s t, run blank eg n s t -> n + total t <= total s.
  Proof. induction 1; [lia|]. pose proof (step_total _ _ _ H). lia. Qed.
  Lemma run_steps : forall eg n s t, run blank eg n s t -> steps blank eg s t.
  Proof. induction 1; [apply steps_refl|eapply steps_cons; eauto]. Qed.
  Lemma steps_trans : forall eg s t u, steps blank eg s t -> steps blank eg t u -> steps blank eg s u.
  Proof. induction 1; auto. intros. eapply steps_cons; eauto. Qed.

  (** * One outcome *)
  Lemma confluence : forall eg s, inv s -> forall y z, steps blank eg s y -> steps blank eg s z -> join blank eg y z.
  Proof.
    intros eg s. remember (total s) as n eqn:En. revert s En. induction n as [n IH] using lt_wf_ind.
    intros s -> Hi y z Hy Hz. destruct Hy as [|s y1 y Sy Hy]; [exists z; split; auto; apply steps_refl|].
    destruct Hz as [|s z1 z Sz Hz]; [exists y; split; [apply steps_refl|eapply steps_cons; eauto]|].
    destruct (local_confluence _ _ _ _ _ Hi Sy Sz) as [w [W1 W2]].
    pose proof (step_total _ _ _ Sy) as Ty. pose proof (step_total _ _ _ Sz) as Tz.
    destruct (IH _ Ty y1 eq_refl (inv_step _ _ _ _ Hi Sy) y w Hy W1) as [u [U1 U2]].
    destruct (IH _ Tz z1 eq_refl (inv_step _ _ _ _ Hi Sz) z w Hz W2) as [v [V1 V2]].
    destruct (IH _ Ty y1 eq_refl (inv_step _ _ _ _ Hi Sy) u v) as [x [X1 X2]].
    - eapply steps_trans; eauto.
    - eapply steps_trans; eauto.
    - exists x. split; eapply steps_trans; eauto.
  Qed.
  Lemma finished_stuck : forall eg s, finished s -> stuck blank eg s.
  Proof.
    intros eg s F t H. destruct H.
    - destruct (F k (nth_error_In _ _ H)) as [P _]. unfold ready in H0. rewrite P in H0. discriminate.
    - destruct st as [|k st]; [congruence|]. destruct (F k (or_introl eq_refl)) as [P _].
      specialize (H0 k (or_introl eq_refl)). unfold at_barrier in H0. rewrite P in H0. discriminate.
    - destruct (F k (nth_error_In _ _ H)) as [_ [P _]]. rewrite P in H0. destruct H0.
    - destruct (F kp (nth_error_In _ _ H)) as [_ [P _]]. rewrite P in H1. destruct l1; discriminate.
  Qed.
  Lemma steps_stuck : forall eg s t, stuck blank eg s -> steps blank eg s t -> t = s.
  Proof. intros eg s t K H. destruct H; auto. exfalso. eapply K; eauto. Qed.
  Lemma step_length : forall eg s t, step blank eg s t -> length t = length s.
  Proof. intros eg s t H; destruct H; rewrite ?upd_length, ?map_length; auto. Qed.
  Lemma steps_length : forall eg s t, steps blank eg s t -> length t = length s.
  Proof. induction 1; auto. rewrite IHsteps. eapply step_length; eauto. Qed.

  Theorem one_outcome : forall eg s F (Q : nat -> list D -> Prop), inv s -> steps blank eg s F -> finished F ->
    (forall r k, nth_error F r = Some k -> Q r (store k)) -> always_ends blank eg s Q.
  Proof.
    intros eg s F Q Hi HF Fin HQ. split.
    - exists (total s). intros n t R. apply run_total in R. lia.
    - intros n t R K. apply run_steps in R. destruct (confluence eg s Hi t F R HF) as [w [W1 W2]].
      apply (steps_stuck _ _ _ K) in W1. apply (steps_stuck _ _ _ (finished_stuck _ _ Fin)) in W2.
      assert (t = F) by congruence. subst. split; [eapply steps_length; eauto|auto].
  Qed.

  (** * All ranks at once *)
  Definition world (n : nat) (g : nat -> rk) : list rk := map g (seq 0 n).
  Lemma world_nth : forall n g r, r < n -> nth_error (world n g) r = Some (g r).
  Proof.
    intros. unfold world. rewrite nth_error_map. rewrite (nth_error_nth' _ 0) by (rewrite seq_length; auto).
    rewrite seq_nth by auto. auto.
  Qed.
  Lemma world_nth_inv : forall n g r k, nth_error (world n g) r = Some k -> r < n /\ k = g r.
  Proof.
    intros n g r k E. assert (r < n).
    { replace n with (length (world n g)) by (unfold world; rewrite map_length, seq_length; auto). apply nth_error_Some. congruence. }
    rewrite world_nth in E by auto. split; congruence.
  Qed.
  Lemma world_ext : forall n g h, (forall r, r < n -> g r = h r) -> world n g = world n h.
  Proof. intros. apply map_ext_in. intros a I. apply in_seq in I. apply H. lia. Qed.
  Lemma list_ext : forall X (a b : list X), (forall i, nth_error a i = nth_error b i) -> a = b.
  Proof.
    induction a; destruct b; intros H; auto.
    - specialize (H 0); discriminate.
    - specialize (H 0); discriminate.
    - pose proof (H 0) as H0. injection H0 as ->. f_equal. apply IHa. intros i. apply (H (S i)).
  Qed.
  Lemma upd_world : forall n g r f, upd r f (world n g) = world n (fun j => if j =? r then f (g j) else g j).
  Proof.
    intros. apply list_ext. intros i. rewrite upd_nth. destruct (Nat.lt_ge_cases i n).
    - rewrite !world_nth by auto. destruct (i =? r); auto.
    - assert (N : forall h, nth_error (world n h) i = None) by (intros; apply nth_error_None; unfold world; rewrite map_length, seq_length; auto).
      rewrite !N. destruct (i =? r); auto.
  Qed.

  (** What a rank can do alone. *)
  Inductive runs : rk -> rk -> Prop :=
  | runs_refl : forall k, runs k k
  | runs_cons : forall k k', ready k = true -> runs (exec k) k' -> runs k k'.
  Lemma runs_trans : forall a b c, runs a b -> runs b c -> runs a c.
  Proof. induction 1; auto. intros. eapply runs_cons; eauto. Qed.
  Lemma runs_world1 : forall eg n g r k k', r < n -> runs k k' -> g r = k ->
    steps blank eg (world n g) (world n (fun j => if j =? r then k' else g j)).
  Proof.
    intros eg n g r k k' L H. revert g. induction H; intros g E.
    - erewrite world_ext; [apply steps_refl|]. intros j _. simpl. destruct (Nat.eqb_spec j r); congruence.
    - eapply steps_cons; [eapply (step_op _ _ _ r (g r)); [apply world_nth; auto|congruence]|].
      rewrite upd_world. set (g1 := fun j => if j =? r then exec (g j) else g j).
      replace (world n (fun j => if j =? r then k' else g j)) with (world n (fun j => if j =? r then k' else g1 j)).
      + apply IHruns. unfold g1. rewrite Nat.eqb_refl. congruence.
      + apply world_ext. intros j _. unfold g1. destruct (j =? r); auto.
  Qed.
  Lemma runs_world : forall eg n g h, (forall r, r < n -> runs (g r) (h r)) -> steps blank eg (world n g) (world n h).
  Proof.
    intros eg n g h H.
    assert (G : forall m, m <= n -> steps blank eg (world n g) (world n (fun j => if j <? m then h j else g j))).
    { induction m; intros L.
      - erewrite world_ext; [apply steps_refl|]. intros; auto.
      - eapply steps_trans; [apply IHm; lia|].
        replace (world n (fun j => if j <? S m then h j else g j))
          with (world n (fun j => if j =? m then h m else (fun j => if j <? m then h j else g j) j)).
        + eapply runs_world1; [lia|apply H; lia|]. simpl. rewrite (proj2 (Nat.ltb_ge m m)) by lia. auto.
        + apply world_ext. intros j _. destruct (Nat.eqb_spec j m), (Nat.ltb_spec j (S m)), (Nat.ltb_spec j m); subst; auto; lia. }
    specialize (G n (le_n n)). erewrite (world_ext n h); [exact G|]. intros r L. simpl. rewrite (proj2 (Nat.ltb_lt r n)); auto.
  Qed.
  Lemma barrier_world : forall eg n g, (forall r, r < n -> at_barrier (g r) = true) ->
    steps blank eg (world n g) (world n (fun r => pass (g r))).
  Proof.
    intros eg n g H. destruct n as [|n]; [apply steps_refl|]. eapply steps_cons; [apply step_barrier|].
    - discriminate.
    - intros k I. apply in_map_iff in I. destruct I as [r [<- I]]. apply in_seq in I. apply H. lia.
    - unfold world. rewrite map_map. apply steps_refl.
  Qed.

  (** * Delivering all messages *)
  Definition msg_to (l : list msg) (r : nat) : option msg := find (fun m => mdst m =? r) l.
  (** The data that rank [p] has sent to rank [r]. *)
  Definition V (g : nat -> rk) (p r : nat) : D :=
    match msg_to (sends (g p)) r with Some m => value (g p) m | None => blank end.
  Definition settled (g : nat -> rk) (r : nat) : rk :=
    mkrk (prog (g r))
         (puts (map rbuf (recvs (g r))) (map (fun x => V g (rsrc x) r) (recvs (g r))) (store (g r))) [] [] (cnt (g r)).
  Record paired (n : nat) (g : nat -> rk) : Prop := mkpaired {
    pr_recv : forall r x, r < n -> In x (recvs (g r)) -> rsrc x < n /\
      exists m, In m (sends (g (rsrc x))) /\ mdst m = r /\ tagok (rtag x) (mtag m) = true;
    pr_send : forall p m, p < n -> In m (sends (g p)) -> mdst m < n /\ exists x, In x (recvs (g (mdst m))) /\ rsrc x = p;
    pr_dsts : forall p, p < n -> NoDup (map mdst (sends (g p)));
    pr_srcs : forall p, p < n -> NoDup (map rsrc (recvs (g p)));
    pr_mids : forall p, p < n -> NoDup (map mid (sends (g p)));
    pr_reqs : forall p, p < n -> NoDup (map rreq (recvs (g p)));
    pr_bufs : forall p m b x, p < n -> In m (sends (g p)) -> mpay m = InBuf b -> In x (recvs (g p)) -> b <> rbuf x }.

  Lemma NoDup_map_inj : forall X Y (f : X -> Y) l a b, NoDup (map f l) -> In a l -> In b l -> f a = f b -> a = b.
  Proof.
    induction l; simpl; intros; [tauto|]. inversion H; subst. destruct H0 as [->|H0], H1 as [->|H1]; auto.
    - exfalso. apply H5. rewrite H2. apply in_map; auto.
    - exfalso. apply H5. rewrite <- H2. apply in_map; auto.
  Qed.
  Lemma msg_to_spec : forall l r m, NoDup (map mdst l) -> In m l -> mdst m = r -> msg_to l r = Some m.
  Proof.
    intros l r m N I E. unfold msg_to. destruct (find (fun m => mdst m =? r) l) eqn:F.
    - apply find_some in F. destruct F as [F1 F2]. apply Nat.eqb_eq in F2. f_equal. eapply NoDup_map_inj; eauto. congruence.
    - exfalso. pose proof (find_none _ _ F m I). simpl in H. rewrite E, Nat.eqb_refl in H. discriminate.
  Qed.
  Lemma filter_all : forall X (f : X -> bool) l, (forall x, In x l -> f x = true) -> filter f l = l.
  Proof. induction l; simpl; intros; auto. rewrite H by auto. f_equal; auto. Qed.

  Lemma deliver_all : forall eg n g, paired n g -> steps blank eg (world n g) (world n (settled g)).
  Proof.
    intros eg n g. remember (list_sum (map (fun r => length (recvs (g r))) (seq 0 n))) as N eqn:EN.
    revert g EN. induction N as [|N IH]; intros g EN H.
    - assert (R0 : forall r, r < n -> recvs (g r) = []).
      { intros r L. assert (In (length (recvs (g r))) (map (fun r => length (recvs (g r))) (seq 0 n))).
        { apply in_map_iff. exists r. split; auto. apply in_seq. lia. }
        apply length_zero_iff_nil. clear - H0 EN. revert H0 EN. generalize (map (fun r => length (recvs (g r))) (seq 0 n)).
        induction l; simpl; intros; [tauto|]. destruct H0; [lia|]. apply IHl; auto. lia. }
      erewrite world_ext; [apply steps_refl|]. intros r L. unfold settled. rewrite (R0 r L). simpl.
      assert (sends (g r) = []).
      { destruct (sends (g r)) as [|m l] eqn:E; auto. exfalso. destruct (pr_send _ _ H r m L) as [L' [x [I _]]]; [rewrite E; left; auto|].
        rewrite R0 in I by auto. destruct I. }
      specialize (R0 r L). destruct (g r); simpl in *. congruence.
    - assert (Hq : exists q, q < n /\ recvs (g q) <> []).
      { assert (X : forall l, S N = list_sum (map (fun r => length (recvs (g r))) l) -> exists q, In q l /\ recvs (g q) <> []).
        { induction l; simpl; intros; [discriminate|]. destruct (recvs (g a)) eqn:E; simpl in H0.
          - destruct (IHl H0) as [q [I F]]. exists q; auto.
          - exists a. split; auto. rewrite E. discriminate. }
        destruct (X _ EN) as [q [I F]]. apply in_seq in I. exists q. split; [lia|auto]. }
      destruct Hq as [q [Lq Nq]]. destruct (recvs (g q)) as [|x rest] eqn:Eq; [congruence|]. clear Nq.
      assert (Ix : In x (recvs (g q))) by (rewrite Eq; left; auto).
      destruct (pr_recv _ _ H q x Lq Ix) as [Lp [m [Im [Dm Tm]]]]. set (p := rsrc x) in *.
      pose proof (in_split _ _ Im) as [l1 [l2 Es]].
      pose (g1 := fun j => if j =? q then take (rreq x) (rbuf x) (value (g p) m) ((fun j => if j =? p then leave (mid m) (g j) else g j) j)
                           else (fun j => if j =? p then leave (mid m) (g j) else g j) j).
      assert (St : step blank eg (world n g) (world n g1)).
      { unfold g1. rewrite <- (upd_world n (fun j => if j =? p then leave (mid m) (g j) else g j) q), <- upd_world.
        eapply (step_match _ _ _ p q (g p) (g q) m x l1 l2 [] rest); auto using world_nth.
        - intros m' I E. exfalso. pose proof (pr_dsts _ _ H p Lp) as ND. rewrite Es, map_app in ND. simpl in ND.
          apply NoDup_remove_2 in ND. apply ND. apply in_or_app. left. rewrite Dm, <- E. apply in_map; auto.
        - intros x' []. }
      assert (P1 : forall r, prog (g1 r) = prog (g r) /\ cnt (g1 r) = cnt (g r)).
      { intros r. unfold g1. destruct (r =? q), (r =? p); auto. }
      assert (R1 : forall r, recvs (g1 r) = if r =? q then rest else recvs (g r)).
      { intros r. unfold g1. destruct (Nat.eqb_spec r q) as [->|N1].
        - assert (recvs (take (rreq x) (rbuf x) (value (g p) m) (if q =? p then leave (mid m) (g q) else g q))
            = filter (fun y => negb (rreq y =? rreq x)) (recvs (g q))) by (destruct (q =? p); auto).
          cbv beta. rewrite H0, Eq. simpl. rewrite Nat.eqb_refl. simpl. apply filter_all. intros y I.
          apply negb_true_iff, Nat.eqb_neq. intros E. pose proof (pr_reqs _ _ H q Lq) as ND. rewrite Eq in ND. simpl in ND.
          inversion ND; subst. apply H3. rewrite <- E. apply in_map; auto.
        - destruct (r =? p); auto. }
      assert (S1 : forall r, sends (g1 r) = if r =? p then filter (fun y => negb (mid y =? mid m)) (sends (g r)) else sends (g r)).
      { intros r. unfold g1. destruct (r =? q), (r =? p); auto. }
      assert (B1 : forall r, store (g1 r) = if r =? q then put (rbuf x) (value (g p) m) (store (g r)) else store (g r)).
      { intros r. unfold g1. destruct (r =? q), (r =? p); auto. }
      assert (Mem : forall r y, r < n -> In y (sends (g1 r)) <-> In y (sends (g r)) /\ ~ (r = p /\ mdst y = q)).
      { intros r y Lr. rewrite S1. destruct (Nat.eqb_spec r p) as [->|N1]; [|intuition].
        rewrite filter_In, negb_true_iff, Nat.eqb_neq. split; intros [A B]; split; auto.
        - intros [_ E]. apply B. f_equal. eapply NoDup_map_inj; [apply (pr_dsts _ _ H p Lp)| | |]; auto. congruence.
        - intros E. apply B. split; auto. replace y with m; auto. eapply NoDup_map_inj; [apply (pr_mids _ _ H p Lp)| | |]; auto. }
      assert (Memr : forall r y, r < n -> In y (recvs (g1 r)) <-> In y (recvs (g r)) /\ ~ (r = q /\ rsrc y = p)).
      { intros r y Lr. rewrite R1. destruct (Nat.eqb_spec r q) as [->|N1]; [|intuition].
        rewrite Eq. simpl. pose proof (pr_srcs _ _ H q Lq) as ND. rewrite Eq in ND. simpl in ND. inversion ND; subst. split.
        - intros I. split; auto. intros [_ E]. apply H2. fold p. rewrite <- E. apply in_map; auto.
        - intros [[<-|I] B]; auto. exfalso. apply B. auto. }
      assert (H' : paired n g1).
      { constructor.
        - intros r y Lr I. apply Memr in I; auto. destruct I as [I B]. destruct (pr_recv _ _ H r y Lr I) as [L [m' [A1 [A2 A3]]]].
          split; auto. exists m'. split; auto. apply Mem; auto. split; auto. intros [E1 E2]. apply B. split; congruence.
        - intros r y Lr I. apply Mem in I; auto. destruct I as [I B]. destruct (pr_send _ _ H r y Lr I) as [L [x' [A1 A2]]].
          split; auto. exists x'. split; auto. apply Memr; auto. split; auto. intros [E1 E2]. apply B. split; congruence.
        - intros r Lr. rewrite S1. destruct (r =? p); [apply NoDup_map_filter|]; apply (pr_dsts _ _ H); auto.
        - intros r Lr. rewrite R1. destruct (Nat.eqb_spec r q) as [->|]; [|apply (pr_srcs _ _ H); auto].
          pose proof (pr_srcs _ _ H q Lq) as ND. rewrite Eq in ND. simpl in ND. inversion ND; auto.
        - intros r Lr. rewrite S1. destruct (r =? p); [apply NoDup_map_filter|]; apply (pr_mids _ _ H); auto.
        - intros r Lr. rewrite R1. destruct (Nat.eqb_spec r q) as [->|]; [|apply (pr_reqs _ _ H); auto].
          pose proof (pr_reqs _ _ H q Lq) as ND. rewrite Eq in ND. simpl in ND. inversion ND; auto.
        - intros r y b z Lr I Py J. apply Mem in I; auto. apply Memr in J; auto. apply (pr_bufs _ _ H r y b z); tauto. }
      assert (V1 : forall p' r y, p' < n -> r < n -> In y (sends (g p')) -> mdst y = r -> ~ (p' = p /\ r = q) -> V g1 p' r = V g p' r).
      { intros p' r y Lp' Lr I E B. unfold V.
        rewrite (msg_to_spec (sends (g p')) r y) by (auto; apply (pr_dsts _ _ H); auto).
        rewrite (msg_to_spec (sends (g1 p')) r y).
        - unfold MsgModel.value. destruct (mpay y) eqn:Py; auto. rewrite B1. destruct (Nat.eqb_spec p' q) as [->|]; auto.
          apply get_put_other. eapply (pr_bufs _ _ H q y b x); eauto.
        - apply (pr_dsts _ _ H'); auto.
        - apply Mem; auto. split; auto. intros [A1 A2]. apply B. split; congruence.
        - auto. }
      eapply steps_cons; [exact St|]. replace (world n (settled g)) with (world n (settled g1)).
      + apply IH; auto.
        assert (X : forall l, NoDup l -> list_sum (map (fun r => length (recvs (g r))) l) =
          list_sum (map (fun r => length (recvs (g1 r))) l) + (if in_dec Nat.eq_dec q l then 1 else 0)).
        { induction l as [|a l IHl]; intros ND; [reflexivity|]. apply NoDup_cons_iff in ND; destruct ND as [ND1 ND2].
          change (length (recvs (g a)) + list_sum (map (fun r => length (recvs (g r))) l) =
                  length (recvs (g1 a)) + list_sum (map (fun r => length (recvs (g1 r))) l) + (if in_dec Nat.eq_dec q (a :: l) then 1 else 0)).
          rewrite IHl by auto. rewrite (R1 a).
          destruct (in_dec Nat.eq_dec q l), (in_dec Nat.eq_dec q (a :: l)) as [i'|i']; simpl in i'; destruct (Nat.eqb_spec a q) as [->|];
            try (exfalso; intuition; congruence); rewrite ?Eq; simpl; try lia. }
        specialize (X _ (seq_NoDup n 0)). rewrite <- EN in X. destruct (in_dec Nat.eq_dec q (seq 0 n)) as [|C]; [lia|].
        exfalso. apply C. apply in_seq. lia.
      + apply world_ext. intros r Lr. unfold settled. destruct (P1 r) as [-> ->]. rewrite (R1 r), (B1 r).
        destruct (Nat.eqb_spec r q) as [->|N1].
        * rewrite Eq. simpl. f_equal. fold p.
          assert (VV : V g p q = value (g p) m).
          { unfold V. rewrite (msg_to_spec (sends (g p)) q m); auto. apply (pr_dsts _ _ H); auto. }
          rewrite VV. f_equal. apply map_ext_in. intros y I.
          assert (I1 : In y (recvs (g1 q))) by (rewrite R1, Nat.eqb_refl; auto).
          destruct (pr_recv _ _ H' q y Lq I1) as [L [m' [A1 [A2 A3]]]]. apply Mem in A1; auto. destruct A1 as [A0 A1].
          apply (V1 _ _ m'); auto. intros [E1 E2]. apply A1. split; congruence.
        * f_equal. f_equal. apply map_ext_in. intros y I.
          destruct (pr_recv _ _ H r y Lr I) as [L [m' [A1 [A2 A3]]]]. apply (V1 _ _ m'); auto. intros [E1 E2]. congruence.
  Qed.

  (** * Parts of programs *)
  (** The part [P r] of every rank [r] can take the buffers from [S r] to
      [S' r], with no message left over. *)
  Definition does (n : nat) (P : nat -> list op) (S S' : nat -> list D) : Prop :=
    forall eg rest c, exists c',
      steps blank eg (world n (fun r => mkrk (P r ++ rest r) (S r) [] [] (c r)))
                     (world n (fun r => mkrk (rest r) (S' r) [] [] (c' r))).
  Lemma does_nil : forall n S, does n (fun _ => []) S S.
  Proof. intros n S eg rest c. exists c. apply steps_refl. Qed.
  Lemma does_app : forall n P Q S S' S'', does n P S S' -> does n Q S' S'' -> does n (fun r => P r ++ Q r) S S''.
  Proof.
    intros n P Q S S' S'' H1 H2 eg rest c. destruct (H1 eg (fun r => Q r ++ rest r) c) as [c1 K1].
    destruct (H2 eg rest c1) as [c2 K2]. exists c2. eapply steps_trans; [|exact K2].
    erewrite world_ext; [exact K1|]. intros r _. simpl. rewrite app_assoc. auto.
  Qed.
  Lemma does_ext : forall n P Q S T S' T', does n P S S' -> (forall r, r < n -> P r = Q r) ->
    (forall r, r < n -> S r = T r) -> (forall r, r < n -> S' r = T' r) -> does n Q T T'.
  Proof.
    intros n P Q S T S' T' H H1 H2 H3 eg rest c. destruct (H eg rest c) as [c' K]. exists c'.
    rewrite (world_ext n (fun r => mkrk (Q r ++ rest r) (T r) [] [] (c r)) (fun r => mkrk (P r ++ rest r) (S r) [] [] (c r)))
      by (intros; rewrite H1, H2; auto).
    rewrite (world_ext n (fun r => mkrk (rest r) (T' r) [] [] (c' r)) (fun r => mkrk (rest r) (S' r) [] [] (c' r)))
      by (intros; rewrite H3; auto). auto.
  Qed.
  Lemma does_loop : forall n (P : nat -> nat -> list op) (S : nat -> nat -> list D) m,
    (forall i, i < m -> does n (P i) (S i) (S (i + 1))) -> does n (fun r => flat_map (fun i => P i r) (seq 0 m)) (S 0) (S m).
  Proof.
    intros n P S m. induction m; intros H; [apply does_nil|].
    apply does_ext with (P := fun r => flat_map (fun i => P i r) (seq 0 m) ++ P m r) (S := S 0) (S' := S (m + 1)); auto.
    - apply does_app with (S m); [apply IHm; intros; apply H; lia|apply H; lia].
    - intros r _. rewrite seq_S, flat_map_app. simpl. rewrite app_nil_r. auto.
    - intros. replace (m + 1) with (Datatypes.S m) by lia. auto.
  Qed.
  Lemma does_barrier : forall n S, does n (fun _ => [Barrier]) S S.
  Proof. intros n S eg rest c. exists c. apply barrier_world. auto. Qed.

  Lemma rinv_start : forall p (s : list D) o, rfe [] p = Some o -> rinv (start p s).
  Proof.
    intros p s o H. constructor; simpl.
    - exists [], o. split; [auto|]. split; [|split; simpl; tauto]. intros i j e e' _ E. destruct i; discriminate.
    - constructor.
    - tauto.
    - constructor.
  Qed.
  Theorem does_always : forall n P S S' (Q : nat -> list D -> Prop), does n P S S' ->
    (forall r, r < n -> exists o, rfe [] (P r) = Some o) -> (forall r, r < n -> Q r (S' r)) ->
    forall eg, always_ends blank eg (world n (fun r => start (P r) (S r))) Q.
  Proof.
    intros n P S S' Q H R HQ eg. destruct (H eg (fun _ => []) (fun _ => 0)) as [c K].
    eapply one_outcome.
    - intros r k E. apply world_nth_inv in E. destruct E as [L ->]. destruct (R r L) as [o Ro]. eapply rinv_start; eauto.
    - rewrite (world_ext n _ (fun r => mkrk (P r ++ []) (S r) [] [] 0)); [exact K|]. intros. rewrite app_nil_r. auto.
    - intros k I. apply In_nth_error in I. destruct I as [r E]. apply world_nth_inv in E. destruct E as [L ->]. auto.
    - intros r k E. apply world_nth_inv in E. destruct E as [L ->]. simpl. auto.
  Qed.
  Lemma rfe_app : forall p q o o', rfe o p = Some o' -> rfe o (p ++ q) = rfe o' (q : list op).
  Proof.
    induction p as [|a p IH]; simpl; intros q o o' H; [congruence|].
    destruct a; auto; match type of H with (if ?b then _ else _) = _ => destruct b; [auto|discriminate] end.
  Qed.
End Out.
