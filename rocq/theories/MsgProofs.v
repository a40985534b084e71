(** Confluence of the runs of message-passing programs. *)
From Coq Require Import List Arith Bool Lia.
From Verif Require Import MsgModel.
Import ListNotations.
Open Scope nat_scope.

(** * Updates of lists *)
Lemma upd_length : forall X r (f : X -> X) l, length (upd r f l) = length l.
Proof. induction r; destruct l; simpl; auto. Qed.
Lemma upd_same : forall X r (f : X -> X) l x, nth_error l r = Some x -> nth_error (upd r f l) r = Some (f x).
Proof. induction r; destruct l; simpl; intros; try discriminate; auto. congruence. Qed.
Lemma upd_other : forall X r (f : X -> X) l j, j <> r -> nth_error (upd r f l) j = nth_error l j.
Proof. induction r; destruct l, j; simpl; intros; auto; try congruence. Qed.
Lemma upd_comm : forall X p q (f g : X -> X) l,
  (p = q -> forall x, nth_error l p = Some x -> f (g x) = g (f x)) -> upd p f (upd q g l) = upd q g (upd p f l).
Proof.
  induction p; destruct l, q; simpl; intros; auto.
  - f_equal. apply H; auto.
  - f_equal. apply IHp. intros -> x0 E. apply H; auto.
Qed.
Lemma upd_fuse : forall X p (f g : X -> X) l, upd p f (upd p g l) = upd p (fun x => f (g x)) l.
Proof. induction p; destruct l; simpl; auto. f_equal; auto. Qed.
Lemma upd_ext : forall X p (f g : X -> X) l, (forall x, nth_error l p = Some x -> f x = g x) -> upd p f l = upd p g l.
Proof. induction p; destruct l; simpl; intros; auto; f_equal; auto. Qed.
Lemma upd_nth : forall X r (f : X -> X) l j,
  nth_error (upd r f l) j = if j =? r then option_map f (nth_error l j) else nth_error l j.
Proof.
  intros. destruct (Nat.eqb_spec j r) as [->|N]; [|apply upd_other; auto].
  destruct (nth_error l r) eqn:E; simpl; [apply upd_same; auto|].
  apply nth_error_None. rewrite upd_length. apply nth_error_None; auto.
Qed.
Lemma upd_map : forall X r (f : X -> X) (h : X -> X) l, (forall x, f (h x) = h (f x)) -> upd r f (map h l) = map h (upd r f l).
Proof. induction r; destruct l; simpl; intros; f_equal; auto. Qed.
Lemma In_nth_error' : forall X (l : list X) x, In x l -> exists r, nth_error l r = Some x.
Proof. intros. apply In_nth_error; auto. Qed.

Lemma mem_false : forall b l, mem b l = false <-> ~ In b l.
Proof.
  unfold mem. intros; split.
  - intros E I. assert (existsb (Nat.eqb b) l = true) by (apply existsb_exists; exists b; split; auto; apply Nat.eqb_refl). congruence.
  - intros N. destruct (existsb (Nat.eqb b) l) eqn:E; auto. apply existsb_exists in E. destruct E as [x [I E]].
    apply Nat.eqb_eq in E. subst. contradiction.
Qed.

Section Conf.
  Context {D : Type} (blank : D).
  Notation rk := (rk D). Notation op := (op D). Notation msg := (msg D).

  (** * Buffers *)
  Lemma put_comm : forall b c (v w : D) s, b <> c -> put b v (put c w s) = put c w (put b v s).
  Proof. intros. apply upd_comm. intros; congruence. Qed.
  Lemma get_put_other : forall b c (v : D) s, b <> c -> get blank (put c v s) b = get blank s b.
  Proof.
    unfold get, put. intros. destruct (nth_error s b) eqn:E.
    - erewrite (nth_error_nth _ _ _ E). apply nth_error_nth. rewrite upd_other; auto.
    - apply nth_error_None in E. rewrite !nth_overflow; auto. rewrite upd_length; auto.
  Qed.
  Lemma puts_put : forall wr vs b (v : D) s, ~ In b wr -> puts wr vs (put b v s) = put b v (puts wr vs s).
  Proof.
    induction wr; destruct vs; simpl; intros; auto. rewrite put_comm by (intro; subst; auto). apply IHwr. tauto.
  Qed.
  Lemma get_puts : forall wr vs b (s : list D), ~ In b wr -> get blank (puts wr vs s) b = get blank s b.
  Proof. induction wr; destruct vs; simpl; intros; auto. rewrite IHwr by tauto. apply get_put_other. intro; subst; tauto. Qed.

  (** * The invariant of a rank *)
  Definition compat (e e' : opn) : Prop := oreq e <> oreq e' /\ (obuf e = obuf e' -> orcv e = false /\ orcv e' = false).
  Definition opok (o : list opn) : Prop := forall i j e e', i <> j -> nth_error o i = Some e -> nth_error o j = Some e' -> compat e e'.
  Record rinv (k : rk) : Prop := mkri {
    ri_open : exists o o', rfe o (prog k) = Some o' /\ opok o
      /\ (forall m b, In m (sends k) -> mpay m = InBuf b -> In (mreq m, false, b) o)
      /\ (forall x, In x (recvs k) -> In (rreq x, true, rbuf x) o);
    ri_mids : NoDup (map mid (sends k));
    ri_cnt : forall m, In m (sends k) -> mid m < cnt k;
    ri_reqs : NoDup (map rreq (recvs k)) }.

  Lemma opok_cons : forall e o, opok o -> (forall e', In e' o -> compat e e') -> opok (e :: o).
  Proof.
    intros e o H C i j a b N E1 E2. destruct i, j; simpl in *; try congruence.
    - assert (a = e) by congruence. subst. apply C. eapply nth_error_In; eauto.
    - assert (b = e) by congruence. subst. destruct (C a (nth_error_In _ _ E1)) as [C1 C2].
      split; [congruence|]. intros E. destruct C2; auto.
    - apply (H i j); auto.
  Qed.
  Lemma opok_cons_inv : forall e o, opok (e :: o) -> opok o /\ forall e', In e' o -> compat e e'.
  Proof.
    intros e o H. split.
    - intros i j a b N E1 E2. apply (H (S i) (S j)); auto.
    - intros e' I. apply In_nth_error in I. destruct I as [n E]. apply (H 0 (S n)); auto.
  Qed.
  Lemma opok_filter : forall f o, opok o -> opok (filter f o).
  Proof.
    induction o; simpl; auto. intros H. apply opok_cons_inv in H. destruct H as [H C].
    destruct (f a); auto. apply opok_cons; auto. intros e' I. apply filter_In in I. apply C; tauto.
  Qed.
  Lemma opok_two : forall o e e', opok o -> In e o -> In e' o -> e = e' \/ compat e e'.
  Proof.
    intros o e e' H I I'. apply In_nth_error in I. apply In_nth_error in I'. destruct I as [i E], I' as [j E'].
    destruct (Nat.eq_dec i j) as [->|N]; [left; congruence|right; eapply H; eauto].
  Qed.

  Lemma NoDup_map_filter : forall X Y (f : X -> Y) g l, NoDup (map f l) -> NoDup (map f (filter g l)).
  Proof.
    induction l; simpl; intros; auto. inversion H; subst. destruct (g a); simpl; auto. constructor; auto.
    intros I. apply H2. apply in_map_iff in I. destruct I as [x [E I]]. apply filter_In in I. apply in_map_iff. exists x; tauto.
  Qed.
  Lemma NoDup_snoc : forall X (l : list X) x, NoDup l -> ~ In x l -> NoDup (l ++ [x]).
  Proof.
    induction l; simpl; intros; [constructor; auto|]. inversion H; subst. constructor.
    - intros I. apply in_app_or in I. simpl in I. intuition.
    - apply IHl; tauto.
  Qed.

  Lemma map_mid_copy : forall s i l, map mid (map (copy_msg blank s i) l) = map (@mid D) l.
  Proof. intros. rewrite map_map. apply map_ext. intros m. unfold copy_msg. destruct (mid m =? i); auto. Qed.

  (** Facts about a rank at an operation. *)
  Lemma inv_local : forall k rd wr f p, rinv k -> prog k = Local rd wr f :: p ->
    (forall x, In x (recvs k) -> ~ In (rbuf x) rd /\ ~ In (rbuf x) wr)
    /\ (forall m b, In m (sends k) -> mpay m = InBuf b -> ~ In b wr).
  Proof.
    intros k rd wr f p [[o [o' [R [K [S V]]]]] _ _ _] E. rewrite E in R. simpl in R.
    match type of R with (if ?b then _ else _) = _ => destruct b eqn:B; [|discriminate] end.
    rewrite forallb_forall in B. split.
    - intros x I. apply V in I. apply B in I. unfold obuf, orcv in I. simpl in I.
      apply andb_prop in I. destruct I as [I1 I2]. apply negb_true_iff in I1, I2.
      split; apply mem_false; auto.
    - intros m b I Pm. eapply S in I; eauto. apply B in I. unfold obuf in I. simpl in I.
      apply andb_prop in I. destruct I as [I1 I2]. apply negb_true_iff in I1. apply mem_false; auto.
  Qed.
  Lemma inv_irecv : forall k q s t b p, rinv k -> prog k = Irecv q s t b :: p ->
    forall x, In x (recvs k) -> rreq x <> q.
  Proof.
    intros k q s t b p [[o [o' [R [K [S V]]]]] _ _ _] E x I. rewrite E in R. simpl in R.
    match type of R with (if ?b then _ else _) = _ => destruct b eqn:B; [|discriminate] end.
    rewrite forallb_forall in B. apply V in I. apply B in I. unfold oreq in I. simpl in I.
    apply andb_prop in I. destruct I as [I1 I2]. apply negb_true_iff, Nat.eqb_neq in I1. auto.
  Qed.
  Lemma inv_send_recv : forall k m b x, rinv k -> In m (sends k) -> mpay m = InBuf b -> In x (recvs k) -> b <> rbuf x.
  Proof.
    intros k m b x [[o [o' [R [K [S V]]]]] _ _ _] I P J. eapply S in I; eauto. apply V in J.
    destruct (opok_two _ _ _ K I J) as [C|[C1 C2]]; [congruence|]. unfold obuf, orcv in C2. simpl in C2.
    intros E. apply C2 in E. destruct E; discriminate.
  Qed.
  Lemma inv_recv_recv : forall k x y, rinv k -> In x (recvs k) -> In y (recvs k) -> x = y \/ rreq x <> rreq y /\ rbuf x <> rbuf y.
  Proof.
    intros k x y H I J. destruct H as [[o [o' [R [K [S V]]]]] _ _ ND].
    assert (A : x = y \/ rreq x <> rreq y).
    { clear - I J ND. induction (recvs k); simpl in *; [tauto|]. inversion ND; subst.
      destruct I as [->|I], J as [->|J]; auto.
      - right. intros E. apply H1. rewrite E. apply in_map; auto.
      - right. intros E. apply H1. rewrite <- E. apply in_map; auto. }
    destruct A as [A|A]; auto. right. split; auto. apply V in I. apply V in J.
    destruct (opok_two _ _ _ K I J) as [C|[C1 C2]]; [congruence|].
    unfold obuf, orcv in C2. simpl in C2. intros E. apply C2 in E. destruct E; discriminate.
  Qed.
  Lemma inv_send_send : forall k m m', rinv k -> In m (sends k) -> In m' (sends k) -> mid m = mid m' -> m = m'.
  Proof.
    intros k m m' [_ ND _ _] I J E. revert I J. induction (sends k); simpl in *; [tauto|]. inversion ND; subst.
    intros [->|I] [->|J]; auto.
    - exfalso. apply H1. rewrite E. apply in_map; auto.
    - exfalso. apply H1. rewrite <- E. apply in_map; auto.
  Qed.

  (** * Preservation *)
  Lemma rinv_exec : forall k, rinv k -> ready k = true -> rinv (exec blank k).
  Proof.
    intros k H Rd. unfold exec, ready in *. destruct (prog k) as [|[rd wr f|q dst tag b|q src tag b|q|] p] eqn:E; auto; try discriminate.
    - destruct H as [[o [o' [R [K [S V]]]]] M C Q]. constructor; simpl; auto. rewrite E in R. simpl in R.
      match type of R with (if ?b then _ else _) = _ => destruct b eqn:B; [|discriminate] end.
      exists o, o'; auto.
    - destruct H as [[o [o' [R [K [S V]]]]] M C Q]. rewrite E in R. simpl in R.
      match type of R with (if ?b then _ else _) = _ => destruct b eqn:B; [|discriminate] end.
      constructor; simpl; auto.
      + exists ((q, false, b) :: o), o'. split; [|split; [|split]]; auto.
        * apply opok_cons; auto. rewrite forallb_forall in B. intros e' I. apply B in I. apply andb_prop in I.
          destruct I as [I1 I2]. apply negb_true_iff, Nat.eqb_neq in I1. split; [unfold oreq in *; simpl; auto|].
          unfold obuf at 1, orcv at 1. simpl. intros Eb. split; auto.
          apply orb_prop in I2. destruct I2 as [I2|I2]; [apply negb_true_iff in I2; auto|].
          apply negb_true_iff, Nat.eqb_neq in I2. congruence.
        * intros m b0 I Pm. apply in_app_or in I. destruct I as [I|[<-|[]]]; [right; eauto|]. simpl in *. left. congruence.
        * intros x I. right. auto.
      + rewrite map_app. apply NoDup_snoc; auto. simpl. intros I. apply in_map_iff in I. destruct I as [m [E1 I]].
        apply C in I. lia.
      + intros m I. apply in_app_or in I. destruct I as [I|[<-|[]]]; simpl; auto. apply C in I. lia.
    - pose proof (inv_irecv _ _ _ _ _ _ H E) as Fr.
      destruct H as [[o [o' [R [K [S V]]]]] M C Q]. rewrite E in R. simpl in R.
      match type of R with (if ?b then _ else _) = _ => destruct b eqn:B; [|discriminate] end.
      constructor; simpl; auto.
      + exists ((q, true, b) :: o), o'. split; [|split; [|split]]; auto.
        * apply opok_cons; auto. rewrite forallb_forall in B. intros e' I. apply B in I. apply andb_prop in I.
          destruct I as [I1 I2]. apply negb_true_iff, Nat.eqb_neq in I1. apply negb_true_iff, Nat.eqb_neq in I2.
          split; [unfold oreq in *; simpl; auto|]. unfold obuf in *. simpl. congruence.
        * intros m b0 I Pm. right. eauto.
        * intros x I. apply in_app_or in I. destruct I as [I|[<-|[]]]; [right; auto|]. simpl. auto.
      + rewrite map_app. apply NoDup_snoc; auto. simpl. intros I. apply in_map_iff in I. destruct I as [x [E1 I]].
        apply Fr in I. congruence.
    - destruct H as [[o [o' [R [K [S V]]]]] M C Q]. rewrite E in R. simpl in R.
      apply negb_true_iff in Rd. unfold pending in Rd. apply orb_false_iff in Rd. destruct Rd as [R1 R2].
      constructor; simpl; auto. eexists _, o'. split; [exact R|split; [apply opok_filter; auto|split]].
      + intros m b I Pm. apply filter_In. split; eauto. apply negb_true_iff, Nat.eqb_neq. unfold oreq. simpl. intros Eq.
        assert (existsb (fun m => (mreq m =? q) && negb (is_copied (mpay m))) (sends k) = true); [|congruence].
        apply existsb_exists. exists m. split; auto. rewrite Pm. simpl. rewrite Eq, Nat.eqb_refl. auto.
      + intros x I. apply filter_In. split; eauto. apply negb_true_iff, Nat.eqb_neq. unfold oreq. simpl. intros Eq.
        assert (existsb (fun x => rreq x =? q) (recvs k) = true); [|congruence].
        apply existsb_exists. exists x. split; auto. rewrite Eq, Nat.eqb_refl. auto.
  Qed.
  Lemma rinv_pass : forall k, rinv k -> at_barrier k = true -> rinv (pass k).
  Proof.
    intros k H A. unfold at_barrier, pass in *. destruct (prog k) as [|[] p] eqn:E; try discriminate.
    destruct H as [[o [o' [R [K [S V]]]]] M C Q]. rewrite E in R. simpl in R. constructor; simpl; auto.
    exists o, o'; auto.
  Qed.
  Lemma rinv_copy : forall i k, rinv k -> rinv (copy blank i k).
  Proof.
    intros i k [[o [o' [R [K [S V]]]]] M C Q]. constructor; simpl; auto.
    - exists o, o'. split; [|split; [|split]]; auto. intros m b I Pm. apply in_map_iff in I. destruct I as [m0 [E I]].
      subst. unfold copy_msg in *. destruct (mid m0 =? i); [|eauto]. simpl in Pm. destruct (mpay m0); discriminate.
    - rewrite map_mid_copy. auto.
    - intros m I. apply in_map_iff in I. destruct I as [m0 [E I]]. subst. unfold copy_msg. destruct (mid m0 =? i); simpl; auto.
  Qed.
  Lemma rinv_leave : forall i k, rinv k -> rinv (leave i k).
  Proof.
    intros i k [[o [o' [R [K [S V]]]]] M C Q]. constructor; simpl; auto.
    - exists o, o'. split; [|split; [|split]]; auto. intros m b I. apply filter_In in I. apply S; tauto.
    - apply NoDup_map_filter; auto.
    - intros m I. apply filter_In in I. apply C; tauto.
  Qed.
  Lemma rinv_take : forall q b v k, rinv k -> rinv (take q b v k).
  Proof.
    intros q b v k [[o [o' [R [K [S V]]]]] M C Q]. constructor; simpl; auto.
    - exists o, o'. split; [|split; [|split]]; auto. intros x I. apply filter_In in I. apply V; tauto.
    - apply NoDup_map_filter; auto.
  Qed.

  Definition inv (st : list rk) : Prop := forall r k, nth_error st r = Some k -> rinv k.
  Lemma inv_upd : forall r f st, inv st -> (forall k, nth_error st r = Some k -> rinv k -> rinv (f k)) -> inv (upd r f st).
  Proof.
    intros r f st H F j k E. rewrite upd_nth in E. destruct (Nat.eqb_spec j r) as [->|N]; [|eapply H; eauto].
    destruct (nth_error st r) eqn:E1; try discriminate. simpl in E. injection E as <-. apply F; auto. eapply H; eauto.
  Qed.
  Lemma inv_step : forall eg st st', inv st -> step blank eg st st' -> inv st'.
  Proof.
    intros eg st st' H St. destruct St.
    - apply inv_upd; auto. intros k' E I. assert (k' = k) by congruence. subst. apply rinv_exec; auto.
    - intros r k E. rewrite nth_error_map in E. destruct (nth_error st r) eqn:E1; try discriminate. simpl in E. injection E as <-.
      apply rinv_pass; [eapply H; eauto|apply H1; eapply nth_error_In; eauto].
    - apply inv_upd; auto. intros; apply rinv_copy; auto.
    - apply inv_upd; [apply inv_upd; auto; intros; apply rinv_leave; auto|]. intros; apply rinv_take; auto.
  Qed.
  Lemma inv_steps : forall eg st st', steps blank eg st st' -> inv st -> inv st'.
  Proof. induction 1; auto. intros. apply IHsteps. eapply inv_step; eauto. Qed.

  (** * Commutation at one rank *)
  Lemma filter_filter_comm : forall X (f g : X -> bool) l, filter f (filter g l) = filter g (filter f l).
  Proof.
    induction l; simpl; auto. destruct (f a) eqn:F, (g a) eqn:G; simpl; rewrite ?F, ?G; rewrite ?IHl; auto.
  Qed.
  Lemma leave_leave : forall i j (k : rk), leave i (leave j k) = leave j (leave i k).
  Proof. intros. unfold leave; simpl. f_equal. apply filter_filter_comm. Qed.
  Lemma leave_take : forall i q b v (k : rk), leave i (take q b v k) = take q b v (leave i k).
  Proof. reflexivity. Qed.
  Lemma take_take : forall q b v q' b' v' (k : rk), b <> b' -> take q b v (take q' b' v' k) = take q' b' v' (take q b v k).
  Proof. intros. unfold take; simpl. f_equal; [apply put_comm; auto|apply filter_filter_comm]. Qed.
  Lemma filter_map_mid : forall i s j l, filter (fun m => negb (mid m =? i)) (map (copy_msg blank s j) l)
    = map (copy_msg blank s j) (filter (fun m => negb (mid m =? i)) l).
  Proof.
    induction l; simpl; auto. rewrite IHl. replace (mid (copy_msg blank s j a)) with (mid a); [destruct (mid a =? i); auto|].
    unfold copy_msg. destruct (mid a =? j); auto.
  Qed.
  Lemma leave_copy : forall i j k, leave i (copy blank j k) = copy blank j (leave i k).
  Proof. intros. unfold leave, copy; simpl. f_equal. apply filter_map_mid. Qed.
  Lemma leave_copy_same : forall i k, leave i (copy blank i k) = leave i k.
  Proof.
    intros. rewrite leave_copy. unfold leave, copy. simpl. f_equal.
    induction (sends k); simpl; auto. destruct (mid a =? i) eqn:E; simpl; auto.
    rewrite IHl. f_equal. unfold copy_msg. rewrite E. auto.
  Qed.
  Lemma copy_copy : forall i j k, copy blank i (copy blank j k) = copy blank j (copy blank i k).
  Proof.
    intros. unfold copy; simpl. f_equal. rewrite !map_map. apply map_ext. intros m. unfold copy_msg.
    destruct (mid m =? j) eqn:J, (mid m =? i) eqn:I; simpl; rewrite ?I, ?J; auto.
  Qed.
  Lemma copy_take : forall i q b v k, (forall m c, In m (sends k) -> mpay m = InBuf c -> c <> b) ->
    copy blank i (take q b v k) = take q b v (copy blank i k).
  Proof.
    intros. unfold copy, take; simpl. f_equal. apply map_ext_in. intros m I. unfold copy_msg.
    destruct (mid m =? i); auto. f_equal. destruct (mpay m) eqn:E; auto. rewrite get_put_other; eauto.
  Qed.

  (** The operations of a rank commute with what happens to its requests. *)
  Lemma exec_leave : forall i k, rinv k -> i < cnt k -> leave i (exec blank k) = exec blank (leave i k).
  Proof.
    intros i k H L. unfold exec, leave. simpl. destruct (prog k) as [|[rd wr f|q dst tag b|q src tag b|q|] p] eqn:E; simpl; auto; try (rewrite E; reflexivity).
    f_equal. rewrite filter_app. simpl. destruct (Nat.eqb_spec (cnt k) i); [lia|]. auto.
  Qed.
  Lemma map_get_put : forall rd b (v : D) s, ~ In b rd -> map (get blank (put b v s)) rd = map (get blank s) rd.
  Proof. intros. apply map_ext_in. intros a I. apply get_put_other. intro; subst; auto. Qed.
  Lemma exec_take : forall x v k, rinv k -> In x (recvs k) ->
    take (rreq x) (rbuf x) v (exec blank k) = exec blank (take (rreq x) (rbuf x) v k).
  Proof.
    intros x v k H I. unfold exec, take. simpl. destruct (prog k) as [|[rd wr f|q dst tag b|q src tag b|q|] p] eqn:E; simpl; auto; try (rewrite E; reflexivity).
    - destruct (inv_local _ _ _ _ _ H E) as [A _]. destruct (A _ I). f_equal. rewrite map_get_put; auto. rewrite puts_put; auto.
    - f_equal. rewrite filter_app. simpl. apply (inv_irecv _ _ _ _ _ _ H E) in I.
      destruct (Nat.eqb_spec q (rreq x)); [congruence|]. auto.
  Qed.
  Lemma exec_copy : forall i k, rinv k -> i < cnt k -> copy blank i (exec blank k) = exec blank (copy blank i k).
  Proof.
    intros i k H L. unfold exec, copy. simpl. destruct (prog k) as [|[rd wr f|q dst tag b|q src tag b|q|] p] eqn:E; simpl; auto; try (rewrite E; reflexivity).
    - f_equal. apply map_ext_in. intros m I. unfold copy_msg. destruct (mid m =? i); auto. f_equal.
      destruct (mpay m) eqn:Pm; auto. rewrite get_puts; auto. destruct (inv_local _ _ _ _ _ H E) as [_ A]. eauto.
    - f_equal. rewrite map_app. simpl. unfold copy_msg at 2. simpl. destruct (Nat.eqb_spec (cnt k) i); [lia|]. auto.
  Qed.

  (** Readiness persists. *)
  Lemma ready_mono : forall (k k' : rk), prog k' = prog k -> (forall q, pending q k' = true -> pending q k = true) ->
    ready k = true -> ready k' = true.
  Proof.
    intros k k' E P R. unfold ready in *. rewrite E. destruct (prog k) as [|[] p]; auto.
    apply negb_true_iff. apply negb_true_iff in R. destruct (pending q k') eqn:Q; auto. apply P in Q. congruence.
  Qed.
  Lemma existsb_filter : forall X (f g : X -> bool) l, existsb f (filter g l) = true -> existsb f l = true.
  Proof. intros. apply existsb_exists in H. destruct H as [x [I F]]. apply filter_In in I. apply existsb_exists. exists x; tauto. Qed.
  Lemma ready_leave : forall i (k : rk), ready k = true -> ready (leave i k) = true.
  Proof.
    intros i k. apply ready_mono; auto. intros q P. unfold pending in *. simpl in P. apply orb_prop in P. apply orb_true_iff.
    destruct P; auto. left. eapply existsb_filter; eauto.
  Qed.
  Lemma ready_take : forall q b v (k : rk), ready k = true -> ready (take q b v k) = true.
  Proof.
    intros i b v k. apply ready_mono; auto. intros q P. unfold pending in *. simpl in P. apply orb_prop in P. apply orb_true_iff.
    destruct P; auto. right. eapply existsb_filter; eauto.
  Qed.
  Lemma ready_copy : forall i k, ready k = true -> ready (copy blank i k) = true.
  Proof.
    intros i k. apply ready_mono; auto. intros q P. unfold pending in *. simpl in P. apply orb_prop in P. apply orb_true_iff.
    destruct P as [P|]; auto. left. apply existsb_exists in P. destruct P as [m [I P]]. apply in_map_iff in I.
    destruct I as [m0 [<- I]]. apply existsb_exists. exists m0. split; auto. unfold copy_msg in P.
    destruct (mid m0 =? i); auto. simpl in P. destruct (mpay m0); simpl in *; rewrite andb_false_r in P; discriminate.
  Qed.
End Conf.
