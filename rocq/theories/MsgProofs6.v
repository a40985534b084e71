(** [MPIArray.gather]: the root's own part depends on the order of events, the
    other parts do not. *)
From Coq Require Import List Arith ZArith Bool Lia.
From Verif Require Import PyBase PartModel RedModel MsgModel MsgSpec MsgProofs MsgProofs2 MsgProofs3 MsgProg MsgProofs4 MsgProofs5.
Import ListNotations.
Open Scope nat_scope.

(** * Programs that differ only in what they write to some buffers *)
Section Taint.
  Context {D : Type} (blank : D) (taint : nat -> nat -> Prop).
  Notation op := (op D).
  Notation rk := (rk D).
  Inductive simop (r : nat) : op -> op -> Prop :=
  | so_same : forall rd wr f, (forall b, In b rd -> ~ taint r b) -> simop r (Local rd wr f) (Local rd wr f)
  | so_taint : forall rd wr f rd' f', (forall b, In b wr -> taint r b) -> simop r (Local rd wr f) (Local rd' wr f')
  | so_send : forall q d t b, ~ taint r b -> simop r (Isend q d t b) (Isend q d t b)
  | so_recv : forall q s t b, simop r (Irecv q s t b) (Irecv q s t b)
  | so_wait : forall q, simop r (Wait q) (Wait q)
  | so_barrier : simop r Barrier Barrier.
  Record sim (r : nat) (k k' : rk) : Prop := mksim {
    si_prog : Forall2 (simop r) (prog k) (prog k');
    si_sends : sends k = sends k';
    si_recvs : recvs k = recvs k';
    si_cnt : cnt k = cnt k';
    si_len : length (store k) = length (store k');
    si_store : forall b, ~ taint r b -> get blank (store k) b = get blank (store k') b;
    si_pay : forall m b, In m (sends k) -> mpay m = InBuf b -> ~ taint r b }.
  Lemma simop_sym : forall r o o', simop r o o' -> simop r o' o.
  Proof. intros r o o' H. destruct H; constructor; auto. Qed.
  Lemma sim_sym : forall r k k', sim r k k' -> sim r k' k.
  Proof.
    intros r k k' [H1 H2 H3 H4 H5 H6 H7]. constructor; auto.
    - clear - H1. induction H1; constructor; auto using simop_sym.
    - intros b H. symmetry. auto.
    - rewrite <- H2. auto.
  Qed.
  Definition Sim (s s' : list rk) : Prop := length s = length s' /\ forall r k k', nth_error s r = Some k -> nth_error s' r = Some k' -> sim r k k'.
  Lemma Sim_sym : forall s s', Sim s s' -> Sim s' s.
  Proof. intros s s' [H1 H2]. split; auto. intros. apply sim_sym. eauto. Qed.
  Lemma Sim_other : forall s s' r k, Sim s s' -> nth_error s r = Some k -> exists k', nth_error s' r = Some k' /\ sim r k k'.
  Proof.
    intros s s' r k [H1 H2] E. destruct (nth_error s' r) as [k'|] eqn:E'; [exists k'; split; eauto|].
    apply nth_error_None in E'. assert (nth_error s r <> None) by congruence. apply nth_error_Some in H. lia.
  Qed.
  Lemma Sim_upd : forall s s' r f f', Sim s s' -> (forall k k', nth_error s r = Some k -> sim r k k' -> sim r (f k) (f' k')) -> Sim (upd r f s) (upd r f' s').
  Proof.
    intros s s' r f f' [H1 H2] H. split; [rewrite !upd_length; auto|]. intros j k k' E E'.
    destruct (Nat.eq_dec j r) as [->|N].
    - destruct (nth_error s r) as [a|] eqn:Ea.
      + destruct (nth_error s' r) as [a'|] eqn:Ea'.
        * rewrite (upd_same _ _ _ _ _ Ea) in E. rewrite (upd_same _ _ _ _ _ Ea') in E'. injection E as <-. injection E' as <-. eauto.
        * exfalso. apply nth_error_None in Ea'. assert (X : nth_error (upd r f' s') r <> None) by congruence. apply nth_error_Some in X. rewrite upd_length in X. lia.
      + exfalso. apply nth_error_None in Ea. assert (X : nth_error (upd r f s) r <> None) by congruence. apply nth_error_Some in X. rewrite upd_length in X. lia.
    - rewrite upd_other in E, E' by auto. eauto.
  Qed.
  Lemma sim_pending : forall r k k' q, sim r k k' -> pending q k = pending q k'.
  Proof. intros r k k' q [H1 H2 H3 H4 H5 H6 H7]. unfold pending. rewrite H2, H3. auto. Qed.
  Lemma sim_ready : forall r k k', sim r k k' -> ready k = ready k'.
  Proof.
    intros r k k' H. pose proof (fun q => sim_pending _ _ _ q H) as P. destruct H as [H1 H2 H3 H4 H5 H6 H7]. unfold ready.
    destruct H1 as [|o o' p p' S _]; auto. destruct S; auto. rewrite P. auto.
  Qed.
  Lemma puts_length : forall wr vs (s : list D), length (puts wr vs s) = length s.
  Proof. induction wr; destruct vs; simpl; intros; auto. rewrite IHwr, put_length. auto. Qed.
  Lemma get_put_both : forall b c (v : D) s s', length s = length s' -> get blank s c = get blank s' c -> get blank (put b v s) c = get blank (put b v s') c.
  Proof.
    intros b c v s s' L E. destruct (Nat.eq_dec b c) as [->|N].
    - destruct (Nat.lt_ge_cases c (length s)).
      + rewrite !get_put_same by lia. auto.
      + unfold get. rewrite !nth_overflow; auto; rewrite put_length; lia.
    - rewrite !get_put_other by auto. auto.
  Qed.
  Lemma get_puts_both : forall wr (vs : list D) c s s', length s = length s' -> get blank s c = get blank s' c ->
    get blank (puts wr vs s) c = get blank (puts wr vs s') c.
  Proof.
    induction wr; destruct vs; simpl; intros; auto. apply IHwr; [rewrite !put_length; auto|]. apply get_put_both; auto.
  Qed.
  Lemma sim_exec : forall r k k', sim r k k' -> ready k = true -> sim r (exec blank k) (exec blank k').
  Proof.
    intros r k k' [H1 H2 H3 H4 H5 H6 H7] R. unfold exec, ready in *. destruct H1 as [|o o' p p' S Hp]; [discriminate|].
    destruct S; try discriminate; constructor; cbn [prog sends recvs cnt store]; auto.
    - rewrite !puts_length. auto.
    - intros b Hb. replace (map (get blank (store k')) rd) with (map (get blank (store k)) rd).
      + apply get_puts_both; auto.
      + apply map_ext_in. intros a Ia. apply H6. auto.
    - rewrite !puts_length. auto.
    - intros b Hb. rewrite !get_puts; auto.
    - rewrite H2, H4. auto.
    - intros m b' I E. apply in_app_or in I. destruct I as [I|[<-|[]]]; eauto. simpl in E. injection E as <-. auto.
    - rewrite H3. auto.
  Qed.
  Lemma sim_barrier : forall r k k', sim r k k' -> at_barrier k = true -> at_barrier k' = true /\ sim r (pass k) (pass k').
  Proof.
    intros r k k' [H1 H2 H3 H4 H5 H6 H7] R. unfold at_barrier, pass in *. destruct H1 as [|o o' p p' S Hp]; [discriminate|].
    destruct S; try discriminate. split; auto. constructor; cbn [prog sends recvs cnt store tl]; auto.
  Qed.
  Lemma sim_value : forall r k k' m, sim r k k' -> In m (sends k) -> value blank k m = value blank k' m.
  Proof. intros r k k' m [H1 H2 H3 H4 H5 H6 H7] I. unfold value. destruct (mpay m) eqn:E; auto. apply H6. eauto. Qed.
  Lemma sim_copy : forall r k k' i, sim r k k' -> sim r (copy blank i k) (copy blank i k').
  Proof.
    intros r k k' i H. pose proof H as [H1 H2 H3 H4 H5 H6 H7]. unfold copy. constructor; cbn [prog sends recvs cnt store]; auto.
    - rewrite <- H2. apply map_ext_in. intros m I. unfold copy_msg. destruct (mid m =? i); auto. f_equal.
      destruct (mpay m) eqn:E; auto. f_equal. apply H6. eauto.
    - intros m b I E. apply in_map_iff in I. destruct I as [m0 [<- I]]. unfold copy_msg in E. destruct (mid m0 =? i); eauto.
      simpl in E. destruct (mpay m0); discriminate.
  Qed.
  Lemma sim_leave : forall r k k' i, sim r k k' -> sim r (leave i k) (leave i k').
  Proof.
    intros r k k' i [H1 H2 H3 H4 H5 H6 H7]. unfold leave. constructor; cbn [prog sends recvs cnt store]; auto.
    - rewrite H2. auto.
    - intros m b I. apply filter_In in I. destruct I. eauto.
  Qed.
  Lemma sim_take : forall r k k' q b v, sim r k k' -> sim r (take q b v k) (take q b v k').
  Proof.
    intros r k k' q b v [H1 H2 H3 H4 H5 H6 H7]. unfold take. constructor; cbn [prog sends recvs cnt store]; auto.
    - rewrite H3. auto.
    - rewrite !put_length. auto.
    - intros c Hc. apply get_put_both; auto.
  Qed.
  Lemma Sim_step : forall eg s s' t, Sim s s' -> step blank eg s t -> exists t', step blank eg s' t' /\ Sim t t'.
  Proof.
    intros eg s s' t H S. destruct S as [st r k E R|st N B|st r k m b E I P G|st p q kp kq m x l1 l2 l3 l4 Ep Eq S1 S2 D1 D2 T F1 F2].
    - destruct (Sim_other _ _ _ _ H E) as [k' [E' Sk]]. exists (upd r (exec blank) s'). split.
      + apply step_op with k'; auto. rewrite <- (sim_ready _ _ _ Sk). auto.
      + apply Sim_upd; auto. intros a a' Ea Sa. rewrite E in Ea. injection Ea as <-. apply sim_exec; auto.
    - exists (map pass s'). destruct H as [H1 H2]. split.
      + apply step_barrier.
        * destruct st; [congruence|]. destruct s'; [discriminate|congruence].
        * intros k' I. apply In_nth_error' in I. destruct I as [r E'].
          destruct (Sim_other s' st r k') as [k [E Sk]]; [apply Sim_sym; split; auto|auto|].
          eapply sim_barrier; [apply sim_sym; exact Sk|]. apply B. eapply nth_error_In; eauto.
      + split; [rewrite !map_length; auto|]. intros r k k' E E'. rewrite nth_error_map in E, E'.
        destruct (nth_error st r) as [a|] eqn:Ea; [|discriminate]. destruct (nth_error s' r) as [a'|] eqn:Ea'; [|discriminate].
        injection E as <-. injection E' as <-. apply sim_barrier; eauto. apply B. eapply nth_error_In; eauto.
    - destruct (Sim_other _ _ _ _ H E) as [k' [E' Sk]]. exists (upd r (copy blank (mid m)) s'). split.
      + apply step_copy with k' b; auto. rewrite <- (si_sends _ _ _ Sk). auto.
      + apply Sim_upd; auto. intros. apply sim_copy; auto.
    - destruct (Sim_other _ _ _ _ H Ep) as [kp' [Ep' Sp]]. destruct (Sim_other _ _ _ _ H Eq) as [kq' [Eq' Sq]].
      exists (upd q (take (rreq x) (rbuf x) (value blank kp' m)) (upd p (leave (mid m)) s')). split.
      + apply step_match with kq' l1 l2 l3 l4; auto.
        * rewrite <- (si_sends _ _ _ Sp). auto.
        * rewrite <- (si_recvs _ _ _ Sq). auto.
      + rewrite (sim_value p kp kp'); auto; [|rewrite S1; apply in_elt].
        apply Sim_upd; [apply Sim_upd; auto|]; intros; [apply sim_leave|apply sim_take]; auto.
  Qed.
  Lemma Sim_run : forall eg n s s' t, Sim s s' -> run blank eg n s t -> exists t', run blank eg n s' t' /\ Sim t t'.
  Proof.
    intros eg n s s' t H R. revert s' H. induction R as [s|n s t u S R IH]; intros s' H.
    - exists s'. split; auto. constructor.
    - destruct (Sim_step _ _ _ _ H S) as [t' [S' H']]. destruct (IH _ H') as [u' [R' H'']]. exists u'. split; auto. econstructor; eauto.
  Qed.
  Theorem Sim_always : forall eg s s' (Q Q' : nat -> list D -> Prop), Sim s s' -> always_ends blank eg s' Q' ->
    (forall r st st', r < length s -> Q' r st' -> length st = length st' -> (forall b, ~ taint r b -> get blank st b = get blank st' b) -> Q r st) ->
    always_ends blank eg s Q.
  Proof.
    intros eg s s' Q Q' H [[bd B] F] K. split.
    - exists bd. intros n t R. destruct (Sim_run _ _ _ _ _ H R) as [t' [R' _]]. eauto.
    - intros n t R St. destruct (Sim_run _ _ _ _ _ H R) as [t' [R' H']].
      assert (St' : stuck blank eg t').
      { intros u U. destruct (Sim_step _ _ _ _ (Sim_sym _ _ H') U) as [v [V _]]. apply (St v). auto. }
      destruct (F _ _ R' St') as [L [Fi HQ]]. pose proof H' as [L' _]. pose proof H as [L'' _]. split; [lia|]. split.
      + intros k I. apply In_nth_error' in I. destruct I as [r E]. destruct (Sim_other _ _ _ _ H' E) as [k' [E' Sk]].
        destruct (Fi k') as [P1 [P2 P3]]; [eapply nth_error_In; eauto|]. destruct Sk as [H1 H2 H3 H4 H5 H6 H7].
        rewrite H2, H3. split; auto. rewrite P1 in H1. inversion H1. auto.
      + intros r k E. destruct (Sim_other _ _ _ _ H' E) as [k' [E' Sk]]. apply (K r (store k) (store k')); eauto.
        * assert (X : nth_error t r <> None) by congruence. apply nth_error_Some in X. lia.
        * apply (si_len _ _ _ Sk).
        * apply (si_store _ _ _ Sk).
  Qed.
End Taint.

Section Does.
  Context {D : Type} (blank : D).
  Lemma does_runs : forall n (P : nat -> list (op D)) S S',
    (forall r rest c, r < n -> runs blank (mkrk (P r ++ rest) (S r) [] [] c) (mkrk rest (S' r) [] [] c)) -> does blank n P S S'.
  Proof. intros n P S S' H eg rest c. exists c. apply runs_world. intros r L. apply H. auto. Qed.
End Does.

(** * The gather with a constant for the root's own part *)
Section Masked.
  Context {D : Type} (blank w : D) (n root : nat).
  Hypothesis root_lt : root < n.
  Definition mstep (r ri : nat) : list (op D) :=
    (if r =? root then [Irecv (1 + ri) ri None (1 + ri)] else [])
    ++ (if r =? ri then [Isend 0 root 0 0; Wait 0] else [])
    ++ (if r =? root then [Wait (if ri =? root then 0 else 1 + ri);
                           if ri =? root then Local [] [1 + n + ri] (fun _ => [w])
                           else Local [1 + ri] [1 + n + ri] (fun l => [nth 0 l blank])] else []).
  Definition mprog (r : nat) : list (op D) := flat_map (mstep r) (seq 0 n).

  Definition mu (ri r : nat) : list (unit_ D) :=
    (if r =? root then [RV (1 + ri) ri None (1 + ri)] else []) ++ (if r =? ri then [SD 0 root 0 0] else []).
  Lemma mu_s : forall ri r, flat_map slist (mu ri r) = if r =? ri then [(0, root, 0, 0)] else [].
  Proof. intros. unfold mu. destruct (r =? root), (r =? ri); auto. Qed.
  Lemma mu_r : forall ri r, flat_map rlist (mu ri r) = if r =? root then [mkr (1 + ri) ri None (1 + ri)] else [].
  Proof. intros. unfold mu. destruct (r =? root), (r =? ri); auto. Qed.
  Lemma mu_w : forall ri r s, writes (mu ri r) s = (s : list D).
  Proof. intros. unfold mu. destruct (r =? root), (r =? ri); auto. Qed.
  Variable piece : nat -> D.
  Definition mnext (ri : nat) (s : list D) : list D :=
    put (1 + n + ri) (if ri =? root then w else piece ri) (put (1 + ri) (piece ri) s).
  (** The receive may be served at once, the waits are for later. *)
  Definition mwait (r ri : nat) : list (op D) :=
    (if r =? ri then [Wait 0] else []) ++
    (if r =? root then [Wait (if ri =? root then 0 else 1 + ri);
                        if ri =? root then Local [] [1 + n + ri] (fun _ => [w])
                        else Local [1 + ri] [1 + n + ri] (fun l => [nth 0 l blank])] else []).
  Lemma mstep_does : forall ri s, ri < n -> get blank (s ri) 0 = piece ri -> n + n < length (s root) ->
    does blank n (fun r => mstep r ri) s (fun r => if r =? root then mnext ri (s r) else s r).
  Proof.
    intros ri s L Hp Ls.
    apply does_ext with (P := fun r => flat_map uops (mu ri r) ++ mwait r ri) (S := s) (S' := fun r => if r =? root then mnext ri (s r) else s r); auto.
    2:{ intros r _. unfold mstep, mu, mwait. destruct (r =? root), (r =? ri); auto. }
    apply does_app with (S' := fun r => if r =? root then put (1 + ri) (piece ri) (s r) else s r).
    - apply does_exchange with (W := fun p _ => get blank (s p) 0).
      + constructor.
        * intros r x Lr I. rewrite mu_r in I. destruct (Nat.eqb_spec r root) as [->|]; [|destruct I]. destruct I as [<-|[]]. simpl. split; auto.
          exists 0, 0, 0. rewrite mu_s, Nat.eqb_refl. split; [left; auto|auto].
        * intros p q d t b Lp I. rewrite mu_s in I. destruct (Nat.eqb_spec p ri) as [->|]; [|destruct I]. destruct I as [I|[]]. injection I as <- <- <- <-.
          split; auto. rewrite mu_r, Nat.eqb_refl. eexists. split; [left; reflexivity|]. auto.
        * intros p Lp. rewrite mu_s. destruct (p =? ri); simpl; repeat constructor; auto.
        * intros p Lp. rewrite mu_r. destruct (p =? root); simpl; repeat constructor; auto.
        * intros p Lp. rewrite mu_r. destruct (p =? root); simpl; repeat constructor; auto.
        * intros p q d t b x Lp I J. rewrite mu_s in I. destruct (p =? ri); [|destruct I]. destruct I as [I|[]]. injection I as <- <- <- <-.
          rewrite mu_r in J. destruct (p =? root); [|destruct J]. destruct J as [<-|[]]. simpl. lia.
      + intros p q d t b Lp I. rewrite mu_s in I. destruct (p =? ri); [|destruct I]. destruct I as [I|[]]. injection I as <- <- <- <-.
        rewrite mu_w. auto.
      + intros r Lr. rewrite mu_r, mu_w. destruct (r =? root); auto. simpl. rewrite Hp. auto.
    - apply does_runs. intros r rest c Lr. unfold mwait.
      assert (R : runs blank (mkrk ((if r =? root then [Wait (if ri =? root then 0 else 1 + ri);
                        if ri =? root then Local [] [1 + n + ri] (fun _ => [w])
                        else Local [1 + ri] [1 + n + ri] (fun l => [nth 0 l blank])] else []) ++ rest)
                  (if r =? root then put (1 + ri) (piece ri) (s r) else s r) [] [] c)
                (mkrk rest (if r =? root then mnext ri (s r) else s r) [] [] c)).
      { destruct (Nat.eqb_spec r root) as [->|]; [|apply runs_refl]. cbn [app]. apply runs_wait; [reflexivity..|].
        unfold mnext. destruct (ri =? root); apply runs_local.
        - simpl. apply runs_refl.
        - cbn [map nth puts]. rewrite get_put_same by lia. apply runs_refl. }
      destruct (r =? ri); auto. cbn [app]. apply runs_wait; [reflexivity..|]. exact R.
  Qed.
  Fixpoint mstate (s : list D) (m : nat) : list D := match m with 0 => s | S m' => mnext m' (mstate s m') end.
  Lemma mstate_length : forall s m, length (mstate s m) = length s.
  Proof. induction m; simpl; auto. unfold mnext. rewrite !put_length. auto. Qed.
  Lemma mstate_zero : forall s m, get blank (mstate s m) 0 = get blank s 0.
  Proof. induction m; simpl; auto. unfold mnext. rewrite !get_put_other by lia. auto. Qed.
  Lemma mstate_old : forall s m b, (forall i, i < m -> b <> 1 + i /\ b <> 1 + n + i) -> get blank (mstate s m) b = get blank s b.
  Proof.
    induction m; simpl; intros b H; auto. unfold mnext. rewrite !get_put_other by (apply H; lia). apply IHm. intros; apply H; lia.
  Qed.
  Lemma mstate_tmp : forall s m i, i < m -> m <= n -> n + n < length s -> get blank (mstate s m) (1 + i) = piece i.
  Proof.
    induction m; simpl; intros i L Ln Ls; [lia|]. unfold mnext. rewrite get_put_other by lia.
    destruct (Nat.eq_dec i m) as [->|N].
    - apply get_put_same. rewrite mstate_length. lia.
    - rewrite get_put_other by lia. apply IHm; lia.
  Qed.
  Lemma mstate_res : forall s m i, i < m -> m <= n -> n + n < length s -> get blank (mstate s m) (1 + n + i) = if i =? root then w else piece i.
  Proof.
    induction m; simpl; intros i L Ln Ls; [lia|]. unfold mnext. destruct (Nat.eq_dec i m) as [->|N].
    - apply get_put_same. rewrite put_length, mstate_length. lia.
    - rewrite !get_put_other by lia. apply IHm; lia.
  Qed.
  Lemma mprog_does : forall s, (forall i, i < n -> get blank (s i) 0 = piece i) -> n + n < length (s root) ->
    does blank n mprog s (fun r => if r =? root then mstate (s r) n else s r).
  Proof.
    intros s Hp Ls.
    apply does_ext with (P := mprog) (S := fun r => if r =? root then mstate (s r) 0 else s r) (S' := fun r => if r =? root then mstate (s r) n else s r); auto.
    2:{ intros r _. simpl. destruct (r =? root); auto. }
    apply (does_loop blank n (fun ri r => mstep r ri) (fun j r => if r =? root then mstate (s r) j else s r) n).
    intros j Lj. eapply does_ext; [apply (mstep_does j (fun r => if r =? root then mstate (s r) j else s r) Lj)| | |]; auto.
    - cbv beta. destruct (j =? root); [rewrite mstate_zero|]; auto.
    - cbv beta. rewrite Nat.eqb_refl. rewrite mstate_length. auto.
    - intros r Lr. cbv beta. rewrite Nat.add_1_r. simpl. destruct (r =? root); auto.
  Qed.
  Definition mopen (o : list opn) (ri : nat) : Prop := o = [] \/ (root < ri /\ o = [(1 + root, true, 1 + root)]).
  Lemma rfe_mstep : forall o r ri, mopen o ri -> ri < n -> exists o', rfe o (mstep r ri) = Some o' /\ mopen o' (S ri).
  Proof.
    intros o r ri H L. unfold mstep. 
    assert (B : forall a b : nat, a <> b -> (a =? b) = false) by (intros; apply Nat.eqb_neq; auto).
    destruct (Nat.eqb_spec r root) as [E1|E1], (Nat.eqb_spec r ri) as [E2|E2]; cbn [app].
    - subst. destruct H as [->|[H _]]; [|lia]. rewrite Nat.eqb_refl. simpl. unfold oreq, obuf, orcv. simpl.
      rewrite !B by lia. simpl. eexists. split; [reflexivity|]. right. split; auto.
    - subst. assert (N : ri <> root) by auto. rewrite (B ri root N). destruct H as [->|[H ->]]; simpl; unfold oreq, obuf, orcv; simpl.
      + rewrite !Nat.eqb_refl. simpl. eexists. split; [reflexivity|]. left; auto.
      + rewrite (B root ri) by lia. simpl. rewrite !Nat.eqb_refl. simpl. rewrite ?B by lia. simpl. rewrite ?B by lia. simpl. rewrite ?B by lia. simpl.
        eexists. split; [reflexivity|]. right. split; [lia|auto].
    - subst. simpl. destruct H as [->|[H ->]]; simpl; unfold oreq, obuf, orcv; simpl; eexists; (split; [reflexivity|]); [left; auto|right; split; [lia|auto]].
    - simpl. exists o. split; auto. destruct H as [->|[H ->]]; [left; auto|right; split; [lia|auto]].
  Qed.
  Lemma rfe_mprog : forall r, exists o, rfe [] (mprog r) = Some o.
  Proof.
    intros r. assert (H : forall m, m <= n -> exists o, rfe [] (flat_map (mstep r) (seq 0 m)) = Some o /\ mopen o m).
    { induction m; intros L; [exists []; split; [auto|left; auto]|]. destruct IHm as [o [E1 E2]]; [lia|].
      destruct (rfe_mstep o r m E2) as [o' [E3 E4]]; [lia|]. exists o'. split; auto. rewrite seq_S, flat_map_app.
      rewrite (rfe_app _ _ _ _ E1). simpl. rewrite app_nil_r. auto. }
    destruct (H n) as [o [E _]]; eauto.
  Qed.
End Masked.

(** * The real one *)
Section Real.
  Context {D : Type} (blank : D) (n root : nat).
  Hypothesis root_lt : root < n.
  Definition own (r b : nat) : Prop := r = root /\ b = 1 + n + root.
  Lemma gather_sim : forall r, Forall2 (simop own r) (gather_prog blank n root r) (mprog blank blank n root r).
  Proof.
    intros r. unfold gather_prog, mprog. assert (B : forall x, In x (seq 0 n) -> x < n) by (intros x I; apply in_seq in I; lia).
    induction (seq 0 n) as [|ri l IH]; [constructor|]. cbn [flat_map].
    assert (Lri : ri < n) by (apply B; left; auto). apply Forall2_app; [|apply IH; intros; apply B; right; auto].
    unfold gather_step, mstep. apply Forall2_app; [|apply Forall2_app].
    - destruct (r =? root); repeat constructor.
    - destruct (r =? ri); repeat constructor. intros [_ E]. discriminate.
    - destruct (Nat.eqb_spec r root) as [->|]; [|constructor]. constructor; [constructor|constructor; [|constructor]].
      destruct (Nat.eqb_spec ri root) as [->|N].
      + apply so_taint. intros b [<-|[]]. split; auto.
      + apply so_same. intros b [<-|[]] [_ E]. lia.
  Qed.
  Lemma gather_ends : forall eager (s : nat -> list D), n + n < length (s root) ->
    always_ends blank eager (map (fun r => start (gather_prog blank n root r) (s r)) (seq 0 n))
      (fun r st => length st = length (s r)
        /\ (r <> root -> forall b, get blank st b = get blank (s r) b)
        /\ (r = root -> forall i, i < n ->
              get blank st (1 + i) = get blank (s i) 0 /\ (i <> root -> get blank st (1 + n + i) = get blank (s i) 0))).
  Proof.
    intros eager s Ls.
    set (fin := fun r => if r =? root then mstate blank n root (fun i => get blank (s i) 0) (s r) n else s r).
    apply Sim_always with (taint := own) (s' := map (fun r => start (mprog blank blank n root r) (s r)) (seq 0 n))
      (Q' := fun r st => st = fin r).
    - split; [rewrite !map_length; auto|]. intros r k k' E E'.
      apply world_nth_inv in E. apply world_nth_inv in E'. destruct E as [L ->], E' as [_ ->]. constructor; cbn [start prog sends recvs cnt store]; auto.
      apply gather_sim.
    - apply does_always with (S' := fin).
      + apply mprog_does; auto.
      + intros r L. apply rfe_mprog; auto.
      + auto.
    - intros r st st' L -> Le Ag. rewrite map_length, seq_length in L. unfold fin in *. destruct (Nat.eqb_spec r root) as [->|N].
      + split; [rewrite Le, mstate_length; auto|]. split; [tauto|]. intros _ i Li. split.
        * rewrite Ag; [|intros [_ E]; lia]. rewrite mstate_tmp; auto.
        * intros Ni. rewrite Ag; [|intros [_ E]; lia]. rewrite mstate_res; auto. rewrite (proj2 (Nat.eqb_neq i root)); auto.
      + split; auto. split; [|tauto]. intros _ b. apply Ag. intros [E _]. auto.
  Qed.
End Real.
