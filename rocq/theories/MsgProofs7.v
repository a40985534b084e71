(** The root's own part in [MPIArray.gather]: never anything but what the new
    array held before, or the right data; the right data when messages are not copied. *)
From Coq Require Import List Arith ZArith Bool Lia.
From Verif Require Import PyBase PartModel RedModel MsgModel MsgSpec MsgProofs MsgProofs2 MsgProofs3 MsgProg MsgProofs4 MsgProofs5 MsgProofs6.
Import ListNotations.
Open Scope nat_scope.

Section Own.
  Context {D : Type} (blank : D) (n root : nat).
  Hypothesis root_lt : root < n.
  Notation op := (op D).
  Notation rk := (rk D).
  Variables (old v0 : D).
  Definition loc (i : nat) : op := Local [1 + i] [1 + n + i] (fun l => [nth 0 l blank]).
  Inductive opform : op -> Prop :=
  | of_recv : forall i, i < n -> opform (Irecv (1 + i) i None (1 + i))
  | of_send : opform (Isend 0 root 0 0)
  | of_wait : forall q, opform (Wait q)
  | of_loc : forall i, i < n -> opform (loc i).
  Definition paid (p : payload D) : Prop := p = InBuf 0 \/ p = Copied v0.
  Record good (k : rk) : Prop := mkgood {
    g_ops : forall o, In o (prog k) -> opform o;
    g_len : n + n < length (store k);
    g_zero : get blank (store k) 0 = v0;
    g_tmp : get blank (store k) (1 + root) = old \/ get blank (store k) (1 + root) = v0;
    g_recvs : forall x, In x (recvs k) -> exists i, i < n /\ x = mkr (1 + i) i None (1 + i);
    g_sends : forall m, In m (sends k) -> mdst m = root /\ mreq m = 0 /\ paid (mpay m);
    g_own : In (loc root) (prog k) \/ get blank (store k) (1 + n + root) = old \/ get blank (store k) (1 + n + root) = v0 }.
  Lemma good_exec : forall k, good k -> ready k = true -> good (exec blank k).
  Proof.
    intros k [G1 G2 G3 G4 G5 G6 G7] R. unfold exec, ready in *. destruct (prog k) as [|o p]; [discriminate|].
    assert (O : opform o) by (apply G1; left; auto). assert (Gp : forall o, In o p -> opform o) by (intros; apply G1; right; auto).
    destruct O as [i L| |q|i L]; [| | |unfold loc in *]; constructor; cbn [prog store sends recvs]; auto.
    - intros x I. apply in_app_or in I. destruct I as [I|[<-|[]]]; eauto.
    - destruct G7 as [[E|I]|G7]; auto. discriminate.
    - intros m I. apply in_app_or in I. destruct I as [I|[<-|[]]]; auto. simpl. unfold paid. auto.
    - destruct G7 as [[E|I]|G7]; auto. discriminate.
    - destruct G7 as [[E|I]|G7]; auto. discriminate.
    - rewrite puts_length. auto.
    - simpl. rewrite get_put_other by lia. auto.
    - simpl. rewrite get_put_other by lia. auto.
    - cbn [map puts nth]. destruct (Nat.eq_dec i root) as [->|N].
      + rewrite get_put_same by lia. right. destruct G4 as [->| ->]; auto.
      + rewrite get_put_other by lia. destruct G7 as [[E|I]|G7]; auto. exfalso. injection E. lia.
  Qed.
  Lemma good_copy : forall i k, good k -> good (copy blank i k).
  Proof.
    intros i k [G1 G2 G3 G4 G5 G6 G7]. unfold copy. constructor; cbn [prog store sends recvs]; auto.
    intros m I. apply in_map_iff in I. destruct I as [m0 [<- I]]. destruct (G6 m0 I) as [A [B C]]. unfold copy_msg.
    destruct (mid m0 =? i); simpl; auto. split; auto. split; auto. destruct C as [-> | ->]; right; rewrite ?G3; auto.
  Qed.
  Lemma good_leave : forall i k, good k -> good (leave i k).
  Proof.
    intros i k [G1 G2 G3 G4 G5 G6 G7]. unfold leave. constructor; cbn [prog store sends recvs]; auto.
    intros m I. apply filter_In in I. destruct I. auto.
  Qed.
  Lemma good_take : forall i v k, good k -> i < n -> (i = root -> v = v0) -> good (take (1 + i) (1 + i) v k).
  Proof.
    intros i v k [G1 G2 G3 G4 G5 G6 G7] L H. unfold take. constructor; cbn [prog store sends recvs]; auto.
    - rewrite put_length. auto.
    - rewrite get_put_other by lia. auto.
    - destruct (Nat.eq_dec i root) as [->|N].
      + rewrite get_put_same by lia. auto.
      + rewrite get_put_other by lia. auto.
    - intros x I. apply filter_In in I. destruct I. auto.
    - rewrite get_put_other by lia. auto.
  Qed.
  Lemma good_value : forall k m, good k -> In m (sends k) -> value blank k m = v0.
  Proof. intros k m [G1 G2 G3 G4 G5 G6 G7] I. unfold value. destruct (G6 m I) as [_ [_ [-> | ->]]]; auto. Qed.
  Lemma good_barrier : forall k, good k -> at_barrier k = false.
  Proof.
    intros k [G1 _ _ _ _ _ _]. unfold at_barrier. destruct (prog k) as [|o p]; auto. assert (O : opform o) by (apply G1; left; auto).
    destruct O; auto.
  Qed.
  Definition Good (st : list rk) : Prop := exists k, nth_error st root = Some k /\ good k.
  (** How a step changes the root. *)
  Inductive rstep (eager : nat -> nat -> bool) : rk -> rk -> Prop :=
  | rs_id : forall k, rstep eager k k
  | rs_exec : forall k, ready k = true -> rstep eager k (exec blank k)
  | rs_copy : forall k m b, In m (sends k) -> mpay m = InBuf b -> eager root (mid m) = true -> rstep eager k (copy blank (mid m) k)
  | rs_take : forall k i v, i < n -> i <> root -> rstep eager k (take (1 + i) (1 + i) v k)
  | rs_own : forall k i, (exists m, In m (sends k)) -> rstep eager k (take (1 + root) (1 + root) v0 (leave i k)).
  Lemma step_root : forall eg s t k, step blank eg s t -> nth_error s root = Some k -> good k ->
    exists k', nth_error t root = Some k' /\ rstep eg k k'.
  Proof.
    intros eg s t k S E G. destruct S as [st r k1 E1 R|st N B|st r k1 m b E1 I P Ge|st p q kp kq m x l1 l2 l3 l4 Ep Eq S1 S2 D1 D2 T F1 F2].
    - destruct (Nat.eq_dec r root) as [->|N].
      + rewrite E in E1. injection E1 as <-. exists (exec blank k). split; [apply upd_same; auto|constructor; auto].
      + exists k. split; [rewrite upd_other; auto|constructor].
    - exfalso. apply nth_error_In in E. apply B in E. rewrite good_barrier in E; auto. discriminate.
    - destruct (Nat.eq_dec r root) as [->|N].
      + rewrite E in E1. injection E1 as <-. exists (copy blank (mid m) k). split; [apply upd_same; auto|econstructor; eauto].
      + exists k. split; [rewrite upd_other; auto|constructor].
    - assert (Im : In m (sends kp)) by (rewrite S1; apply in_elt). assert (Ix : In x (recvs kq)) by (rewrite S2; apply in_elt).
      destruct (Nat.eq_dec p root) as [->|Np].
      + rewrite E in Ep. injection Ep as <-. destruct (g_sends _ G m Im) as [Dr _]. rewrite Dr in D1. subst q.
        rewrite E in Eq. injection Eq as <-. destruct (g_recvs _ G x Ix) as [i [Li ->]]. simpl in *. subst i.
        exists (take (S root) (S root) (value blank k m) (leave (mid m) k)). split.
        * erewrite upd_same; [reflexivity|]. apply upd_same; auto.
        * rewrite (good_value k m G Im). apply rs_own. eauto.
      + destruct (Nat.eq_dec q root) as [->|Nq].
        * rewrite E in Eq. injection Eq as <-. destruct (g_recvs _ G x Ix) as [i [Li ->]]. simpl in *. subst i.
          exists (take (S p) (S p) (value blank kp m) k). split.
          -- erewrite upd_same; [reflexivity|]. rewrite upd_other; auto.
          -- apply rs_take; auto.
        * exists k. split; [rewrite !upd_other; auto|constructor].
  Qed.
  Lemma good_rstep : forall eg k k', good k -> rstep eg k k' -> good k'.
  Proof.
    intros eg k k' G R. destruct R.
    - auto.
    - apply good_exec; auto.
    - apply good_copy; auto.
    - apply good_take; auto. intros; contradiction.
    - apply good_take; auto. apply good_leave; auto.
  Qed.
  Lemma Good_step : forall eg s t, Good s -> step blank eg s t -> Good t.
  Proof. intros eg s t [k [E G]] S. destruct (step_root _ _ _ _ S E G) as [k' [E' R]]. exists k'. split; auto. eapply good_rstep; eauto. Qed.
  Lemma Good_run : forall eg m s t, Good s -> run blank eg m s t -> Good t.
  Proof. intros eg m s t G R. induction R; auto. apply IHR. eapply Good_step; eauto. Qed.

  (** Without copies. *)
  Variable P2 : list op.
  Hypothesis P2_later : forall o, In o P2 -> exists i, root < i /\ forall rd wr f, o = Local rd wr f -> o = loc i.
  Inductive phase (k : rk) : Prop :=
  | ph_a : forall p1, prog k = p1 ++ [Isend 0 root 0 0; Wait 0; Wait 0; loc root] ++ P2 -> phase k
  | ph_b : forall m, prog k = [Wait 0; Wait 0; loc root] ++ P2 -> In m (sends k) -> mreq m = 0 -> phase k
  | ph_c : forall p1, prog k = p1 ++ [loc root] ++ P2 -> get blank (store k) (1 + root) = v0 -> phase k
  | ph_d : forall p1, P2 = p1 ++ prog k -> get blank (store k) (1 + n + root) = v0 -> phase k.
  Definition direct (k : rk) : Prop := forall m, In m (sends k) -> mpay m = InBuf 0.
  Lemma direct_rstep : forall eg k k', (forall i, eg root i = false) -> good k -> direct k -> rstep eg k k' -> direct k'.
  Proof.
    intros eg k k' Eg G H R. destruct R; unfold direct in *; auto.
    - unfold exec. destruct (prog k) as [|o p] eqn:Ep; [rewrite ?Ep; auto|].
      assert (O : opform o) by (apply (g_ops _ G); rewrite Ep; left; auto). destruct O; cbn [sends]; auto.
      intros m I. apply in_app_or in I. destruct I as [I|[<-|[]]]; auto.
    - rewrite Eg in *. discriminate.
    - unfold take, leave. cbn [sends]. intros m I. apply filter_In in I. destruct I; auto.
  Qed.
  Lemma phase_rstep : forall eg k k', (forall i, eg root i = false) -> good k -> direct k -> phase k -> rstep eg k k' -> phase k'.
  Proof.
    intros eg k k' Eg G H P R. destruct R as [k|k Rd|k m b I Pm Ge|k i v Li Ni|k i [m Im]]; auto.
    - destruct P as [p1 E|m E I Q|p1 E V|p1 E V].
      + destruct p1 as [|o p1]; cbn [app] in E.
        * eapply (ph_b _ (mkm (cnt k) 0 root 0 (InBuf 0))); unfold exec; rewrite ?E; cbn [prog sends mreq]; auto. apply in_or_app. right. left. auto.
        * apply (ph_a _ p1). assert (O : opform o) by (apply (g_ops _ G); rewrite E; left; auto).
          unfold exec. rewrite E. destruct O; auto.
      + exfalso. cbn [app] in E. unfold ready in Rd. rewrite E in Rd. apply negb_true_iff in Rd. unfold pending in Rd.
        apply orb_false_iff in Rd. destruct Rd as [Rd _]. assert (X : existsb (fun m => (mreq m =? 0) && negb (is_copied (mpay m))) (sends k) = true).
        { apply existsb_exists. exists m. split; auto. rewrite Q, (H m I). auto. }
        congruence.
      + destruct p1 as [|o p1]; cbn [app] in E.
        * apply (ph_d _ []); unfold exec; rewrite E; unfold loc; cbn [prog store map nth puts]; auto.
          rewrite get_put_same by (pose proof (g_len _ G); lia). auto.
        * apply (ph_c _ p1). 
          -- assert (O : opform o) by (apply (g_ops _ G); rewrite E; left; auto). unfold exec. rewrite E. destruct O; auto.
          -- assert (O : opform o) by (apply (g_ops _ G); rewrite E; left; auto). unfold exec. rewrite E. destruct O; auto.
             unfold loc. cbn [store map nth puts]. rewrite get_put_other by lia. auto.
      + unfold ready in Rd. destruct (prog k) as [|o p] eqn:Ep; [discriminate|]. apply (ph_d _ (p1 ++ [o])).
        * assert (O : opform o) by (apply (g_ops _ G); rewrite Ep; left; auto). unfold exec. rewrite Ep, <- app_assoc. destruct O; auto.
        * assert (O : opform o) by (apply (g_ops _ G); rewrite Ep; left; auto).
          assert (I : In o P2) by (rewrite E; apply in_elt).
          unfold exec. rewrite Ep. destruct O as [i L| |q|i L]; auto.
          unfold loc. cbn [store map nth puts]. destruct (P2_later _ I) as [j [Lj K]]. specialize (K _ _ _ eq_refl). injection K as K.
          rewrite get_put_other by lia. auto.
    - rewrite Eg in Ge. discriminate.
    - destruct P as [p1 E|m E I Q|p1 E V|p1 E V].
      + apply (ph_a _ p1). auto.
      + apply (ph_b _ m); auto.
      + apply (ph_c _ p1); auto. unfold take. cbn [store]. rewrite get_put_other by lia. auto.
      + apply (ph_d _ p1); auto. unfold take. cbn [store]. rewrite get_put_other by lia. auto.
    - assert (V1 : get blank (store (take (1 + root) (1 + root) v0 (leave i k))) (1 + root) = v0).
      { unfold take, leave. cbn [store]. apply get_put_same. pose proof (g_len _ G). lia. }
      destruct P as [p1 E|m' E I Q|p1 E V|p1 E V].
      + apply (ph_a _ p1). auto.
      + apply (ph_c _ [Wait 0; Wait 0]); auto.
      + apply (ph_c _ p1); auto.
      + apply (ph_d _ p1); auto. unfold take, leave. cbn [store]. rewrite get_put_other by lia. auto.
  Qed.
  Definition Phase (st : list rk) : Prop := exists k, nth_error st root = Some k /\ good k /\ direct k /\ phase k.
  Lemma Phase_run : forall eg m s t, (forall i, eg root i = false) -> Phase s -> run blank eg m s t -> Phase t.
  Proof.
    intros eg m s t Eg G R. induction R; auto. apply IHR. destruct G as [k [E [G [Dk P]]]].
    destruct (step_root _ _ _ _ H E G) as [k' [E' R']]. exists k'. split; auto. split; [eapply good_rstep; eauto|].
    split; [eapply direct_rstep; eauto|eapply phase_rstep; eauto].
  Qed.
End Own.

Section OwnPart.
  Context {D : Type} (blank : D) (n root : nat).
  Hypothesis root_lt : root < n.
  Definition later : list (op D) := flat_map (gather_step blank n root root) (seq (S root) (n - S root)).
  Lemma gather_root : gather_prog blank n root root =
    (flat_map (gather_step blank n root root) (seq 0 root) ++ [Irecv (1 + root) root None (1 + root)])
    ++ [Isend 0 root 0 0; Wait 0; Wait 0; loc blank n root] ++ later.
  Proof.
    unfold gather_prog, later.
    assert (E : seq 0 n = seq 0 root ++ root :: seq (S root) (n - S root)).
    { replace n with (root + S (n - S root)) at 1 by lia. rewrite seq_app. auto. }
    rewrite E, flat_map_app. cbn [flat_map]. unfold gather_step at 2. rewrite !Nat.eqb_refl. rewrite <- !app_assoc. reflexivity.
  Qed.
  Lemma later_later : forall o, In o later -> exists i, root < i /\ forall rd wr f, o = Local rd wr f -> o = loc blank n i.
  Proof.
    intros o I. apply in_flat_map in I. destruct I as [i [Ii I]]. apply in_seq in Ii. exists i. split; [lia|].
    unfold gather_step in I. rewrite Nat.eqb_refl in I. rewrite (proj2 (Nat.eqb_neq root i)) in I by lia. cbn [app] in I.
    destruct I as [<-|[<-|[<-|[]]]]; try discriminate; auto.
  Qed.
  Lemma gather_form : forall o, In o (gather_prog blank n root root) -> opform blank n root o.
  Proof.
    intros o I. apply in_flat_map in I. destruct I as [i [Ii I]]. apply in_seq in Ii. unfold gather_step in I. rewrite Nat.eqb_refl in I.
    destruct (root =? i); cbn [app] in I; repeat match goal with H : _ \/ _ |- _ => destruct H as [<-|H] | H : In _ _ |- _ => destruct H as [<-|H] end;
      try (destruct I); try (constructor; lia); apply of_loc; lia.
  Qed.
  Lemma good_start : forall s, n + n < length s -> good blank n root (get blank s (1 + root)) (get blank s 0) (start (gather_prog blank n root root) s).
  Proof.
    intros s L. constructor; cbn [start prog store sends recvs]; auto.
    - apply gather_form.
    - intros x [].
    - intros m [].
    - left. rewrite gather_root. apply in_or_app. right. simpl. auto.
  Qed.
  Lemma gather_own : forall eager m (s : nat -> list D) t k, n + n < length (s root) ->
    run blank eager m (map (fun r => start (gather_prog blank n root r) (s r)) (seq 0 n)) t -> nth_error t root = Some k -> prog k = [] ->
    (get blank (store k) (1 + n + root) = get blank (s root) (1 + root) \/ get blank (store k) (1 + n + root) = get blank (s root) 0)
    /\ ((forall i, eager root i = false) -> get blank (store k) (1 + n + root) = get blank (s root) 0).
  Proof.
    intros eager m s t k L R E P. split.
    - assert (G : Good blank n root (get blank (s root) (1 + root)) (get blank (s root) 0) t).
      { eapply Good_run; [exact root_lt| |exact R]. exists (start (gather_prog blank n root root) (s root)). split; [|apply good_start; auto].
        apply (world_nth n (fun r => start (gather_prog blank n root r) (s r)) root root_lt). }
      destruct G as [k' [E' G]]. rewrite E in E'. injection E' as <-. pose proof (g_own _ _ _ _ _ _ G) as H. rewrite P in H.
      destruct H as [[]|H]. auto.
    - intros Eg. assert (G : Phase blank n root (get blank (s root) (1 + root)) (get blank (s root) 0) later t).
      { eapply Phase_run; [exact root_lt|apply later_later|exact Eg| |exact R]. exists (start (gather_prog blank n root root) (s root)).
        split; [apply (world_nth n (fun r => start (gather_prog blank n root r) (s r)) root root_lt)|]. split; [apply good_start; auto|]. split; [intros m' []|]. eapply ph_a. apply gather_root. }
      destruct G as [k' [E' [G [_ H]]]]. rewrite E in E'. injection E' as <-. destruct H as [p1 H|m' H|p1 H|p1 H]; auto; exfalso; rewrite P in H.
      + destruct p1; discriminate.
      + discriminate.
      + destruct p1; discriminate.
  Qed.
End OwnPart.
