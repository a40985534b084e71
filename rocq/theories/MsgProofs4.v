(** Redistribution in every order of events. *)
From Coq Require Import List Arith ZArith Bool Lia.
From Verif Require Import PyBase PartModel SliceModel RedModel RedProofs MsgModel MsgSpec MsgProofs MsgProofs2 MsgProofs3 MsgProg.
Import ListNotations.
Open Scope nat_scope.

Lemma get_put_same : forall D (blank : D) b v s, b < length s -> get blank (put b v s) b = v.
Proof.
  intros. unfold get, put. destruct (nth_error s b) eqn:E.
  - apply nth_error_nth. eapply upd_same in E. exact E.
  - apply nth_error_None in E. lia.
Qed.
Lemma put_put_same : forall D b (v w : D) s, put b v (put b w s) = put b v s.
Proof. intros. unfold put. rewrite upd_fuse. auto. Qed.
Lemma put_length : forall D b (v : D) s, length (put b v s) = length s.
Proof. intros. apply upd_length. Qed.
Lemma put_get : forall D (blank : D) b s, put b (get blank s b) s = s.
Proof.
  intros. unfold put, get. revert s. induction b; destruct s; simpl; auto. f_equal. auto.
Qed.

Section Runs.
  Context {D : Type} (blank : D).
  Lemma runs_local : forall rd wr f p s a b c k,
    runs blank (mkrk p (puts wr (f (map (get blank s) rd)) s) a b c) k -> runs blank (mkrk (Local rd wr f :: p) s a b c) k.
  Proof. intros. eapply runs_cons; [reflexivity|exact H]. Qed.
  Lemma runs_isend : forall q d t b p s a l c k,
    runs blank (mkrk p s (a ++ [mkm c q d t (InBuf b)]) l (S c)) k -> runs blank (mkrk (Isend q d t b :: p) s a l c) k.
  Proof. intros. eapply runs_cons; [reflexivity|exact H]. Qed.
  Lemma runs_irecv : forall q d t b p s a l c k,
    runs blank (mkrk p s a (l ++ [mkr q d t b]) c) k -> runs blank (mkrk (Irecv q d t b :: p) s a l c) k.
  Proof. intros. eapply runs_cons; [reflexivity|exact H]. Qed.
  Lemma runs_wait : forall q p s c k,
    runs blank (mkrk p s [] [] c) k -> runs blank (mkrk (Wait q :: p) s [] [] c) k.
  Proof. intros. eapply runs_cons; [reflexivity|exact H]. Qed.
End Runs.

Section Red.
  Context {A : Type} (gshape : list nat) (csize ka kb : nat) (sac eac sar ear : list nat).
  Variables (base self : nat) (locals : nat -> nd (option A)).
  Notation cell := (@cell A). Notation no_cell := (@no_cell A).
  Hypothesis self_base : self < base.
  Notation sendv := (send_after gshape csize ka kb sac eac sar ear locals).
  Notation targv := (target_after gshape csize ka kb sac eac sar ear locals).

  (** The receive buffer after [i] steps. *)
  Definition recvv (r i : nat) : cell :=
    match i with
    | 0 => Ok (nd_empty (buffer_shape gshape ka kb sac eac sar ear r))
    | S j => sendv (recv_from csize r j) i
    end.
  Definition red_state (s : nat -> list cell) (i r : nat) : list cell :=
    put (base + 2) (targv r i) (put (base + 1) (recvv r i) (put base (sendv r i) (s r))).

  Variable s : nat -> list cell.
  Hypothesis len : forall r, r < csize -> base + 2 < length (s r).
  Hypothesis has_self : forall r, r < csize -> get no_cell (s r) self = Ok (locals r).

  Lemma red_init_does : does no_cell csize (fun r => [red_init gshape ka kb sac eac sar ear base r]) s (red_state s 0).
  Proof.
    intros eg rest c. exists c. apply runs_world. intros r L.
    eapply runs_cons; [reflexivity|]. simpl. apply runs_refl.
  Qed.

  Lemma red_step_does : forall i, i < csize ->
    does no_cell csize (red_step csize ka kb sac eac sar ear base self i) (red_state s i) (red_state s (i + 1)).
  Proof.
    intros i Li eg rest c. exists (fun r => S (c r)).
    pose (g1 := fun r => mkrk (Wait 0 :: Wait 1 :: red_store csize ka kb sac eac sar ear base r i :: rest r)
      (put base (sendv r (S i)) (red_state s i r))
      [mkm (c r) 1 (send_to csize r i) (send_tag csize r i) (InBuf base)]
      [mkr 0 (recv_from csize r i) (Some (recv_tag csize r i)) (base + 1)] (S (c r))).
    assert (LS : forall r j, r < csize -> base + 2 < length (red_state s j r)).
    { intros. unfold red_state. rewrite !put_length. auto. }
    eapply steps_trans; [apply (runs_world _ eg csize _ g1)|].
    { intros r L. apply runs_local, runs_irecv, runs_isend.
      unfold g1. simpl. replace (get no_cell (red_state s i r) base) with (sendv r i).
      - replace (get no_cell (red_state s i r) self) with (Ok (locals r) : cell).
        + apply runs_refl.
        + unfold red_state. rewrite !get_put_other by lia. symmetry. auto.
      - unfold red_state. rewrite !get_put_other by lia. rewrite get_put_same; auto. apply Nat.le_lt_trans with (base + 2); [lia|apply len; auto]. }
    assert (P : paired csize g1).
    { constructor; unfold g1; simpl.
      - intros r x L [<-|[]]. destruct (partners csize r i L Li) as [P1 [P2 [P3 P4]]]. simpl. split; auto.
        eexists. split; [left; reflexivity|]. simpl. split; auto. rewrite tags_agree by auto. rewrite P4. apply Nat.eqb_refl.
      - intros r m L [<-|[]]. simpl. destruct (partners csize r i L Li) as [P1 [P2 [P3 P4]]]. split; auto.
        eexists. split; [left; reflexivity|]. simpl. auto.
      - intros. constructor; [simpl; tauto|constructor].
      - intros. constructor; [simpl; tauto|constructor].
      - intros. constructor; [simpl; tauto|constructor].
      - intros. constructor; [simpl; tauto|constructor].
      - intros p m b x L [<-|[]] E [<-|[]]. simpl in *. injection E as <-. lia. }
    eapply steps_trans; [apply deliver_all; exact P|]. apply runs_world. intros r L.
    destruct (partners csize r i L Li) as [P1 [P2 [P3 P4]]].
    assert (VV : V no_cell g1 (recv_from csize r i) r = sendv (recv_from csize r i) (S i)).
    { unfold V, g1, msg_to. simpl. rewrite P4, Nat.eqb_refl. unfold value. simpl. apply get_put_same.
      apply Nat.le_lt_trans with (base + 2); [lia|apply LS; auto]. }
    unfold settled. apply runs_wait, runs_wait, runs_local.
    simpl. rewrite VV. rewrite get_put_other by lia. rewrite get_put_other by lia.
    rewrite get_put_same by (rewrite put_length; apply Nat.le_lt_trans with (base + 2); [lia|apply LS; auto]).
    assert (ES : forall t, put (base + 2) t (put (base + 1) (sendv (recv_from csize r i) (S i)) (put base (sendv r (S i)) (red_state s i r)))
      = put (base + 2) t (put (base + 1) (sendv (recv_from csize r i) (S i)) (put base (sendv r (S i)) (s r)))).
    { intros t. unfold red_state. rewrite (put_comm base (base + 2)) by lia. rewrite (put_comm (base + 1) (base + 2)) by lia.
      rewrite put_put_same. rewrite (put_comm base (base + 1)) by lia. rewrite !put_put_same. auto. }
    rewrite ES. replace (get no_cell (red_state s i r) (base + 2)) with (targv r i).
    - replace (i + 1) with (S i) by lia. apply runs_refl.
    - unfold red_state. rewrite get_put_same; auto. rewrite !put_length. auto.
  Qed.

  Lemma redistribute_does : does no_cell csize (redistribute_prog gshape csize ka kb sac eac sar ear base self) s (red_state s csize).
  Proof.
    unfold redistribute_prog.
    apply (does_app no_cell csize (fun r => [red_init gshape ka kb sac eac sar ear base r])
      (fun r => flat_map (fun i => red_step csize ka kb sac eac sar ear base self i r) (seq 0 csize)) s (red_state s 0)).
    - apply red_init_does.
    - apply does_loop with (S := red_state s). intros. apply red_step_does; auto.
  Qed.
  Lemma rfe_step : forall i r, rfe [] (red_step (A := A) csize ka kb sac eac sar ear base self i r) = Some [].
  Proof.
    intros. simpl. unfold oreq, obuf, orcv. simpl.
    replace (base + 1 =? base) with false by (symmetry; apply Nat.eqb_neq; lia). reflexivity.
  Qed.
  Lemma rfe_redistribute : forall r, rfe [] (redistribute_prog (A := A) gshape csize ka kb sac eac sar ear base self r) = Some [].
  Proof.
    intros r. unfold redistribute_prog. simpl. generalize (seq 0 csize). induction l as [|i l IH]; [reflexivity|].
    cbn [flat_map]. erewrite rfe_app; [exact IH|apply rfe_step].
  Qed.
End Red.

(** * Several redistributions *)
Section RedSeq.
  Context {A : Type} (gshape : list nat) (csize : nat) (axes : nat -> nat).
  Notation cell := (@cell A). Notation no_cell := (@no_cell A).
  (** [L j]: the local arrays after [j] redistributions. *)
  Variable L : nat -> nat -> nd (option A).
  Definition one (j r : nat) : cell :=
    let c := splits gshape csize (axes (j + 1)) in
    let w := splits gshape csize (axes j) in
    target_after gshape csize (axes j) (axes (j + 1)) (fst c) (snd c) (fst w) (snd w) (L j) r csize.

  Fixpoint seq_state (s : nat -> list cell) (j : nat) : nat -> list cell :=
    match j with
    | 0 => s
    | S j' =>
        let c := splits gshape csize (axes (j' + 1)) in
        let w := splits gshape csize (axes j') in
        red_state gshape csize (axes j') (axes (j' + 1)) (fst c) (snd c) (fst w) (snd w) (3 * j' + 1) (L j') (seq_state s j') csize
    end.
  Variable s : nat -> list cell.
  Variable m : nat.
  Hypothesis chain : forall j r, r < csize -> j < m -> one j r = Ok (L (j + 1) r).
  Hypothesis len : forall r, r < csize -> 3 * m < length (s r).
  Hypothesis first : forall r, r < csize -> get no_cell (s r) 0 = Ok (L 0 r).

  Lemma seq_len : forall j r, length (seq_state s j r) = length (s r).
  Proof. induction j; intros; simpl; auto. unfold red_state. rewrite !put_length. auto. Qed.
  Lemma seq_get : forall j r, r < csize -> j <= m -> get no_cell (seq_state s j r) (3 * j) = Ok (L j r).
  Proof.
    destruct j; intros r H H1; [apply first; auto|].
    simpl. unfold red_state. replace (j + S (j + S (j + 0))) with (3 * j + 2) by lia.
    replace (S (3 * j + 2)) with (3 * j + 1 + 2) by lia. rewrite get_put_same.
    - rewrite <- (Nat.add_1_r j). apply (chain j r H). lia.
    - rewrite !put_length, seq_len. specialize (len r H). lia.
  Qed.
  Lemma seq_does : does no_cell csize (redistribute_seq gshape csize axes m) s (seq_state s m).
  Proof.
    unfold redistribute_seq.
    apply (does_loop no_cell csize (fun j r => redistribute_prog gshape csize (axes j) (axes (j + 1))
       (fst (splits gshape csize (axes (j + 1)))) (snd (splits gshape csize (axes (j + 1))))
       (fst (splits gshape csize (axes j))) (snd (splits gshape csize (axes j))) (3 * j + 1) (3 * j) r) (seq_state s) m).
    intros j Lj. replace (seq_state s (j + 1)) with (seq_state s (S j)) by (rewrite Nat.add_1_r; auto).
    apply (redistribute_does gshape csize (axes j) (axes (j + 1)) (fst (splits gshape csize (axes (j + 1)))) (snd (splits gshape csize (axes (j + 1))))
       (fst (splits gshape csize (axes j))) (snd (splits gshape csize (axes j))) (3 * j + 1) (3 * j) (L j)).
    - lia.
    - intros r H. rewrite seq_len. specialize (len r H). lia.
    - intros r H. apply seq_get; auto. lia.
  Qed.
  Lemma seq_rfe : forall r, rfe [] (redistribute_seq (A := A) gshape csize axes m r) = Some [].
  Proof.
    intros r. unfold redistribute_seq. generalize (seq 0 m). induction l as [|j l IH]; [reflexivity|].
    cbn [flat_map]. erewrite rfe_app; [exact IH|]. apply rfe_redistribute; lia.
  Qed.
End RedSeq.
