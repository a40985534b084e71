(** Runs end, and without shared files they end in one state. *)
From Coq Require Import List Arith Bool Lia.
From Verif Require Import PyBase PartModel ColModel ColSpec.
Import ListNotations.
Open Scope nat_scope.

Section General.
  Context {S V R : Type}.
  Notation proc := (proc S V R).
  Notation state := (state S V R).

  (** * No endless runs *)
  Inductive child : proc -> proc -> Prop :=
  | child_coll : forall g c v k l, child (k l) (Coll g c v k)
  | child_act : forall a q k v, child (k v) (Act a q k).
  Lemma acc_child : forall p, Acc child p.
  Proof. induction p; constructor; intros y C; inversion C; subst; auto. Qed.
  Definition le (p' p : proc) : Prop := p' = p \/ child p' p.
  Definition less (l' l : list proc) : Prop :=
    Forall2 le l' l /\ exists r p' p, nth_error l' r = Some p' /\ nth_error l r = Some p /\ child p' p.
  Lemma le_cases : forall l' l, Forall2 le l' l -> l' = l \/ less l' l.
  Proof.
    intros l' l F. induction F as [|p' p l' l H F IH]; auto.
    destruct H as [->|H].
    - destruct IH as [->|[F' [r [a [b [E1 [E2 C]]]]]]]; auto. right. split; [constructor; auto; left; auto|].
      exists (1 + r), a, b. auto.
    - right. split; [constructor; auto; right; auto|]. exists 0, p', p. auto.
  Qed.
  Lemma acc_cons : forall p, Acc child p -> forall t, Acc less t -> Acc less (p :: t).
  Proof.
    intros p Ap. induction Ap as [p _ IHp]. intros t At. pose proof At as At0. induction At as [t At IHt].
    constructor. intros l' [F X]. inversion F as [|p' p0 t' t0 H F' E1 E2]; subst.
    assert (At' : Acc less t') by (destruct (le_cases _ _ F') as [->|L]; auto).
    destruct H as [->|H]; [|apply IHp; auto].
    destruct X as [[|r] [a [b [E1 [E2 C]]]]]; simpl in *.
    - injection E1 as <-. injection E2 as <-. apply IHp; auto.
    - apply IHt; auto. split; auto. exists r, a, b. auto.
  Qed.
  Lemma acc_less : forall l, Acc less l.
  Proof.
    induction l; [|apply acc_cons; auto using acc_child].
    constructor. intros l' [F [r [a [b [_ [E _]]]]]]. destruct r; discriminate.
  Qed.

  Lemma mem_in : forall r g, mem r g = true <-> In r g.
  Proof.
    unfold mem. intros. rewrite existsb_exists. split.
    - intros [x [I E]]. apply Nat.eqb_eq in E. subst. auto.
    - intros I. exists r. split; auto. apply Nat.eqb_refl.
  Qed.
  Lemma resume_from_nth : forall g (vs : list V) (ps : list proc) i r,
    nth_error (resume_from i g vs ps) r = option_map (fun p => if mem (i + r) g then go_on vs p else p) (nth_error ps r).
  Proof.
    intros g vs. induction ps as [|p ps IH]; intros i [|r]; simpl; auto.
    - rewrite Nat.add_0_r. auto.
    - rewrite IH. simpl. rewrite <- plus_n_Sm. auto.
  Qed.
  Lemma resume_nth : forall g (ps : list proc) r,
    nth_error (resume g ps) r = option_map (fun p => if mem r g then go_on (values g ps) p else p) (nth_error ps r).
  Proof. intros. unfold resume. rewrite resume_from_nth. auto. Qed.
  Lemma nth_ext' : forall X (a b : list X), (forall r, nth_error a r = nth_error b r) -> a = b.
  Proof.
    induction a; destruct b; intros H; auto.
    - specialize (H 0). discriminate.
    - specialize (H 0). discriminate.
    - f_equal. { specialize (H 0). simpl in H. congruence. } apply IHa. intros r. apply (H (Datatypes.S r)).
  Qed.
  Lemma nth_Forall2 : forall (a b : list proc), (forall r, match nth_error a r, nth_error b r with Some x, Some y => le x y | None, None => True | _, _ => False end) -> Forall2 le a b.
  Proof.
    induction a; destruct b; intros H; auto; try (specialize (H 0); simpl in H; contradiction).
    constructor; [apply (H 0)|]. apply IHa. intros r. apply (H (Datatypes.S r)).
  Qed.
  Lemma upd_nth : forall r x (ps : list proc) j, nth_error (upd r x ps) j = if j =? r then option_map (fun _ => x) (nth_error ps j) else nth_error ps j.
  Proof. induction r; destruct ps, j; simpl; auto. destruct (j =? r); auto. Qed.
  Lemma step_less : forall s t : state, step s t -> less (snd t) (snd s).
  Proof.
    intros s t H. destruct H as [s ps g c N A|s s' ps r a q k E A]; simpl.
    - split.
      + apply nth_Forall2. intros r. rewrite resume_nth. destruct (nth_error ps r) eqn:E; simpl; auto.
        destruct (mem r g) eqn:M; [|left; auto]. apply mem_in in M. destruct (A r M) as [v [k E']]. rewrite E in E'. injection E' as ->.
        right. constructor.
      + destruct g as [|r g]; [congruence|]. destruct (A r) as [v [k E]]; [left; auto|]. exists r. rewrite resume_nth, E. simpl.
        rewrite Nat.eqb_refl. simpl. do 2 eexists. split; eauto. split; eauto. constructor.
    - split.
      + apply nth_Forall2. intros j. rewrite upd_nth. destruct (Nat.eqb_spec j r) as [->|Nj].
        * rewrite E. simpl. right. constructor.
        * destruct (nth_error ps j); auto. left. auto.
      + exists r. rewrite upd_nth, Nat.eqb_refl, E. simpl. do 2 eexists. split; eauto. split; eauto. constructor.
  Qed.
  Lemma acc_step : forall s : state, Acc (fun t s => step s t) s.
  Proof.
    intros s. remember (snd s) as l eqn:E. revert s E. induction (acc_less l) as [l _ IH]. intros s ->.
    constructor. intros t H. eapply IH; [|reflexivity]. apply step_less; auto.
  Qed.
  Theorem never_endless : forall s : state, no_endless_run s.
  Proof.
    intros s [f [E H]]. revert f E H. induction (acc_step s) as [s _ IH]. intros f <- H.
    apply (IH (f 1) (H 0) (fun i => f (1 + i))); auto.
  Qed.
  Lemma reach_trans : forall s t u : state, reach s t -> reach t u -> reach s u.
  Proof. intros s t u H. induction H; auto. intros. econstructor; eauto. Qed.
  Lemma reach_one : forall s t : state, step s t -> reach s t.
  Proof. intros. econstructor; eauto. constructor. Qed.

  (** * One end *)
  Fixpoint noact (p : proc) : Prop :=
    match p with
    | Ret _ => True
    | Coll _ _ _ k => forall l, noact (k l)
    | Act _ _ _ => False
    end.
  Definition quiet (ps : list proc) : Prop := forall r p, nth_error ps r = Some p -> noact p.
  Lemma quiet_step : forall s t : state, quiet (snd s) -> step s t -> quiet (snd t) /\ fst t = fst s.
  Proof.
    intros s t Q H. destruct H as [s ps g c N A|s s' ps r a q k E A]; simpl in *.
    - split; auto. intros r p. rewrite resume_nth. destruct (nth_error ps r) eqn:E; simpl; [|discriminate].
      intros H. injection H as <-. specialize (Q r _ E). destruct (mem r g); auto. destruct p0; simpl; auto.
    - specialize (Q r _ E). contradiction.
  Qed.
  Definition disjoint (g h : list nat) : Prop := forall r, In r g -> In r h -> False.
  Lemma values_other : forall g h (ps : list proc), disjoint g h -> values h (resume g ps) = values h ps.
  Proof.
    intros g h ps D. unfold values. assert (H : forall h', (forall r, In r h' -> In r h) -> flat_map (value_at (resume g ps)) h' = flat_map (value_at ps) h').
    { induction h' as [|r h' IH]; intros I; simpl; auto. rewrite IH by (intros; apply I; right; auto). f_equal.
      unfold value_at. rewrite resume_nth. destruct (mem r g) eqn:M.
      - apply mem_in in M. exfalso. apply (D r M). apply I. left. auto.
      - destruct (nth_error ps r) as [[]|]; auto. }
    apply H. auto.
  Qed.
  Lemma disjoint_sym : forall g h, disjoint g h -> disjoint h g.
  Proof. intros g h D r A B. apply (D r); auto. Qed.
  Lemma resume_comm : forall g h (ps : list proc), disjoint g h -> resume h (resume g ps) = resume g (resume h ps).
  Proof.
    intros g h ps D. apply nth_ext'. intros r. rewrite !resume_nth. rewrite (values_other g h), (values_other h g) by auto using disjoint_sym.
    destruct (nth_error ps r) as [p|]; simpl; auto. f_equal. destruct (mem r g) eqn:A, (mem r h) eqn:B; auto.
    apply mem_in in A. apply mem_in in B. destruct (D r A B).
  Qed.
  Lemma diamond : forall s t u : state, quiet (snd s) -> step s t -> step s u -> t = u \/ exists w, step t w /\ step u w.
  Proof.
    intros s t u Q H1 H2. destruct H1 as [s ps g c N A|s s' ps r a q k E A]; [|specialize (Q r _ E); contradiction].
    inversion H2 as [s1 ps1 h d N2 A2 E1 E2|s1 s2 ps1 r a q k E A2 E1 E2]; subst; [|specialize (Q r _ E); contradiction].
    destruct (Exists_dec (fun r => In r h) g) as [X|X]; [intros r; destruct (in_dec Nat.eq_dec r h); auto| |].
    - left. apply Exists_exists in X. destruct X as [r [I1 I2]]. destruct (A r I1) as [v [k E]]. destruct (A2 r I2) as [v' [k' E']].
      rewrite E in E'. injection E' as -> _ _ _. auto.
    - right. assert (D : disjoint g h) by (intros r I1 I2; apply X; apply Exists_exists; eauto).
      exists (s, resume h (resume g ps)). split.
      + apply (step_coll s _ h d); auto. intros r I. rewrite resume_nth. destruct (A2 r I) as [v [k E]]. rewrite E. simpl.
        destruct (mem r g) eqn:M; [|eauto]. apply mem_in in M. destruct (D r M I).
      + rewrite resume_comm by auto. apply (step_coll s _ g c); auto. intros r I. rewrite resume_nth. destruct (A r I) as [v [k E]]. rewrite E. simpl.
        destruct (mem r h) eqn:M; [|eauto]. apply mem_in in M. destruct (D r I M).
  Qed.
  Lemma stuck_reach : forall s t : state, stuck s -> reach s t -> t = s.
  Proof. intros s t K H. destruct H; auto. destruct (K _ H). Qed.
  Lemma reach_or : forall s u t : state, quiet (snd s) -> reach s u -> stuck u -> step s t -> reach t u.
  Proof.
    intros s u t Q H. revert t Q. induction H as [s|s w u Hs Hr IH]; intros t Q K Ht; [destruct (K _ Ht)|].
    destruct (diamond _ _ _ Q Hs Ht) as [->|[x [X1 X2]]]; auto.
    econstructor; eauto. apply IH; auto. apply (proj1 (quiet_step _ _ Q Hs)).
  Qed.
  Theorem one_end : forall s u : state, quiet (snd s) -> reach s u -> stuck u -> always s (fun t => t = u).
  Proof.
    intros s u Q H K. split; [apply never_endless|]. intros t Ht. revert Q H. induction Ht as [s|s w t Hs Hr IH]; intros Q H Kt.
    - symmetry. apply stuck_reach; auto.
    - apply IH; auto; [apply (proj1 (quiet_step _ _ Q Hs))|]. eapply reach_or; eauto.
  Qed.
  Lemma always_weaken : forall (s : state) (P Q : state -> Prop), (forall t, P t -> Q t) -> always s P -> always s Q.
  Proof. intros s P Q H [A B]. split; auto. Qed.
  Theorem unique : forall s t u : state, quiet (snd s) -> reach s t -> stuck t -> reach s u -> stuck u -> t = u.
  Proof. intros s t u Q A B C D. destruct (one_end s u Q C D) as [_ H]. auto. Qed.
  Lemma some_end : forall s : state, quiet (snd s) -> (forall t, reach s t -> stuck t \/ exists u, step t u) -> exists t, reach s t /\ stuck t.
  Proof.
    intros s. induction (acc_step s) as [s _ IH]. intros Q H. destruct (H s (reach_refl s)) as [K|[u Hu]].
    - exists s. split; auto. constructor.
    - destruct (IH u Hu) as [t [A B]].
      + apply (proj1 (quiet_step _ _ Q Hu)).
      + intros t Ht. apply H. econstructor; eauto.
      + exists t. split; auto. econstructor; eauto.
  Qed.

  (** * All ranks together *)
  Definition family (n : nat) (P : nat -> proc) : list proc := map P (seq 0 n).
  Lemma family_nth : forall n P r, nth_error (family n P) r = if r <? n then Some (P r) else None.
  Proof.
    intros n P r. unfold family. destruct (Nat.ltb_spec r n).
    - rewrite (map_nth_error P r (seq 0 n) (d := r)); auto.
      rewrite (nth_error_nth' _ 0) by (rewrite seq_length; lia). rewrite seq_nth by lia. auto.
    - apply nth_error_None. rewrite map_length, seq_length. lia.
  Qed.
  Lemma family_length : forall n P, length (family n P) = n.
  Proof. intros. unfold family. rewrite map_length, seq_length. auto. Qed.
  Lemma family_ext : forall n P Q, (forall r, r < n -> P r = Q r) -> family n P = family n Q.
  Proof. intros n P Q H. apply map_ext_in. intros r I. apply in_seq in I. apply H. lia. Qed.
  Lemma flat_map_single : forall X Y (f : X -> list Y) (g : X -> Y) l, (forall x, In x l -> f x = [g x]) -> flat_map f l = map g l.
  Proof. induction l; intros H; simpl; auto. rewrite H by (left; auto). simpl. f_equal. apply IHl. intros; apply H; right; auto. Qed.
  Lemma values_family : forall n P c v k, (forall r, r < n -> P r = Coll (world n) c (v r) (k r)) -> values (world n) (family n P) = map v (seq 0 n).
  Proof.
    intros n P c v k H. unfold values, world. apply flat_map_single. intros r I. apply in_seq in I. unfold value_at.
    rewrite family_nth. destruct (Nat.ltb_spec r n); [|lia]. rewrite H by lia. auto.
  Qed.
  Lemma world_in : forall n r, In r (world n) <-> r < n.
  Proof. intros. unfold world. rewrite in_seq. lia. Qed.
  Lemma step_world : forall n s P c v k, 0 < n -> (forall r, r < n -> P r = Coll (world n) c (v r) (k r)) ->
    step (s, family n P) (s, family n (fun r => k r (map v (seq 0 n)))).
  Proof.
    intros n s P c v k L H. replace (family n (fun r => k r (map v (seq 0 n)))) with (resume (world n) (family n P)).
    - apply (step_coll s _ (world n) c).
      + unfold world. destruct n; [lia|discriminate].
      + intros r I. apply world_in in I. rewrite family_nth. destruct (Nat.ltb_spec r n); [|lia]. rewrite H by lia. eauto.
    - apply nth_ext'. intros r. rewrite resume_nth, !family_nth. destruct (Nat.ltb_spec r n); auto. simpl. rewrite H by lia.
      rewrite (proj2 (mem_in _ _)) by (apply world_in; lia). simpl. erewrite values_family; eauto.
  Qed.
  Inductive lock (n : nat) : (nat -> proc) -> (nat -> proc) -> Prop :=
  | lock_end : forall P Q, (forall r, r < n -> P r = Q r) -> lock n P Q
  | lock_coll : forall P c v k Q, (forall r, r < n -> P r = Coll (world n) c (v r) (k r)) ->
      lock n (fun r => k r (map v (seq 0 n))) Q -> lock n P Q.
  Lemma lock_reach : forall n s P Q, 0 < n -> lock n P Q -> reach (s, family n P) (s, family n Q).
  Proof.
    intros n s P Q L H. induction H.
    - rewrite (family_ext n P Q) by auto. constructor.
    - econstructor; [eapply step_world; eauto|]. auto.
  Qed.
  Lemma quiet_family : forall n P, (forall r, r < n -> noact (P r)) -> quiet (family n P).
  Proof. intros n P H r p. rewrite family_nth. destruct (Nat.ltb_spec r n); [|discriminate]. intros E. injection E as <-. auto. Qed.
  (** A family is stuck when one rank of every group has left. *)
  Lemma stuck_family : forall n s P, (forall r, r < n -> noact (P r)) ->
    (forall r g c v k, r < n -> P r = Coll g c v k -> exists j, In j g /\ (n <= j \/ forall v' k', P j <> Coll g c v' k')) -> stuck (s, family n P).
  Proof.
    intros n s P Hn H t T. inversion T as [s1 ps g c N A E1 E2|s1 s2 ps r a q k E A E1 E2]; subst.
    - destruct g as [|r g]; [congruence|]. destruct (A r) as [v [k E]]; [left; auto|]. rewrite family_nth in E.
      destruct (Nat.ltb_spec r n); [|discriminate]. injection E as E. destruct (H r _ _ _ _ H0 E) as [j [I X]].
      destruct (A j I) as [v' [k' E']]. rewrite family_nth in E'. destruct (Nat.ltb_spec j n); [|discriminate].
      destruct X as [X|X]; [lia|]. injection E' as E'. destruct (X _ _ E').
    - rewrite family_nth in E. destruct (Nat.ltb_spec r n); [|discriminate]. injection E as E. specialize (Hn r H0). rewrite E in Hn. contradiction.
  Qed.
  Theorem lock_always : forall n s P Q, 0 < n -> (forall r, r < n -> noact (P r)) -> lock n P Q -> stuck (s, family n Q) ->
    always (s, family n P) (fun t => t = (s, family n Q)).
  Proof. intros. apply one_end; auto. { apply quiet_family; auto. } apply lock_reach; auto. Qed.
  Theorem lock_returns : forall n s P (out : nat -> R) (Q : nat -> R -> Prop), 0 < n -> (forall r, r < n -> noact (P r)) -> lock n P (fun r => Ret (out r)) ->
    (forall r, r < n -> Q r (out r)) -> all_return (s, family n P) n Q.
  Proof.
    intros n s P out Q L Hn H HQ. eapply always_weaken; [|apply (lock_always n s P _ L Hn H)].
    - intros t ->. split; [apply family_length|]. intros r Lr. exists (out r). split; auto. unfold returned. simpl. rewrite family_nth.
      destruct (Nat.ltb_spec r n); [auto|lia].
    - apply stuck_family; simpl; auto. intros; discriminate.
  Qed.
End General.
