From Coq Require Import List Arith Bool Lia.
From Verif Require Import PyBase PyStr PipeModel ColModel ColSpec ColProofs ColProofs2 MplModel MplSpec.
Import ListNotations.
Open Scope nat_scope.

Section Comes.
  Context {S V : Type}.
  Lemma no_files_noact : forall R (p : proc S V R), no_files p <-> noact p.
  Proof. induction p as [x|g c v k IH|a q k IH]; simpl; [tauto| |tauto]. split; intros H l; apply IH; auto. Qed.
  Lemma noact_bind : forall R R' (p : proc S V R) (f : R -> proc S V R'), noact p -> (forall x, noact (f x)) -> noact (pbind p f).
  Proof. induction p as [x|g c v k IH|a q k IH]; simpl; auto. Qed.

  Lemma call_dec : forall c d : call, {c = d} + {c <> d}.
  Proof. decide equality; apply Nat.eq_dec. Qed.
  Lemma group_dec : forall g h : list nat, {g = h} + {g <> h}.
  Proof. exact (list_eq_dec Nat.eq_dec). Qed.
  (** Whether something can happen. *)
  Definition here {R} (ps : list (proc S V R)) g c r : bool :=
    match nth_error ps r with Some (Coll h d _ _) => if group_dec g h then if call_dec c d then true else false else false | _ => false end.
  Definition ready {R} (ps : list (proc S V R)) (p : proc S V R) : bool :=
    match p with Coll g c _ _ => match g with [] => false | _ => forallb (here ps g c) g end | _ => false end.
  Lemma here_true : forall R (ps : list (proc S V R)) g c r, here ps g c r = true <-> exists v k, nth_error ps r = Some (Coll g c v k).
  Proof.
    intros. unfold here. split.
    - destruct (nth_error ps r) as [[x|h d v k|a q k]|]; try discriminate. destruct (group_dec g h) as [<-|]; [|discriminate]. destruct (call_dec c d) as [<-|]; [|discriminate]. eauto.
    - intros [v [k ->]]. destruct (group_dec g g); [|contradiction]. destruct (call_dec c c); [auto|contradiction].
  Qed.
  Lemma step_or_stuck : forall R (s : S) (ps : list (proc S V R)), quiet ps -> stuck (s, ps) \/ exists t, step (s, ps) t.
  Proof.
    intros R s ps Q. destruct (existsb (ready ps) ps) eqn:E.
    - right. apply existsb_exists in E. destruct E as [p [_ E]]. destruct p as [x|g c v k|a q k]; try discriminate. simpl in E. destruct g as [|a g]; [discriminate|].
      eexists. apply (step_coll s ps (a :: g) c); [discriminate|]. intros r I. apply here_true. rewrite forallb_forall in E. apply E; auto.
    - left. intros t T. inversion T as [s1 ps1 g c N A E1 E2|s1 s2 ps1 r a q k X A E1 E2]; subst.
      + destruct g as [|a g]; [contradiction|]. destruct (A a (or_introl eq_refl)) as [v [k X]].
        assert (existsb (ready ps) ps = true); [|congruence]. apply existsb_exists. exists (Coll (a :: g) c v k). split; [eapply nth_error_In; eauto|].
        unfold ready. apply forallb_forall. intros r I. apply here_true. auto.
      + apply (Q r _ X).
  Qed.
  Lemma quiet_reach : forall R (s t : state S V R), reach s t -> quiet (snd s) -> quiet (snd t) /\ fst t = fst s.
  Proof.
    intros R s t H. induction H as [s|s t u T H IH]; intros Q; auto. destruct (quiet_step s t Q T) as [Q' E]. destruct (IH Q'). split; auto. congruence.
  Qed.

  (** The ranks of [P] return [out], in every order of events. *)
  Definition comes {R} (n : nat) (s : S) (P : nat -> proc S V R) (out : nat -> R) : Prop :=
    (forall r, r < n -> noact (P r)) /\ reach (s, family n P) (s, family n (fun r => Ret (out r))).
  Lemma all_ret_stuck : forall R n (s : S) (out : nat -> R), stuck (s, family n (fun r => @Ret S V R (out r))).
  Proof.
    intros R n s out t T. inversion T as [s1 ps1 g c N A E1 E2|s1 s2 ps1 r a q k X A E1 E2]; subst.
    - destruct g as [|a g]; [contradiction|]. destruct (A a (or_introl eq_refl)) as [v [k X]]. rewrite family_nth in X. destruct (a <? n); discriminate.
    - rewrite family_nth in X. destruct (r <? n); discriminate.
  Qed.
  Lemma comes_return : forall R n s (P : nat -> proc S V R) out, comes n s P out -> all_return (s, family n P) n (fun r x => x = out r).
  Proof.
    intros R n s P out [Q H]. eapply always_weaken; [|apply (one_end (s, family n P) _ (quiet_family n P Q) H (all_ret_stuck R n s out))].
    intros t ->. split; [apply family_length|]. intros r L. exists (out r). split; auto. unfold returned. cbn [snd]. rewrite family_nth. apply Nat.ltb_lt in L. now rewrite L.
  Qed.
  Lemma return_comes : forall R n s (P : nat -> proc S V R) out, (forall r, r < n -> noact (P r)) ->
    all_return (s, family n P) n (fun r x => x = out r) -> comes n s P out.
  Proof.
    intros R n s P out Q [_ H]. split; auto. pose proof (quiet_family n P Q) as Qf.
    destruct (some_end (s, family n P) Qf) as [t [T K]].
    { intros t T. destruct t as [s' ps]. apply step_or_stuck. apply (quiet_reach R _ _ T Qf). }
    destruct (H t T K) as [L A]. destruct (quiet_reach R _ _ T Qf) as [_ E]. destruct t as [s' ps]. cbn [fst snd] in *. subst s'.
    replace (family n (fun r => Ret (out r))) with ps; auto. apply nth_ext'. intros r. rewrite family_nth. destruct (r <? n) eqn:X.
    - apply Nat.ltb_lt in X. destruct (A r X) as [x [B ->]]. exact B.
    - apply nth_error_None. apply Nat.ltb_ge in X. lia.
  Qed.
  Lemma comes_ext : forall R n s (P P' : nat -> proc S V R) out, (forall r, r < n -> P r = P' r) -> comes n s P out -> comes n s P' out.
  Proof.
    intros R n s P P' out E [Q H]. split; [intros r L; rewrite <- E; auto|]. rewrite <- (family_ext n P P'); auto.
  Qed.
  Lemma comes_ret : forall R n s (out : nat -> R), comes n s (fun r => Ret (out r)) out.
  Proof. intros. split; [intros; exact I|constructor]. Qed.
  Lemma comes_coll : forall R n s (P : nat -> proc S V R) c v k out, 0 < n -> (forall r, r < n -> P r = Coll (world n) c (v r) (k r)) ->
    (forall r, r < n -> noact (P r)) -> comes n s (fun r => k r (map v (seq 0 n))) out -> comes n s P out.
  Proof.
    intros R n s P c v k out L E Q [_ H]. split; auto. eapply reach_step; [|exact H]. apply (step_world n s P c v k L E).
  Qed.

  (** Sequences *)
  Definition bindl {R R'} (f : nat -> R -> proc S V R') (ps : list (proc S V R)) : list (proc S V R') :=
    map (fun rp => pbind (snd rp) (f (fst rp))) (combine (seq 0 (length ps)) ps).
  Lemma bindl_nth : forall R R' (f : nat -> R -> proc S V R') ps r, nth_error (bindl f ps) r = option_map (fun p => pbind p (f r)) (nth_error ps r).
  Proof.
    intros R R' f ps r. unfold bindl. rewrite nth_error_map.
    assert (H : forall i, nth_error (combine (seq i (length ps)) ps) r = option_map (fun p => (i + r, p)) (nth_error ps r)).
    { revert r. induction ps as [|p ps IH]; intros [|r] i; simpl; auto. - now rewrite Nat.add_0_r. - rewrite IH. destruct (nth_error ps r); simpl; auto. do 2 f_equal. lia. }
    rewrite H. destruct (nth_error ps r); reflexivity.
  Qed.
  Lemma bindl_step : forall R R' (f : nat -> R -> proc S V R') s (ps : list (proc S V R)) t, quiet ps -> step (s, ps) t -> step (s, bindl f ps) (fst t, bindl f (snd t)).
  Proof.
    intros R R' f s ps t Q T. inversion T as [s1 ps1 g c N A E1 E2|s1 s2 ps1 r a q k X A E1 E2]; subst; [|destruct (Q r _ X)].
    cbn [fst snd].
    assert (A' : forall r, In r g -> exists v k, nth_error (bindl f ps) r = Some (Coll g c v k)).
    { intros r I. destruct (A r I) as [v [k X]]. rewrite bindl_nth, X. simpl. eauto. }
    replace (bindl f (resume g ps)) with (resume g (bindl f ps)); [now apply step_coll with (c := c)|].
    assert (EV : values g (bindl f ps) = values g ps).
    { unfold values. assert (G : forall h, (forall r, In r h -> exists v k, nth_error ps r = Some (Coll g c v k)) -> flat_map (value_at (bindl f ps)) h = flat_map (value_at ps) h); [|apply G; exact A].
      induction h as [|r h IH]; intros B; auto. cbn [flat_map]. rewrite IH by (intros; apply B; now right). f_equal.
      unfold value_at. rewrite bindl_nth. destruct (B r (or_introl eq_refl)) as [v [k ->]]. reflexivity. }
    apply nth_ext'. intros r. rewrite bindl_nth, !resume_nth, bindl_nth, EV. destruct (nth_error ps r) as [p|] eqn:X; simpl; auto. f_equal.
    destruct (mem r g) eqn:M; auto. apply mem_in in M. destruct (A r M) as [v [k Y]]. rewrite Y in X. injection X as <-. reflexivity.
  Qed.
  Lemma bindl_reach : forall R R' (f : nat -> R -> proc S V R') (s t : state S V R), reach s t -> quiet (snd s) -> reach (fst s, bindl f (snd s)) (fst t, bindl f (snd t)).
  Proof.
    intros R R' f s t H. induction H as [s|s t u T H IH]; intros Q; [constructor|]. destruct (quiet_step s t Q T) as [Q' E].
    eapply reach_step; [|apply IH; auto]. destruct s. apply bindl_step; auto.
  Qed.
  Lemma bindl_family : forall R R' (f : nat -> R -> proc S V R') n (P : nat -> proc S V R), bindl f (family n P) = family n (fun r => pbind (P r) (f r)).
  Proof. intros. apply nth_ext'. intros r. rewrite bindl_nth, !family_nth. destruct (r <? n); reflexivity. Qed.
  Lemma comes_bind : forall R R' n s (P : nat -> proc S V R) out (f : nat -> R -> proc S V R') out', comes n s P out ->
    (forall r x, r < n -> noact (f r x)) -> comes n s (fun r => f r (out r)) out' -> comes n s (fun r => pbind (P r) (f r)) out'.
  Proof.
    intros R R' n s P out f out' [Q H] Qf [_ H']. split; [intros; apply noact_bind; auto|]. pose proof (quiet_family n P Q) as Qp.
    eapply reach_trans; [|exact H'].
    pose proof (bindl_reach R R' f _ _ H Qp) as B. cbn [fst snd] in B. rewrite !bindl_family in B. exact B.
  Qed.
End Comes.
