(** The choice of a task; groups to and from files. *)
From Coq Require Import List Arith Bool Lia Permutation.
From Verif Require Import PyBase PipeModel ColModel ColSpec ColProofs ColProofs2 CioModel CioSpec.
Import ListNotations.
Open Scope nat_scope.

Lemma map_seq_0 : forall A (v : nat -> A) n d, 0 < n -> nth 0 (map v (seq 0 n)) d = v 0.
Proof. intros A v n d L. destruct n; [lia|]. reflexivity. Qed.

(** * [_next_task] *)
Section Next.
  Context {S V' S' : Type} (n : nat) (m : nat -> @mst V' S').
  Hypothesis n_pos : 0 < n.
  Notation P := (fun r => next_task_on (S := S) n (m r)).
  Lemma next_noact : forall r, noact (P r).
  Proof. intros r. unfold next_task_on, bcast. destruct (available (m r)), (next_task (m r)); simpl; auto. destruct (1 <? length (world n)); simpl; auto. Qed.
  Lemma sorted_nil : forall A leb (l : list A), PyBase.py_sorted leb l = [] -> l = [].
  Proof.
    intros A leb l H. destruct l; auto. exfalso. assert (X : forall l, length (py_sorted leb l) = length l).
    { induction l0; simpl; auto. rewrite <- IHl0. generalize (py_sorted leb l0). induction l1; simpl; auto. destruct (leb a0 a1); simpl; auto. }
    specialize (X (a :: l)). rewrite H in X. discriminate.
  Qed.
  Lemma next_some : forall r, available (m r) <> [] -> exists i, next_task (m r) = Some i.
  Proof.
    intros r H. unfold next_task, sorted_reverse. destruct (rev _) eqn:E; eauto. exfalso. apply H.
    apply (f_equal (@rev nat)) in E. rewrite rev_involutive in E. simpl in E. apply sorted_nil in E.
    apply (f_equal (@rev nat)) in E. rewrite rev_involutive in E. exact E.
  Qed.
  Theorem next_available : forall s, (forall r, r < n -> available (m r) <> []) -> all_return (s, family n P) n (fun _ x => x = next_task (m 0)).
  Proof.
    intros s H. eapply lock_returns with (out := fun _ => next_task (m 0)); auto; [intros; apply next_noact|].
    set (i := fun r => match next_task (m r) with Some i => i | None => 0 end).
    assert (E : forall r, r < n -> next_task (m r) = Some (i r)).
    { intros r L. destruct (next_some r (H r L)) as [j E]. unfold i. rewrite E. auto. }
    assert (G : forall r, r < n -> P r = if 1 <? n then Coll (world n) (CBcast 0) (i r) (fun l => Ret (Some (nth 0 l (i r)))) else Ret (Some (i r))).
    { intros r L. unfold next_task_on. specialize (H r L). destruct (available (m r)); [congruence|]. rewrite E by auto. unfold bcast. now rewrite world_length. }
    destruct (Nat.ltb_spec 1 n).
    - eapply lock_coll; [exact G|]. apply lock_end. intros r L. rewrite map_seq_0 by lia. now rewrite <- E by lia.
    - apply lock_end. intros r L. rewrite G by auto. replace r with 0 by lia. now rewrite <- E by lia.
  Qed.
  Theorem next_none : forall s, (forall r, r < n -> available (m r) = []) -> all_return (s, family n P) n (fun r x => x = next_task (m r)).
  Proof.
    intros s H. eapply lock_returns with (out := fun r => next_task (m r)); auto; [intros; apply next_noact|].
    apply lock_end. intros r L. unfold next_task_on. rewrite H by auto. auto.
  Qed.
  Theorem next_mixed : forall s p q, p < n -> q < n -> available (m p) = [] -> available (m q) <> [] ->
    always (s, family n P) (fun t => forall r, r < n -> (available (m r) = [] -> returned t r (next_task (m r))) /\ (available (m r) <> [] -> waits t r)).
  Proof.
    intros s p q Lp Lq Ep Eq. assert (L1 : 1 < n) by (destruct (Nat.eq_dec p q); [subst; congruence|lia]).
    assert (K : stuck (s, family n P)).
    { apply stuck_family; [intros; apply next_noact|]. intros r g c v k Lr E. exists p.
      assert (g = world n). { unfold next_task_on, bcast in E. destruct (available (m r)), (next_task (m r)); try discriminate. destruct (1 <? length (world n)); inversion E; auto. }
      subst g. split; [apply world_in; auto|]. right. intros v' k'. unfold next_task_on. rewrite Ep. discriminate. }
    eapply always_weaken; [|apply one_end; [apply quiet_family; intros; apply next_noact|constructor|exact K]].
    intros t ->. intros r L. unfold waits, returned. simpl. rewrite family_nth. destruct (Nat.ltb_spec r n); [|lia]. split; intros E.
    - unfold next_task_on. rewrite E. auto.
    - unfold next_task_on. destruct (next_some r E) as [i Ei]. rewrite Ei. unfold bcast. rewrite world_length. destruct (Nat.ltb_spec 1 n); [|lia].
      destruct (available (m r)); [congruence|]. do 4 eexists. reflexivity.
  Qed.
End Next.

(** * [_distributed_group_to_file] *)
Section To.
  Context {S : Type} (n : nat) (known : bool) (copied : res (list nat)) (unicode : nat -> option exn).
  Hypothesis n_pos : 0 < n.
  Notation P := (fun r => group_to_file (S := S) n r known copied unicode).
  Lemma write_noact : forall names done, noact (write_distributed (S := S) n unicode names done).
  Proof. induction names; simpl; auto. intros done. destruct (unicode a); simpl; auto. Qed.
  Lemma to_noact : forall r, noact (P r).
  Proof.
    intros r. unfold group_to_file. assert (X : forall l : list (list nat), noact (if known then write_distributed (S := S) n unicode (nth 0 l []) [] else Ret (Err ValueError))).
    { intros l. destruct known; simpl; auto. apply write_noact. }
    destruct (r =? 0), copied; simpl; auto.
  Qed.
  Fixpoint first_error (names : list nat) : option exn :=
    match names with [] => None | x :: t => match unicode x with Some e => Some e | None => first_error t end end.
  Lemma write_lock : forall names done, lock n (fun _ => write_distributed (S := S) n unicode names done)
    (fun _ => Ret (match first_error names with Some e => Err e | None => Ok (done ++ names) end)).
  Proof.
    induction names; simpl; intros done.
    - eapply lock_coll with (c := CBarrier) (v := fun _ => []) (k := fun _ _ => Ret (Ok done)); auto. apply lock_end. intros. now rewrite app_nil_r.
    - destruct (unicode a); [apply lock_end; auto|].
      eapply lock_coll with (c := CWork (2 + a)) (v := fun _ => []); [intros; reflexivity|]. cbv beta.
      specialize (IHnames (done ++ [a])). rewrite <- app_assoc in IHnames. exact IHnames.
  Qed.
  Lemma first_error_none : forall names, first_error names = None <-> forall x, In x names -> unicode x = None.
  Proof.
    induction names; simpl; split; intros; auto; try contradiction.
    - destruct (unicode a) eqn:E; [discriminate|]. destruct H0 as [->|I]; auto. apply IHnames; auto.
    - rewrite H by auto. apply IHnames; auto.
  Qed.
  Lemma first_error_some : forall names e, first_error names = Some e -> exists x, In x names /\ unicode x = Some e.
  Proof. induction names; simpl; intros e H; [discriminate|]. destruct (unicode a) eqn:E; [injection H as <-; eauto|]. destruct (IHnames e H) as [x [? ?]]. eauto. Qed.
  Theorem to_all : forall names s, copied = Ok names ->
    all_return (s, family n P) n (fun _ x => x = if known then match first_error names with Some e => Err e | None => Ok names end else Err ValueError).
  Proof.
    intros names s E. eapply lock_returns with (out := fun _ => if known then match first_error names with Some e => Err e | None => Ok names end else Err ValueError); auto.
    { intros; apply to_noact. }
    eapply lock_coll with (c := CBcast 0) (v := fun r => if r =? 0 then names else [])
      (k := fun _ l => if known then write_distributed n unicode (nth 0 l []) [] else Ret (Err ValueError)).
    - intros r L. unfold group_to_file. rewrite E. destruct (r =? 0); reflexivity.
    - rewrite map_seq_0 by auto. simpl. destruct known; [apply (write_lock names [])|apply lock_end; auto].
  Qed.
  Theorem to_fails : forall e s, copied = Err e -> 1 < n ->
    always (s, family n P) (fun t => returned t 0 (Err e) /\ forall r, 0 < r < n -> waits t r).
  Proof.
    intros e s E L. eapply always_weaken; [|apply one_end; [apply quiet_family; intros; apply to_noact|constructor|]].
    - intros t ->. unfold returned, waits. cbn [snd]. rewrite family_nth. destruct (Nat.ltb_spec 0 n); [|lia]. split.
      + unfold group_to_file. simpl. rewrite E. auto.
      + intros r Lr. rewrite family_nth. destruct (Nat.ltb_spec r n); [|lia]. unfold group_to_file. destruct (Nat.eqb_spec r 0); [lia|]. do 4 eexists. reflexivity.
    - apply stuck_family; [intros; apply to_noact|]. intros r g c v k Lr Er. exists 0. unfold group_to_file in Er. rewrite E in Er.
      destruct (Nat.eqb_spec r 0); [discriminate|]. assert (X : g = world n) by congruence. rewrite X. split; [apply world_in; lia|]. right. intros v' k'. unfold group_to_file. simpl. rewrite E. discriminate.
  Qed.
End To.

(** * [_distributed_group_from_file] *)
Section TreeInd.
  Variable P : ftree -> Prop.
  Hypothesis G : forall a items, (forall k t, In (k, t) items -> P t) -> P (FGrp a items).
  Hypothesis C : forall a d, P (FCommon a d).
  Hypothesis D : forall a i, P (FDist a i).
  Fixpoint ftree_nest (t : ftree) : P t :=
    match t with
    | FGrp a items => G a items ((fix go (l : list (nat * ftree)) : forall k t, In (k, t) l -> P t :=
        match l with
        | [] => fun k t (H : In (k, t) []) => False_ind _ H
        | (k0, t0) :: r => fun k t (H : In (k, t) ((k0, t0) :: r)) => match H with
            | or_introl E => match E in _ = q return P (snd q) with eq_refl => ftree_nest t0 end
            | or_intror J => go r k t J end
        end) items)
    | FCommon a d => C a d
    | FDist a i => D a i
    end.
End TreeInd.
Section From.
  Context {S : Type} (n : nat).
  Hypothesis n_pos : 0 < n.
  Notation prog := (proc S (list nat) (res mtree)).
  Lemma lock_ext : forall (P P' Q : nat -> prog), (forall r, r < n -> P r = P' r) -> lock n P Q -> lock n P' Q.
  Proof.
    intros P P' Q E H. inversion H; subst.
    - apply lock_end. intros r L. rewrite <- E by auto. auto.
    - eapply lock_coll; [|eassumption]. intros r L. rewrite <- E by auto. auto.
  Qed.
  Lemma from0_lock : forall x (k : nat -> list nat -> prog) Q, lock n (fun r => k r x) Q -> lock n (fun r => from0 n r x (k r)) Q.
  Proof.
    intros x k Q H. eapply lock_coll with (c := CBcast 0) (v := fun r => if r =? 0 then x else []); [intros; reflexivity|].
    eapply lock_ext; [|exact H]. intros r L. cbv beta. now rewrite map_seq_0 by auto.
  Qed.
  Lemma create_lock : forall (k : nat -> prog) Q, lock n k Q -> lock n (fun r => create n (k r)) Q.
  Proof. intros k Q H. eapply lock_coll with (c := CBarrier) (v := fun _ => []); [intros; reflexivity|]. exact H. Qed.
  Definition failed (e : exn) (Q : nat -> prog) : Prop :=
    Q 0 = Ret (Err e) /\ exists kk, forall r, 0 < r -> Q r = Coll (world n) (CBcast 0) [] (kk r).
  Definition reads (t : ftree) (body : (nat -> mtree -> prog) -> nat -> prog) : Prop :=
    forall k, match in_memory t with
      | Ok m => forall Q, lock n (fun r => k r m) Q -> lock n (body k) Q
      | Err e => exists Q, failed e Q /\ lock n (body k) Q
      end.
  Lemma copy_reads : forall t, reads t (fun k r => copy_from_file n r t (k r)).
  Proof.
    induction t as [attrs items IH|attrs data|attrs i] using ftree_nest; intros k.
    - cbn [in_memory copy_from_file].
      match goal with |- context [rbind (?f items) _] => set (all := f) end.
      set (loop := fun r => fix loop (items : list (nat * ftree)) (k : list (nat * mtree) -> prog) {struct items} : prog :=
           match items with
           | [] => k []
           | (key, t) :: rest =>
               let go_on := copy_from_file n r t (fun m => loop rest (fun ms => k ((key, m) :: ms))) in
               match t with FGrp _ _ => create n go_on | _ => go_on end
           end).
      assert (L : forall kk : nat -> list (nat * mtree) -> prog, match all items with
          | Ok ms => forall Q, lock n (fun r => kk r ms) Q -> lock n (fun r => loop r items (kk r)) Q
          | Err e => exists Q, failed e Q /\ lock n (fun r => loop r items (kk r)) Q end).
      { induction items as [|[key t] rest IHr]; intros kk; [simpl; auto|].
        assert (IHt : reads t (fun k r => copy_from_file n r t (k r))) by (eapply IH; left; reflexivity).
        assert (IHr' := IHr (fun k0 t0 H => IH k0 t0 (or_intror H))). clear IHr.
        set (cont := fun (r : nat) (m : mtree) => loop r rest (fun ms => kk r ((key, m) :: ms))).
        assert (Hg : forall Q, lock n (fun r => copy_from_file n r t (cont r)) Q -> lock n (fun r => loop r ((key, t) :: rest) (kk r)) Q).
        { intros Q H. cbn. destruct t; auto. exact (create_lock (fun r => copy_from_file n r (FGrp attrs0 items) (cont r)) Q H). }
        specialize (IHt cont). cbn [all]. change (all ((key, t) :: rest)) with (rbind (in_memory t) (fun m => rbind (all rest) (fun ms => Ok ((key, m) :: ms)))).
        destruct (in_memory t) as [m|e]; cbn [rbind].
        - specialize (IHr' (fun r ms => kk r ((key, m) :: ms))). destruct (all rest) as [ms|e]; cbn [rbind].
          + intros Q H. apply Hg. apply IHt. apply IHr'. exact H.
          + destruct IHr' as [Q [F H]]. exists Q. split; auto.
        - destruct IHt as [Q [F H]]. exists Q. split; auto. }
      specialize (L (fun r ms => k r (MGrp attrs ms))). destruct (all items) as [ms|e]; cbn [rbind].
      + intros Q H. exact (from0_lock attrs (fun r a => loop r items (fun ms => k r (MGrp a ms))) Q (L Q H)).
      + destruct L as [Q [F H]]. exists Q. split; auto. exact (from0_lock attrs (fun r a => loop r items (fun ms => k r (MGrp a ms))) Q H).
    - cbn [in_memory copy_from_file]. destruct data as [d|e]; cbn [rbind].
      + intros Q H. eapply lock_ext; [|apply (from0_lock d (fun r cdata => create n (from0 n r attrs (fun attrs => k r (MCommon attrs cdata)))));
          apply create_lock; apply (from0_lock attrs (fun r a => k r (MCommon a d))); exact H].
        intros r L. cbn beta. destruct (Nat.eqb_spec r 0); auto. unfold from0 at 1 3. destruct (Nat.eqb_spec r 0); [lia|]. reflexivity.
      + eexists. split; [|apply lock_end; intros; reflexivity]. split; [reflexivity|]. eexists. intros r L. destruct (Nat.eqb_spec r 0); [lia|]. unfold from0 at 1. destruct (Nat.eqb_spec r 0); [lia|]. reflexivity.
    - cbn [in_memory copy_from_file]. intros Q H. eapply lock_coll with (c := CWork (2 + i)) (v := fun _ => []); [intros; reflexivity|]. cbv beta.
      apply create_lock. apply (from0_lock attrs (fun r a => k r (MDist a i))). exact H.
  Qed.
  Lemma copy_noact : forall t r (k : mtree -> prog), (forall m, noact (k m)) -> noact (copy_from_file n r t k).
  Proof.
    induction t as [attrs items IH|attrs data|attrs i] using ftree_nest; intros r k H.
    - cbn [copy_from_file]. unfold from0. simpl. intros l. generalize (nth 0 l []). intros a. clear l.
      set (kk := fun ms => k (MGrp a ms)). assert (X : forall ms, noact (kk ms)) by (intros; apply H). clearbody kk. clear k H. revert kk X.
      induction items as [|[key t] rest IHr]; intros k X; auto.
      assert (noact (copy_from_file n r t (fun m => (fix loop (items : list (nat * ftree)) (k : list (nat * mtree) -> prog) {struct items} : prog :=
           match items with
           | [] => k []
           | (key, t) :: rest =>
               let go_on := copy_from_file n r t (fun m => loop rest (fun ms => k ((key, m) :: ms))) in
               match t with FGrp _ _ => create n go_on | _ => go_on end
           end) rest (fun ms => k ((key, m) :: ms))))).
      { eapply IH; [left; reflexivity|]. intros m. apply IHr; [|auto]. intros; eapply IH; [right; eauto|auto]. }
      destruct t; simpl; auto.
    - cbn [copy_from_file]. destruct (r =? 0) eqn:E; [destruct data|]; unfold from0, create; simpl; intros; auto.
    - cbn [copy_from_file]. unfold create, from0. simpl. auto.
  Qed.
  Lemma from_noact : forall t r, noact (group_from_file (S := S) n r t).
  Proof. intros t r. apply copy_noact. simpl. auto. Qed.
  Theorem from_all : forall t m s, in_memory t = Ok m -> all_return (s, family n (fun r => group_from_file (S := S) n r t)) n (fun _ x => x = Ok m).
  Proof.
    intros t m s E. eapply lock_returns with (out := fun _ => Ok m); auto; [intros; apply from_noact|].
    pose proof (copy_reads t (fun r m => Coll (world n) CBarrier [] (fun _ => Ret (Ok m)))) as H. rewrite E in H. apply H.
    eapply lock_coll with (c := CBarrier) (v := fun _ => []); [intros; reflexivity|]. apply lock_end. auto.
  Qed.
  Theorem from_fails : forall t e s, in_memory t = Err e -> 1 < n ->
    always (s, family n (fun r => group_from_file (S := S) n r t)) (fun u => returned u 0 (Err e) /\ forall r, 0 < r < n -> waits u r).
  Proof.
    intros t e s E L. pose proof (copy_reads t (fun r m => Coll (world n) CBarrier [] (fun _ => Ret (Ok m)))) as H. rewrite E in H.
    destruct H as [Q [[Q0 [kk Qk]] H]].
    apply always_weaken with (P := fun u => u = (s, family n Q)).
    - intros u ->. unfold returned, waits. cbn [snd]. rewrite family_nth. destruct (Nat.ltb_spec 0 n); [|lia]. rewrite Q0. split; auto.
      intros r Lr. rewrite family_nth. destruct (Nat.ltb_spec r n); [|lia]. rewrite Qk by lia. do 4 eexists. reflexivity.
    - apply one_end; [apply quiet_family; intros; apply from_noact|apply (lock_reach n s _ Q n_pos H)|].
      intros v T. inversion T as [s1 ps g c N A E1 E2|s1 s2 ps r a q k E1 A E2 E3]; subst.
      + destruct g as [|r g]; [congruence|]. destruct (A r (or_introl eq_refl)) as [v' [k' X]]. rewrite family_nth in X. destruct (Nat.ltb_spec r n) as [Lr|]; [|discriminate].
        injection X as X. destruct (Nat.eq_dec r 0) as [->|N0]; [congruence|]. rewrite Qk in X by lia. inversion X as [[X1 X2 X3 X4]].
        assert (I0 : In 0 (r :: g)) by (rewrite <- X1; apply world_in; lia). destruct (A 0 I0) as [v0 [k0 Y]]. rewrite family_nth in Y. destruct (Nat.ltb_spec 0 n); [|lia]. rewrite Q0 in Y. discriminate.
      + rewrite family_nth in E1. destruct (Nat.ltb_spec r n) as [Lr|]; [|discriminate]. injection E1 as X. destruct (Nat.eq_dec r 0) as [->|N0]; [congruence|]. rewrite Qk in X by lia. discriminate.
  Qed.
End From.
