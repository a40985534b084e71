(** C343-C345: a pipeline on all ranks of a job. *)
From Coq Require Import String.
From Coq Require Import List Arith Bool Lia ZArith.
From Verif Require Import PyBase PyStr PipeModel ColModel ColSpec ColProofs MplModel MplSpec MplProofs MplProofs3 MplProofs5.
Import ListNotations.
Open Scope list_scope.
Open Scope nat_scope.

(** ** C343: ranks that stay alike *)
(** If all ranks have the same tasks with the same keys and every method, called by all ranks with
    arguments that differ in their data only, returns on all of them with outcomes that differ in
    their data only, then the whole pipeline does, in every order of events: all ranks call the same
    methods of the same tasks in the same order, and end alike. *)
Theorem C343_pipeline_of_ranks : forall W V S n (cfg : nat -> list (tconf V S * S)) km (Inv : nat -> (nat -> S) -> Prop)
    (b : nat -> nat -> methods W V S) k, 0 < n ->
  among n (Forall2 same_config) cfg ->
  (forall i, keeps_step n (Inv i) (fun r => b r i)) ->
  (forall i u, (forall r, r < n -> exists c, nth_error (cfg r) i = Some (c, u r)) -> Inv i u) ->
  exists out, all_return (tt, map (fun r => run_on n (b r) km k (start (cfg r))) (seq 0 n)) n (fun r x => x = out r)
    /\ among n (Forall2 alike_event) (fun r => fst (out r)) /\ among n alike_result (fun r => snd (out r)).
Proof. intros W V S n cfg km Inv b k L C K B. exact (pipeline_all n cfg km Inv L C B b k K). Qed.
Print Assumptions C343_pipeline_of_ranks.

(** A task which gives the items in its state. *)
Definition giving : methods nat nat (list (pv nat)) :=
  mkmeth (fun u _ => Ret (u, PipeModel.Ret PNone))
    (fun u _ => Ret (match u with [] => ([], Stop) | o :: u' => (u', PipeModel.Ret o) end))
    (fun u => Ret (u, PipeModel.Ret PNone)).
(** A task which adds up over all ranks. *)
Definition total (l : list (msg nat)) : nat := fold_right (fun m s => match m with Data w => w + s | Idx _ => s end) 0 l.
Definition adding (n : nat) : methods nat nat (list (pv nat)) :=
  mkmeth (fun u _ => Ret (u, PipeModel.Ret PNone))
    (fun u a => match a with
       | [PObj v] => Coll (world n) CAllreduce (Data v) (fun l => Ret (u, PipeModel.Ret (PObj (total l))))
       | _ => Ret (u, Raise TypeError)
       end)
    (fun u => Ret (u, PipeModel.Ret PNone)).
Definition no_beh : beh nat (list (pv nat)) := mkbeh (fun u _ => (u, Stop)) (fun u _ => (u, Stop)) (fun u => (u, Stop)).
Definition two_tasks (items : list (pv nat)) : list (tconf nat (list (pv nat)) * list (pv nat)) :=
  [(mkconf (KMany []) (KMany []) (KOne (s_ "a")) no_beh None 0%Z, items);
   (mkconf (KOne (s_ "a")) (KMany []) (KOne (s_ "b")) no_beh None 0%Z, [])]%string.
Definition methods_of (n i : nat) : methods nat nat (list (pv nat)) := match i with 0 => giving | _ => adding n end.
Definition the_inv (n i : nat) (u : nat -> list (pv nat)) : Prop :=
  match i with 0 => among n (Forall2 alike) u | _ => True end.

Lemma returns_together : forall n (J : (nat -> list (pv nat)) -> Prop) (x : nat -> list (pv nat) * outc nat),
  among n alike_outc (fun r => snd (x r)) -> J (fun r => fst (x r)) -> together (W := nat) n J (fun r => Ret (x r)).
Proof. intros n J x A H. exists x. split; [|split; auto]. exact (comes_return _ n tt _ x (comes_ret _ n tt x)). Qed.
Lemma giving_keeps : forall n, keeps_step n (the_inv n 0) (fun _ => giving).
Proof.
  intros n. constructor.
  - intros u u' E H r q L L'. rewrite <- !E by auto. now apply H.
  - intros. simpl. auto.
  - intros u a H _. apply (returns_together n _ (fun r => (u r, PipeModel.Ret PNone))); auto. intros r q _ _. repeat constructor.
  - intros u a H _. apply (returns_together n _ (fun r => match u r with [] => ([], Stop) | o :: u' => (u', PipeModel.Ret o) end)); simpl.
    + intros r q L L'. specialize (H r q L L'). cbv beta. inversion H; subst; simpl; constructor; auto.
    + intros r q L L'. specialize (H r q L L'). cbv beta. inversion H; subst; simpl; auto.
  - intros u H. apply (returns_together n _ (fun r => (u r, PipeModel.Ret PNone))); auto. intros r q _ _. repeat constructor.
Qed.
Lemma adding_keeps : forall n, 0 < n -> keeps_step n (fun _ => True) (fun _ => adding n).
Proof.
  intros n pos. constructor; auto.
  - intros r u a. simpl. split; [exact I|split; [|exact I]]. destruct a as [|[|v|l|l] [|]]; simpl; auto.
  - intros u a _ _. apply (returns_together n _ (fun r => (u r, PipeModel.Ret PNone))); auto. intros r q _ _. repeat constructor.
  - intros u a _ A. destruct (a 0) as [|[|v0|l|l] [|y z]] eqn:E0.
    2: { exists (fun r => (u r, Raise TypeError)). split; [|split; [intros r q _ _; constructor|exact I]].
         apply (comes_return _ n tt _ (fun r => (u r, Raise TypeError))). eapply comes_ext; [|apply comes_ret].
         intros r L. specialize (A r 0 L pos). cbv beta in A. rewrite E0 in A. inversion A as [|a0 b0 l1 l2 A1 A2 A3 A4]; subst. inversion A1; subst. inversion A2; subst. reflexivity. }
    3: { set (v := fun r => match a r with [PObj v] => v | _ => 0 end).
         assert (Ea : forall r, r < n -> a r = [PObj (v r)]).
         { intros r L. specialize (A r 0 L pos). cbv beta in A. rewrite E0 in A. inversion A as [|a0 b0 l1 l2 A1 A2 A3 A4]; subst. inversion A1; subst. inversion A2; subst.
           unfold v. rewrite <- A3. reflexivity. }
         set (t := total (map (fun r => Data (v r)) (seq 0 n))).
         exists (fun r => (u r, PipeModel.Ret (PObj t))). split; [|split; [intros r q _ _; repeat constructor|exact I]].
         apply (comes_return _ n tt _ (fun r => (u r, PipeModel.Ret (PObj t)))).
         apply comes_coll with (c := CAllreduce) (v := fun r => Data (v r)) (k := fun r l => Ret (u r, PipeModel.Ret (PObj (total l)))); auto.
         - intros r L. cbv beta. rewrite (Ea r L). reflexivity.
         - intros r L. cbv beta. rewrite (Ea r L). simpl. auto.
         - apply (comes_ret _ n tt (fun r => (u r, PipeModel.Ret (PObj t)))). }
    all: exists (fun r => (u r, Raise TypeError)); split; [|split; [intros r q _ _; constructor|exact I]];
      apply (comes_return _ n tt _ (fun r => (u r, Raise TypeError))); eapply comes_ext; [|apply comes_ret];
      intros r L; specialize (A r 0 L pos); cbv beta in A; rewrite E0 in A; inversion A as [|a0 b0 l1 l2 A1 A2 A3 A4]; subst; auto;
      inversion A1; subst; inversion A2; subst; reflexivity.
  - intros u _. apply (returns_together n _ (fun r => (u r, PipeModel.Ret PNone))); auto. intros r q _ _. repeat constructor.
Qed.
(** Any number of ranks. *)
Example C343_example : forall n (items : nat -> list (pv nat)) k, 0 < n -> among n (Forall2 alike) items ->
  exists out, all_return (tt, map (fun r => run_on n (methods_of n) (fun _ => true) k (start (two_tasks (items r)))) (seq 0 n)) n (fun r x => x = out r)
    /\ among n (Forall2 alike_event) (fun r => fst (out r)).
Proof.
  intros n items k L A.
  destruct (C343_pipeline_of_ranks nat nat _ n (fun r => two_tasks (items r)) (fun _ => true) (the_inv n) (fun _ => methods_of n) k L) as [out [H [H' _]]]; [| | |eauto].
  - intros r q _ _. unfold two_tasks. repeat constructor.
  - intros [|i]; [apply giving_keeps|now apply adding_keeps].
  - intros [|i] u H; [|exact I]. intros r q Lr Lq. destruct (H r Lr) as [c E], (H q Lq) as [d F]. simpl in E, F. injection E as _ <-. injection F as _ <-. now apply A.
Qed.
(** Two ranks with two items each. *)
Lemma quiet_two : forall items items' k, quiet (R := list (event nat) * result nat (list (pv nat)))
  [run_on 2 (methods_of 2) (fun _ => true) k (start (two_tasks items)); run_on 2 (methods_of 2) (fun _ => true) k (start (two_tasks items'))].
Proof.
  intros items items' k.
  assert (Q : forall m, noact (run_on 2 (methods_of 2) (fun _ => true) k m)).
  { intros m. refine (run_quiet 2 (fun _ => methods_of 2) (fun _ => true) (fun _ _ => False) _ k 0 m). intros i. constructor; try contradiction; auto.
    intros r u a. destruct i; simpl; auto. split; auto. split; auto. destruct a as [|[|v|l|l] [|]]; simpl; auto. }
  intros [|[|[|r]]] p E; try discriminate; simpl in E; injection E as <-; apply Q.
Qed.
Definition on_rank (k : nat) (items : list (pv nat)) := run_on 2 (methods_of 2) (fun _ => true) k (start (two_tasks items)).
Lemma two_end : forall items items' k f, let x := two f (on_rank k items) (on_rank k items') in
  stuck (tt, [fst x; snd x]) -> always (tt, [on_rank k items; on_rank k items']) (fun t => t = (tt, [fst x; snd x])).
Proof.
  intros items items' k f x St. apply (one_end (tt, [on_rank k items; on_rank k items']) (tt, [fst x; snd x])); auto.
  - exact (quiet_two items items' k).
  - apply two_reach.
Qed.
Definition the_trace (a b c d : nat) : list (event nat) :=
  let ret o := PipeModel.Ret o in
  [ESetup 0 [] (ret PNone); ESetup 1 [] (ret PNone); ENext 0 [] (ret (PObj a)); ENext 1 [PObj a] (ret (PObj c));
   ENext 0 [] (ret (PObj b)); ENext 1 [PObj b] (ret (PObj d)); ENext 0 [] Stop; EFinish 0 (ret PNone);
   ERemove 0; EStarve 1; EFinish 1 (ret PNone); ERemove 1].
Example C343_two_ranks : always (tt, map (fun r => run_on 2 (methods_of 2) (fun _ => true) 20 (start (two_tasks (if r =? 0 then [PObj 1; PObj 2] else [PObj 10; PObj 20])))) (seq 0 2))
  (fun t => returned t 0 (the_trace 1 2 11 22, Done) /\ returned t 1 (the_trace 10 20 11 22, Done)).
Proof.
  assert (E : two 60 (on_rank 20 [PObj 1; PObj 2]) (on_rank 20 [PObj 10; PObj 20]) = (Ret (the_trace 1 2 11 22, Done), Ret (the_trace 10 20 11 22, Done))) by (vm_compute; reflexivity).
  eapply always_weaken; [|apply (two_end [PObj 1; PObj 2] [PObj 10; PObj 20] 20 60)]; rewrite E; cbn [fst snd].
  - intros t ->. split; reflexivity.
  - exact (all_ret_stuck _ 2 tt (fun r => if r =? 0 then (the_trace 1 2 11 22, Done) else (the_trace 10 20 11 22, Done))).
Qed.

(** ** C344: every rank does what it would do alone *)
Theorem C344_as_alone : forall W V S n (cfg : nat -> list (tconf V S * S)) km (Inv : nat -> (nat -> S) -> Prop)
    (bh : nat -> nat -> beh V S) k, 0 < n ->
  among n (Forall2 same_config) cfg ->
  (forall i, keeps_step n (Inv i) (fun r => @quietly W V S (bh r i))) ->
  (forall i u, (forall r, r < n -> exists c, nth_error (cfg r) i = Some (c, u r)) -> Inv i u) ->
  (forall r i c s, nth_error (cfg r) i = Some (c, s) -> c_beh c = bh r i) ->
  all_return (tt, map (fun r => run_on n (fun i => @quietly W V S (bh r i)) km k (start (cfg r))) (seq 0 n)) n (fun r x =>
    fst x = fst (PipeModel.run km k (start (cfg r))) /\ same_end (snd x) (snd (PipeModel.run km k (start (cfg r))))).
Proof. intros W V S n cfg km Inv bh k L C K B Bh. exact (pipeline_alone n cfg km Inv L C B bh k K Bh). Qed.
Print Assumptions C344_as_alone.
(** On a single rank without any conditions on the tasks. *)
Theorem C344_single : forall W V S (cfg : list (tconf V S * S)) km (bh : nat -> beh V S) k,
  (forall i c s, nth_error cfg i = Some (c, s) -> c_beh c = bh i) ->
  all_return (tt, [run_on 1 (fun i => @quietly W V S (bh i)) km k (start cfg)]) 1 (fun _ x =>
    fst x = fst (PipeModel.run km k (start cfg)) /\ same_end (snd x) (snd (PipeModel.run km k (start cfg)))).
Proof.
  intros W V S cfg km bh k B.
  apply (C344_as_alone W V S 1 (fun _ => cfg) km (fun _ _ => True) (fun _ => bh) k); auto.
  - intros r q _ _. assert (F : forall l : list (tconf V S * S), Forall2 same_config l l) by (induction l; constructor; auto; unfold same_config; auto). apply F.
  - intros i. apply (one_keeps W V S (bh i)).
Qed.
Print Assumptions C344_single.
Definition counting : beh nat nat := mkbeh (fun s _ => (s, PipeModel.Ret PNone))
  (fun s _ => match s with O => (0, Stop) | S n => (n, PipeModel.Ret (PObj s)) end) (fun s => (s, PipeModel.Ret PNone)).
Definition doubling : beh nat nat := mkbeh (fun s _ => (s, PipeModel.Ret PNone))
  (fun s a => (s, match a with [PObj v] => PipeModel.Ret (PObj (2 * v)) | _ => Raise TypeError end)) (fun s => (s, PipeModel.Ret PNone)).
Definition counted (c : nat) : list (tconf nat nat * nat) :=
  [(mkconf (KMany []) (KMany []) (KOne (s_ "a")) counting None 0%Z, c); (mkconf (KOne (s_ "a")) (KMany []) (KMany []) doubling None 0%Z, 0)]%string.
Example C344_example :
  all_return (tt, [run_on 1 (fun i => @quietly unit nat nat (match i with 0 => counting | _ => doubling end)) (fun _ => true) 30 (start (counted 1))]) 1 (fun _ x =>
    fst x = [ESetup 0 [] (PipeModel.Ret PNone); ESetup 1 [] (PipeModel.Ret PNone); ENext 0 [] (PipeModel.Ret (PObj 1)); ENext 1 [PObj 1] (PipeModel.Ret (PObj 2));
             ENext 0 [] Stop; EFinish 0 (PipeModel.Ret PNone); ERemove 0; EStarve 1; EFinish 1 (PipeModel.Ret PNone); ERemove 1] /\ snd x = Done).
Proof.
  unfold all_return. eapply always_weaken; [|apply (C344_single unit nat nat (counted 1) (fun _ => true) (fun i => match i with 0 => counting | _ => doubling end) 30)].
  - intros t [H1 H2]. split; auto. intros r L. destruct (H2 r L) as [x [R [E1 E2]]]. exists x. split; auto. split; [rewrite E1; vm_compute; reflexivity|].
    assert (D : snd (PipeModel.run (fun _ => true) 30 (start (counted 1))) = Done) by (vm_compute; reflexivity). rewrite D in E2. destruct (snd x); simpl in E2; try contradiction; reflexivity.
  - intros [|[|[|i]]] c s E; try discriminate; simpl in E; injection E as <- _; reflexivity.
Qed.

(** ** C345: a task that gives nothing on one rank *)
(** One rank has nothing to give at its first call.  The job hangs: rank 0 waits in the sum of the
    second task while rank 1 waits in the choice of the next task. *)
Theorem C345_hang_refuted : exists items : nat -> list (pv nat),
  hangs (tt, map (fun r => run_on 2 (methods_of 2) (fun _ => true) 20 (start (two_tasks (items r)))) (seq 0 2)).
Proof.
  exists (fun r => if r =? 0 then [PObj 1; PObj 2] else [PNone; PObj 10]).
  set (x := two 60 (on_rank 20 [PObj 1; PObj 2]) (on_rank 20 [PNone; PObj 10])).
  assert (E : apart (fst x) (snd x) = true) by (vm_compute; reflexivity).
  destruct (apart_stuck _ _ E) as [St [Wt _]]. eapply always_weaken; [|apply (two_end [PObj 1; PObj 2] [PNone; PObj 10] 20 60 St)].
  intros t ->. exists 0. exact Wt.
Qed.
Print Assumptions C345_hang_refuted.
(** Or all runs to the end, and the second task adds up items of different calls: the first item
    of rank 0 comes from its first call, that of rank 1 from its second. *)
Theorem C345_mixed_refuted : exists items : nat -> list (pv nat),
  nth 0 (items 0) PNone = PObj 1 /\ nth 1 (items 1) PNone = PObj 20 /\ nth 0 (items 1) PNone = PNone
  /\ always (tt, map (fun r => run_on 2 (methods_of 2) (fun _ => true) 20 (start (two_tasks (items r)))) (seq 0 2))
       (fun t => exists tr tr', returned t 0 (tr, Done) /\ returned t 1 (tr', Done)
          /\ In (ENext 1 [PObj 1] (PipeModel.Ret (PObj 21))) tr /\ In (ENext 1 [PObj 20] (PipeModel.Ret (PObj 21))) tr').
Proof.
  exists (fun r => if r =? 0 then [PObj 1; PNone; PObj 3] else [PNone; PObj 20; PObj 30]). split; [reflexivity|]. split; [reflexivity|]. split; [reflexivity|].
  assert (E : exists tr tr', two 60 (on_rank 20 [PObj 1; PNone; PObj 3]) (on_rank 20 [PNone; PObj 20; PObj 30]) = (Ret (tr, Done), Ret (tr', Done))
    /\ In (ENext 1 [PObj 1] (PipeModel.Ret (PObj 21))) tr /\ In (ENext 1 [PObj 20] (PipeModel.Ret (PObj 21))) tr').
  { eexists. eexists. split; [vm_compute; reflexivity|]. split; simpl; auto 20. }
  destruct E as [tr [tr' [E [H H']]]].
  eapply always_weaken; [|apply (two_end [PObj 1; PNone; PObj 3] [PNone; PObj 20; PObj 30] 20 60)]; rewrite E; cbn [fst snd].
  - intros t ->. exists tr, tr'. split; [reflexivity|]. split; [reflexivity|]. auto.
  - exact (all_ret_stuck _ 2 tt (fun r => if r =? 0 then (tr, Done) else (tr', Done))).
Qed.
Print Assumptions C345_mixed_refuted.
