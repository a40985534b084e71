(** C323-C333: calls that all ranks have to make. *)
From Coq Require Import String.
From Coq Require Import List Arith Bool Lia ZArith.
From Verif Require Import PyBase PyStr PartModel PipeModel ColModel ColSpec ColProofs ColProofs2 CioModel CioProofs.
Import ListNotations.
Open Scope list_scope.
Open Scope nat_scope.

(** ** C323: jobs end, and end in one way *)
Theorem C323_no_endless_run : forall S V R (s : state S V R), no_endless_run s.
Proof. intros. apply never_endless. Qed.
Print Assumptions C323_no_endless_run.
(** Without shared files the order of events does not matter. *)
Theorem C323_one_end : forall S V R (s t u : state S V R), quiet (snd s) ->
  reach s t -> stuck t -> reach s u -> stuck u -> t = u.
Proof. intros. eapply unique; eauto. Qed.
Print Assumptions C323_one_end.
Example C323_example : exists t : state unit nat bool,
  reach (tt, [Coll [0; 1] CBarrier 0 (fun _ => Ret true); Coll [0; 1] CBarrier 0 (fun _ => Ret false)]) t
  /\ snd t = [Ret true; Ret false].
Proof.
  exists (tt, [Ret true; Ret false]). split; auto. eapply reach_step; [|constructor].
  apply (step_coll tt [Coll [0; 1] CBarrier 0 (fun _ => Ret true); Coll [0; 1] CBarrier 0 (fun _ => Ret false)] [0; 1] CBarrier); [discriminate|].
  intros r [<-|[<-|[]]]; do 2 eexists; reflexivity.
Qed.

(** ** C324: wrap *)
Theorem C324_wrap : forall S n (a : nat -> nat) (s : S), 0 < n ->
  let total := sum (map a (seq 0 n)) in
  all_return (s, map (fun r => wrap n r (Some (a r))) (seq 0 n)) n (fun r x =>
    ((forall q, q < n -> a q = total / n + (if q <? total mod n then 1 else 0)) /\ x = Ok (total, sum (map a (seq 0 r))))
    \/ ((exists q, q < n /\ a q <> total / n + (if q <? total mod n then 1 else 0)) /\ x = Err AxisException)).
Proof. intros S n a s L. apply (wrap_all n a L s). Qed.
Print Assumptions C324_wrap.
Example C324_example :
  all_return (tt, map (fun r => wrap 3 r (Some (nth r [3; 2; 2] 0))) (seq 0 3)) 3 (fun r x => x = Ok (7, nth r [0; 3; 5] 0))
  /\ all_return (tt, map (fun r => wrap 3 r (Some (nth r [2; 3; 2] 0))) (seq 0 3)) 3 (fun r x => x = Err AxisException).
Proof.
  split; (eapply always_weaken; [|apply (C324_wrap unit 3 _ tt); lia]); intros t [L H]; (split; [exact L|]); intros r Lr; destruct (H r Lr) as [x [Hx Q]]; exists x; (split; [exact Hx|]).
  - destruct Q as [[_ ->]|[[q [Lq N]] _]].
    + destruct r as [|[|[|r]]]; try lia; reflexivity.
    + exfalso. destruct q as [|[|[|q]]]; try lia; apply N; reflexivity.
  - destruct Q as [[A _]|[_ ->]]; auto. specialize (A 1 ltac:(lia)). discriminate.
Qed.

(** ** C325, C326: MPIArray.allreduce *)
Theorem C325_allreduce : forall S V n (op : V -> V -> V) shape data zero (s : S), 0 < n -> (forall r, r < n -> shape r = [1]) ->
  all_return (s, map (fun r => array_allreduce n op (shape r) (data r) zero) (seq 0 n)) n
    (fun _ x => x = Ok (match map (fun q => nth 0 (data q) zero) (seq 0 n) with [] => zero | y :: t => fold_left op t y end)).
Proof. intros S V n op shape data zero s L H. exact (array_allreduce_all n op shape data zero L s H). Qed.
Print Assumptions C325_allreduce.
Example C325_example :
  all_return (tt, map (fun r => array_allreduce 3 Nat.sub [1] [nth r [9; 2; 3] 0] 0) (seq 0 3)) 3 (fun _ x => x = Ok 4).
Proof. exact (C325_allreduce unit nat 3 Nat.sub (fun _ => [1]) (fun r => [nth r [9; 2; 3] 0]) 0 tt ltac:(lia) (fun _ _ => eq_refl)). Qed.
(** Whenever the numbers of elements differ, some wait for ever. *)
Theorem C326_uneven : forall S V n (op : V -> V -> V) shape data zero (s : S) p q, 0 < n -> p < n -> q < n -> shape p = [1] -> shape q <> [1] ->
  always (s, map (fun r => array_allreduce n op (shape r) (data r) zero) (seq 0 n)) (fun t =>
    forall r, r < n -> (shape r = [1] -> waits t r) /\ (shape r <> [1] -> returned t r (Err ValueError))).
Proof. intros S V n op shape data zero s p q L Lp Lq Ep Eq. exact (array_allreduce_hangs n op shape data zero L s p q Lp Lq Ep Eq). Qed.
Print Assumptions C326_uneven.
Theorem C326_refuted : exists (shape : nat -> list nat) (data : nat -> list nat),
  hangs (tt, map (fun r => array_allreduce 2 Nat.add (shape r) (data r) 0) (seq 0 2)).
Proof.
  exists (fun r => if r =? 0 then [1] else [0]), (fun r => if r =? 0 then [5] else []).
  eapply always_weaken; [|apply (C326_uneven unit nat 2 Nat.add _ _ 0 tt 0 1); try lia; simpl; auto; discriminate].
  intros t H. exists 0. apply (H 0); auto.
Qed.
Print Assumptions C326_refuted.

(** ** C327, C328: the check of the memory before redistributing

    [node r]: the ranks on the node of rank [r]; [avail r]: what rank [r] reads. *)
Definition partition (n : nat) (node : nat -> list nat) : Prop :=
  forall r, r < n -> In r (node r) /\ forall q, In q (node r) -> q < n /\ node q = node r.
Definition enough_for (n : nat) (node : nat -> list nat) (avail : nat -> option nat) (nbytes : nat -> nat) (r : nat) : Prop :=
  match avail r with None => False | Some a => sum (map (fun q => (n + 4) * nbytes q / n) (node r)) < a end.
Theorem C327_all_fit : forall S n is_world node avail nbytes (s : S), 0 < n -> partition n node ->
  (forall r, r < n -> enough_for n node avail nbytes r) ->
  all_return (s, map (fun r => redistribute n is_world (node r) (avail r) (nbytes r)) (seq 0 n)) n (fun _ x => x = Ok tt).
Proof. intros S n w node avail nbytes s L P H. exact (check_fits n w node avail nbytes L P s H). Qed.
Theorem C327_none_fits : forall S n is_world node avail nbytes (s : S), 0 < n -> partition n node ->
  (forall r, r < n -> avail r <> None /\ ~ enough_for n node avail nbytes r) ->
  all_return (s, map (fun r => redistribute n is_world (node r) (avail r) (nbytes r)) (seq 0 n)) n (fun _ x => x = Err OtherException).
Proof. intros S n w node avail nbytes s L P H. exact (check_raises n w node avail nbytes L P s H). Qed.
Print Assumptions C327_all_fit.
Print Assumptions C327_none_fits.
Definition two_nodes (r : nat) : list nat := if r <? 2 then [0; 1] else [2; 3].
Lemma two_nodes_ok : partition 4 two_nodes.
Proof. intros r L. destruct r as [|[|[|[|r]]]]; try lia; (split; [simpl; auto|]); intros q Q; simpl in Q; destruct Q as [<-|[<-|[]]]; split; auto; lia. Qed.
Example C327_example :
  all_return (tt, map (fun r => redistribute 4 true (two_nodes r) (Some 100) 10) (seq 0 4)) 4 (fun _ x => x = Ok tt)
  /\ all_return (tt, map (fun r => redistribute 4 false (two_nodes r) (Some 40) 10) (seq 0 4)) 4 (fun _ x => x = Err OtherException).
Proof.
  split.
  - apply (C327_all_fit unit 4 true two_nodes (fun _ => Some 100) (fun _ => 10) tt); [lia|apply two_nodes_ok|]. intros r L. destruct r as [|[|[|[|r]]]]; try lia; apply Nat.ltb_lt; reflexivity.
  - apply (C327_none_fits unit 4 false two_nodes (fun _ => Some 40) (fun _ => 10) tt); [lia|apply two_nodes_ok|]. intros r L. split; [discriminate|]. intros H.
    destruct r as [|[|[|[|r]]]]; try lia; apply Nat.ltb_lt in H; discriminate.
Qed.
(** With room on one node and none on another, and with one rank that cannot read. *)
Theorem C328_mixed : forall S n is_world node avail nbytes (s : S) p q, 0 < n -> partition n node -> (forall r, r < n -> avail r <> None) ->
  p < n -> q < n -> enough_for n node avail nbytes p -> ~ enough_for n node avail nbytes q ->
  always (s, map (fun r => redistribute n is_world (node r) (avail r) (nbytes r)) (seq 0 n)) (fun t => forall r, r < n ->
    (enough_for n node avail nbytes r -> waits t r) /\ (~ enough_for n node avail nbytes r -> returned t r (Err OtherException))).
Proof. intros S n w node avail nbytes s p q L P A Lp Lq Ep Eq. exact (check_mixed n w node avail nbytes L P s p q A Lp Lq Ep Eq). Qed.
Theorem C328_unreadable : forall S n is_world node avail nbytes (s : S) p q, 0 < n -> partition n node ->
  p < n -> In q (node p) -> avail p = None -> avail q <> None ->
  always (s, map (fun r => redistribute n is_world (node r) (avail r) (nbytes r)) (seq 0 n)) (fun t => waits t p /\ waits t q).
Proof. intros S n w node avail nbytes s p q L P Lp Iq Ep Eq. exact (check_oserror n w node avail nbytes L P s p q Lp Iq Ep Eq). Qed.
Print Assumptions C328_mixed.
Print Assumptions C328_unreadable.
Theorem C328_refuted : exists n node avail nbytes, partition n node /\
  hangs (tt, map (fun r => redistribute n true (node r) (avail r) (nbytes r)) (seq 0 n)).
Proof.
  exists 4, two_nodes, (fun r => if r <? 2 then Some 100 else Some 40), (fun _ => 10). split; [apply two_nodes_ok|].
  eapply always_weaken; [|apply (C328_mixed unit 4 true two_nodes _ _ tt 0 2)]; try lia.
  - intros t H. exists 0. apply (H 0); [lia|]. apply Nat.ltb_lt. reflexivity.
  - apply two_nodes_ok.
  - intros r L. destruct (r <? 2); discriminate.
  - apply Nat.ltb_lt. reflexivity.
  - intros H. apply Nat.ltb_lt in H. discriminate.
Qed.
Print Assumptions C328_refuted.

(** ** C329, C330: parallel_map *)
Theorem C329_no_exception : forall S A B (f : A -> res B) (g : A -> B) l root m perms n (s : S), 0 < n -> m = Con \/ m = Alt ->
  (forall x, In x l -> f x = Ok (g x)) ->
  all_return (s, map (fun r => pmap f l root m (perms r) n r) (seq 0 n)) n (fun r x =>
    x = Ok (match root with Some rt => if (n =? 1) || (r =? rt) then Some (map g l) else None | None => Some (map g l) end)).
Proof. intros S A B f g l root m perms n s L M H. exact (pmap_fine f l root m perms n L M g s H). Qed.
Print Assumptions C329_no_exception.
(** With the handler of [enable_mpi_exception_handler] the job ends. *)
Theorem C329_handler : forall S A B (f : A -> res B) l root m perms n (s : S) q items i x e, 1 < n -> m = Con \/ m = Alt -> q < n ->
  partition_list_mpi (perms q) (enumerate l) m q n = Ok items -> In (i, x) items -> f x = Err e ->
  always (s, map (fun r => pmap f l root m (perms r) n r) (seq 0 n)) over.
Proof. intros S A B f l root m perms n s q it i x e L M Lq E I F. apply (pmap_over f l root m perms n ltac:(lia) M s q L Lq). exists it, i, x, e. auto. Qed.
Print Assumptions C329_handler.
Definition half (x : nat) : res nat := if Nat.even x then Ok (x / 2) else Err ValueError.
Example C329_example :
  all_return (tt, map (fun r => pmap half [4; 8; 6] None Con [] 2 r) (seq 0 2)) 2 (fun r x => x = Ok (Some [2; 4; 3]))
  /\ always (tt, map (fun r => pmap half [4; 7; 6] None Alt [] 2 r) (seq 0 2)) over.
Proof.
  split.
  - apply (C329_no_exception unit nat nat half (fun x => x / 2) [4; 8; 6] None Con (fun _ => []) 2 tt); auto. simpl. intros x [<-|[<-|[<-|[]]]]; reflexivity.
  - apply (C329_handler unit nat nat half [4; 7; 6] None Alt (fun _ => []) 2 tt 1 [(1, 7)] 1 7 ValueError); auto. simpl. auto.
Qed.
(** Without it: ranks without exception wait for ever. *)
Theorem C330_waits : forall S A B (f : A -> res B) l root m perms n (s : S) q items i x e, 1 < n -> m = Con \/ m = Alt -> q < n ->
  partition_list_mpi (perms q) (enumerate l) m q n = Ok items -> In (i, x) items -> f x = Err e ->
  always (s, map (fun r => pmap f l root m (perms r) n r) (seq 0 n)) (fun t => forall r, r < n ->
    (exists items i x e, partition_list_mpi (perms r) (enumerate l) m r n = Ok items /\ In (i, x) items /\ f x = Err e) /\ (exists e, returned t r (Err e))
    \/ waits t r).
Proof.
  intros S A B f l root m perms n s q it i x e L M Lq E I F.
  assert (Fq : fails f l m perms n q) by (exists it, i, x, e; auto).
  eapply always_weaken; [|apply (pmap_raises f l root m perms n ltac:(lia) M s q L Lq Fq)].
  intros t H r Lr. destruct (H r Lr) as [H1 H2].
  destruct (items l m perms n ltac:(lia) M) as [ps [_ [_ Ei]]]. specialize (Ei r Lr).
  destruct (rmap (fun p => rbind (f (snd p)) (fun y => Ok (fst p, y))) (nth r ps [])) as [v|e'] eqn:X.
  - right. apply H2. intros [it' [i' [x' [e' [E1 [I1 F1]]]]]]. rewrite E1 in Ei. injection Ei as ->.
    destruct (proj2 (rmap_err _ _ (fun p : nat * A => rbind (f (snd p)) (fun y => Ok (fst p, y))) (nth r ps []))) as [e'' Y]; [|congruence].
    exists (i', x'), e'. split; auto. simpl. now rewrite F1.
  - left. destruct (proj1 (rmap_err _ _ _ _) (ex_intro _ e' X)) as [[i' x'] [e'' [I1 F1]]]. simpl in F1. destruct (f x') as [y|e3] eqn:Fx; [discriminate|].
    assert (G : fails f l m perms n r) by (exists (nth r ps []), i', x', e3; auto). split; [exact G|auto].
Qed.
Print Assumptions C330_waits.
Theorem C330_refuted : exists (f : nat -> res nat) l, hangs (tt, map (fun r => pmap f l None Con [] 2 r) (seq 0 2)).
Proof.
  exists half, [4; 7]. eapply always_weaken; [|apply (C330_waits unit nat nat half [4; 7] None Con (fun _ => []) 2 tt 1 [(1, 7)] 1 7 ValueError); simpl; auto].
  intros t H. exists 0. destruct (H 0 ltac:(lia)) as [[[it [i [x [e [E [I F]]]]]] _]|W]; auto.
  exfalso. injection E as <-. destruct I as [I|[]]. injection I as <- <-. discriminate.
Qed.
Print Assumptions C330_refuted.

(** ** C331: the check for NaN *)
Theorem C331_nan_check : forall S n nan_check nan_dump nan_skip (d : nat -> list (option bool)) (s : S), 0 < n ->
  all_return (s, map (fun r => nan_process_output n nan_check nan_dump nan_skip (d r)) (seq 0 n)) n
    (fun _ x => x = false <-> nan_check = true /\ nan_skip = true /\ exists q, q < n /\ In (Some false) (d q)).
Proof. intros S n c du sk d s L. exact (nan_all n c du sk d L s). Qed.
Print Assumptions C331_nan_check.
Example C331_example :
  all_return (tt, map (fun r => nan_process_output 3 true true true (if r =? 1 then [None; Some true; Some false] else [None; Some true])) (seq 0 3)) 3 (fun _ x => x = false)
  /\ all_return (tt, map (fun r => nan_process_output 3 true true true [None; Some true]) (seq 0 3)) 3 (fun _ x => x = true).
Proof.
  split.
  - eapply always_weaken; [|apply (C331_nan_check unit 3 true true true (fun r => if r =? 1 then [None; Some true; Some false] else [None; Some true]) tt); lia].
    intros t [L H]. split; auto. intros r Lr. destruct (H r Lr) as [x [Hx Q]]. exists x. split; auto. apply Q. repeat split; auto. exists 1. split; [lia|]. simpl. auto.
  - eapply always_weaken; [|apply (C331_nan_check unit 3 true true true (fun _ => [None; Some true]) tt); lia].
    intros t [L H]. split; auto. intros r Lr. destruct (H r Lr) as [x [Hx Q]]. exists x. split; auto. destruct x; auto. exfalso. destruct (proj1 Q eq_refl) as [_ [_ [q [_ I]]]]. simpl in I. destruct I as [I|[I|[]]]; discriminate.
Qed.

(** ** C332, C333: the next task *)
Theorem C332_next_task : forall S V' S' n (m : nat -> @mst V' S') (s : S), 0 < n ->
  (forall r, r < n -> available (m r) <> []) \/ (forall r, r < n -> available (m r) = [] /\ next_task (m r) = next_task (m 0)) ->
  all_return (s, map (fun r => next_task_on n (m r)) (seq 0 n)) n (fun _ x => x = next_task (m 0)).
Proof.
  intros S V' S' n m s L [H|H].
  - exact (next_available n m L s H).
  - eapply always_weaken; [|apply (next_none n m L s); intros; apply H; auto]. intros t [E Q]. split; auto. intros r Lr. destruct (Q r Lr) as [x [Hx ->]]. exists (next_task (m r)). split; auto. apply H; auto.
Qed.
Print Assumptions C332_next_task.
Definition quiet_task (st : pstate) (q : list nat) : @task nat unit :=
  mktask (mkconf (KOne (PyStr.s_ "a")) (KOne (PyStr.s_ "b")) (KOne (PyStr.s_ "c")) (mkbeh (fun s _ => (s, Stop)) (fun s _ => (s, Stop)) (fun s => (s, Stop))) None 0%Z)
    tt st (Some []) (Some [map PObj q]) 0%Z.
Definition with_queue (q : list nat) : @mst nat unit := mkmst [Some (quiet_task SNext []); Some (quiet_task SNext q)] 0 0.
Example C332_example : available (with_queue [7]) = [1] /\ available (with_queue []) = []
  /\ all_return (tt, map (fun r => next_task_on 3 (with_queue [7 + r])) (seq 0 3)) 3 (fun _ x => x = Some 1).
Proof.
  split; [reflexivity|]. split; [reflexivity|]. apply (C332_next_task unit nat unit 3 (fun r => with_queue [7 + r]) tt); [lia|]. left. intros r L. discriminate.
Qed.
Theorem C333_refuted : exists m : nat -> @mst nat unit,
  always (tt, map (fun r => next_task_on 2 (m r)) (seq 0 2)) (fun t => returned t 1 (Some 0) /\ waits t 0).
Proof.
  exists (fun r => if r =? 0 then with_queue [7] else with_queue []).
  eapply always_weaken; [|apply (next_mixed (S := unit) 2 (fun r => if r =? 0 then with_queue [7] else with_queue [])) with (p := 1) (q := 0)]; try lia.
  - intros t H. destruct (H 0 ltac:(lia)) as [_ H0]. destruct (H 1 ltac:(lia)) as [H1 _]. split; [apply H1; reflexivity|apply H0; discriminate].
  - reflexivity.
  - discriminate.
Qed.
Print Assumptions C333_refuted.
