(** The collective operations of arrays and lists. *)
From Coq Require Import List Arith Bool Lia Permutation.
From Verif Require Import PyBase PartModel PartSpec PartProofs PartProps0 ColModel ColSpec ColProofs.
Import ListNotations.
Open Scope nat_scope.

Lemma world_length : forall n, length (world n) = n.
Proof. intros. apply seq_length. Qed.
Lemma lock_allreduce : forall S V R n op v (k : nat -> V -> proc S V R) Q, 0 < n -> (forall x, op [x] = x) ->
  lock n (fun r => k r (op (map v (seq 0 n)))) Q -> lock n (fun r => allreduce op (world n) (v r) (k r)) Q.
Proof.
  intros S V R n op v k Q L O H. unfold allreduce. rewrite world_length. destruct (Nat.ltb_spec 1 n).
  - eapply lock_coll with (c := CAllreduce) (v := v) (k := fun r l => k r (op l)); auto.
  - replace n with 1 in * by lia. inversion H; subst.
    + apply lock_end. intros r Lr. replace r with 0 in * by lia. rewrite <- H1 by lia. simpl. now rewrite O.
    + eapply lock_coll with (c := c) (v := v0) (k := k0); auto. intros r Lr. replace r with 0 in * by lia. rewrite <- H1 by lia. simpl. now rewrite O.
Qed.
Lemma noact_allreduce : forall S V R op g v (k : V -> proc S V R), (forall x, noact (k x)) -> noact (allreduce op g v k).
Proof. intros. unfold allreduce. destruct (1 <? length g); simpl; auto. Qed.
Lemma lock_barrier : forall S V R n v (p : nat -> proc S V R) Q, lock n p Q -> lock n (fun r => barrier (world n) v (p r)) Q.
Proof.
  intros S V R n v p Q H. unfold barrier. rewrite world_length. destruct (1 <? n); auto.
  eapply lock_coll with (c := CBarrier) (v := fun _ => v) (k := fun r _ => p r); auto.
Qed.

Lemma max_zero : forall l, max l = 0 <-> forall x, In x l -> x = 0.
Proof.
  induction l; simpl; split; intros; auto; try contradiction.
  - destruct H0 as [->|I]; [lia|]. apply IHl; auto. lia.
  - assert (a = 0) by auto. assert (max l = 0) by (apply IHl; auto). lia.
Qed.

Lemma forallb_false : forall A (f : A -> bool) l, forallb f l = false -> exists x, In x l /\ f x = false.
Proof. induction l; simpl; intros H; [discriminate|]. apply andb_false_iff in H. destruct H as [H|H]; [eauto|]. destruct (IHl H) as [x [? ?]]; eauto. Qed.

(** * [wrap] *)
Section Wrap.
  Context {S : Type} (n : nat) (a : nat -> nat).
  Hypothesis n_pos : 0 < n.
  Let total := sum (map a (seq 0 n)).
  Let even := forallb (fun r => a r =? part_of total n r) (seq 0 n).
  Lemma wrap_noact : forall r x, noact (wrap (S := S) n r x).
  Proof.
    intros r [x|]; simpl; auto. unfold wrap. apply noact_allreduce. intros y. destruct (split_local y r n) as [[[? ?] ?]|]; simpl; auto.
    apply noact_allreduce. intros z. destruct (z =? 0); simpl; auto.
  Qed.
  Lemma issue_zero : forall m, (max (map (fun r => of_bool (negb (a r =? part_of total n r))) (seq 0 m)) =? 0) = forallb (fun r => a r =? part_of total n r) (seq 0 m).
  Proof.
    intros m. destruct (forallb _ (seq 0 m)) eqn:E.
    - apply Nat.eqb_eq. apply max_zero. intros x I. apply in_map_iff in I. destruct I as [r [<- I]].
      rewrite forallb_forall in E. rewrite (E r I). reflexivity.
    - apply Nat.eqb_neq. intros Z. assert (forallb (fun r => a r =? part_of total n r) (seq 0 m) = true); [|congruence].
      apply forallb_forall. intros r I. assert (X : of_bool (negb (a r =? part_of total n r)) = 0).
      { apply (proj1 (max_zero _) Z). apply in_map_iff. eauto. }
      destruct (a r =? part_of total n r); auto; discriminate.
  Qed.
  Lemma wrap_lock : lock n (fun r => wrap (S := S) n r (Some (a r))) (fun r => Ret (if even then Ok (total, start_of total n r) else Err AxisException)).
  Proof.
    unfold wrap. apply lock_allreduce; auto. { intros x; simpl; lia. } fold total.
    assert (E : forall r, r < n -> split_local total r n = Ok (part_of total n r, start_of total n r, start_of total n (Datatypes.S r))) by (intros; apply split_local_closed; auto).
    set (Q := fun r => Ret (if even then Ok (total, start_of total n r) else Err AxisException)).
    assert (L : lock n (fun r => allreduce (S := S) max (world n) (of_bool (negb (a r =? part_of total n r)))
              (fun layout_issue => if layout_issue =? 0 then Ret (Ok (total, start_of total n r)) else Ret (Err AxisException))) Q).
    { apply (lock_allreduce S nat (res (nat * nat)) n max (fun r => of_bool (negb (a r =? part_of total n r)))
              (fun r layout_issue => if layout_issue =? 0 then Ret (Ok (total, start_of total n r)) else Ret (Err AxisException))); auto. { intros x; simpl; lia. }
      rewrite issue_zero. fold even. apply lock_end. intros r _. unfold Q. destruct even; auto. }
    clearbody Q. remember (fun r => allreduce (S := S) max (world n) (of_bool (negb (a r =? part_of total n r)))
              (fun layout_issue => if layout_issue =? 0 then Ret (Ok (total, start_of total n r)) else Ret (Err AxisException))) as P eqn:EP.
    assert (EP' : forall r, r < n -> match split_local total r n with
      | Ok (local_num, local_start, _) => allreduce max (world n) (of_bool (negb (a r =? local_num)))
          (fun layout_issue => if layout_issue =? 0 then Ret (Ok (total, local_start)) else Ret (Err AxisException))
      | Err e => Ret (Err e) end = P r) by (intros r Lr; subst P; rewrite E by auto; reflexivity).
    clear EP. inversion L; subst.
    - apply lock_end. intros r Lr. rewrite EP' by auto. auto.
    - eapply lock_coll; eauto. intros r Lr. rewrite EP' by auto. apply H; auto.
  Qed.
  Lemma sum_even : even = true -> forall r, r <= n -> sum (map a (seq 0 r)) = start_of total n r.
  Proof.
    intros E. unfold even in E. rewrite forallb_forall in E. induction r; intros L; auto.
    rewrite seq_S, map_app. simpl. unfold sum in *. rewrite fold_right_app. simpl.
    assert (X : forall l z, fold_right Nat.add z l = fold_right Nat.add 0 l + z) by (induction l; simpl; intros; auto; rewrite IHl; lia).
    rewrite X, IHr by lia. rewrite start_of_S. assert (A : In r (seq 0 n)) by (apply in_seq; lia). apply E in A. apply Nat.eqb_eq in A. lia.
  Qed.
  Theorem wrap_all : forall s, all_return (s, family n (fun r => wrap (S := S) n r (Some (a r)))) n (fun r x =>
    ((forall q, q < n -> a q = total / n + (if q <? total mod n then 1 else 0)) /\ x = Ok (total, sum (map a (seq 0 r))))
    \/ ((exists q, q < n /\ a q <> total / n + (if q <? total mod n then 1 else 0)) /\ x = Err AxisException)).
  Proof.
    intros s. eapply lock_returns; [exact n_pos|intros; apply wrap_noact|apply wrap_lock|]. intros r Lr. cbv beta. destruct even eqn:E.
    - left. split.
      + intros q Lq. unfold even in E. rewrite forallb_forall in E. apply Nat.eqb_eq. apply (E q). apply in_seq; lia.
      + rewrite sum_even by (auto; lia). auto.
    - right. split; auto. unfold even in E. destruct (forallb_false _ _ _ E) as [q [I H]]. apply in_seq in I.
      apply Nat.eqb_neq in H. exists q. split; [lia|exact H].
  Qed.
End Wrap.

(** * [MPIArray.allreduce] *)
Section ArrAllreduce.
  Context {S V : Type} (n : nat) (op : V -> V -> V) (shape : nat -> list nat) (data : nat -> list V) (zero : V).
  Hypothesis n_pos : 0 < n.
  Notation P := (fun r => array_allreduce (S := S) n op (shape r) (data r) zero).
  Lemma array_allreduce_noact : forall r, noact (P r).
  Proof. intros r. unfold array_allreduce. destruct (shape r) as [|[|[|]] [|]]; simpl; auto. Qed.
  Theorem array_allreduce_all : forall s, (forall r, r < n -> shape r = [1]) ->
    all_return (s, family n P) n (fun _ x => x = Ok (reduce_all op (map (fun q => nth 0 (data q) zero) (seq 0 n)) zero)).
  Proof.
    intros s H. eapply lock_returns with (out := fun r => Ok (reduce_all op (map (fun q => nth 0 (data q) zero) (seq 0 n)) zero)); auto.
    - intros; apply array_allreduce_noact.
    - eapply lock_coll with (c := CAllreduce) (v := fun r => nth 0 (data r) zero) (k := fun r l => Ret (Ok (reduce_all op l (nth 0 (data r) zero)))).
      + intros r L. unfold array_allreduce. rewrite H by auto. auto.
      + apply lock_end. intros r L. destruct n; [lia|]. simpl. auto.
  Qed.
  Lemma array_allreduce_stuck : forall s q, q < n -> shape q <> [1] -> stuck (s, family n P).
  Proof.
    intros s q L N. apply stuck_family; [intros; apply array_allreduce_noact|]. intros r g c v k Lr E.
    exists q. assert (g = world n).
    { unfold array_allreduce in E. destruct (shape r) as [|[|[|]] [|]]; inversion E; auto. }
    subst g. split; [apply world_in; auto|]. right. intros v' k'. unfold array_allreduce. destruct (shape q) as [|[|[|]] [|]]; congruence.
  Qed.
  Theorem array_allreduce_hangs : forall s p q, p < n -> q < n -> shape p = [1] -> shape q <> [1] ->
    always (s, family n P) (fun t => forall r, r < n -> (shape r = [1] -> waits t r) /\ (shape r <> [1] -> returned t r (Err ValueError))).
  Proof.
    intros s p q Lp Lq Ep Nq. eapply always_weaken; [|apply one_end; [apply quiet_family; intros; apply array_allreduce_noact|constructor|eapply array_allreduce_stuck; eauto]].
    intros t ->. intros r Lr. unfold waits, returned. simpl. rewrite family_nth. destruct (Nat.ltb_spec r n); [|lia]. split; intros E.
    - unfold array_allreduce. rewrite E. do 4 eexists. reflexivity.
    - unfold array_allreduce. destruct (shape r) as [|[|[|]] [|]]; congruence.
  Qed.
End ArrAllreduce.

(** * The check of the memory *)
Lemma mem_in : forall r g, mem r g = true <-> In r g.
Proof. intros. unfold mem. rewrite existsb_exists. split; [intros [x [I E]]; apply Nat.eqb_eq in E; subst; auto|intros; exists r; rewrite Nat.eqb_refl; auto]. Qed.
Lemma step_group : forall S V R n (s : S) (P : nat -> proc S V R) g c v k, g <> [] -> (forall r, In r g -> r < n /\ P r = Coll g c (v r) (k r)) ->
  step (s, family n P) (s, family n (fun r => if mem r g then k r (map v g) else P r)).
Proof.
  intros S V R n s P g c v k N H.
  assert (Ev : values g (family n P) = map v g).
  { unfold values. apply flat_map_single. intros r I. destruct (H r I) as [L E]. unfold value_at. rewrite family_nth. destruct (Nat.ltb_spec r n); [|lia]. rewrite E. auto. }
  replace (family n (fun r => if mem r g then k r (map v g) else P r)) with (resume g (family n P)).
  - apply step_coll with (c := c); auto. intros r I. destruct (H r I) as [L E]. exists (v r), (k r). rewrite family_nth. destruct (Nat.ltb_spec r n); [|lia]. now rewrite E.
  - apply nth_ext'. intros r. rewrite resume_nth, !family_nth, Ev. destruct (r <? n) eqn:L; simpl; auto. f_equal.
    destruct (mem r g) eqn:M; auto. apply mem_in in M. destruct (H r M) as [_ E]. rewrite E. auto.
Qed.
Section Check.
  Context {S : Type} (n : nat) (is_world : bool) (node : nat -> list nat) (avail : nat -> option nat) (nbytes : nat -> nat).
  Hypothesis n_pos : 0 < n.
  Hypothesis nodes : forall r, r < n -> In r (node r) /\ forall q, In q (node r) -> q < n /\ node q = node r.
  Notation prog := (fun r => redistribute (S := S) n is_world (node r) (avail r) (nbytes r)).
  Let need r := (n + 4) * nbytes r / n.
  Let K (ok : bool) : proc S nat (res unit) := if ok then Coll (world n) (CWork 0) 0 (fun _ => Ret (Ok tt)) else Ret (Err OtherException).
  Let start r := match avail r with None => K true | Some a => Coll (node r) CAllreduce (need r) (fun l => K (sum l <? a)) end.
  Let is_some (o : option nat) := match o with Some _ => true | None => false end.
  Let complete r := forallb (fun q => is_some (avail q)) (node r).
  Let fits r := match avail r with None => true | Some a => sum (map need (node r)) <? a end.
  Let final r := if complete r then K (fits r) else start r.
  Let mid j r := if complete r && existsb (fun q => q <? j) (node r) then K (fits r) else start r.
  Lemma prog_noact : forall r, noact (prog r).
  Proof.
    intros r. unfold redistribute, can_allocate.
    assert (X : forall b : bool, noact (if b then Coll (world n) (CWork 0) 0 (fun _ => Ret (Ok tt)) else Ret (Err OtherException) : proc S nat (res unit))) by (intros []; simpl; auto).
    destruct is_world, (avail r); simpl; intros; try apply X; auto.
  Qed.
  Lemma prog_start : forall s, reach (s, family n prog) (s, family n start).
  Proof.
    intros s. destruct is_world eqn:W.
    - rewrite (family_ext n _ start); [constructor|]. intros r L. unfold redistribute, can_allocate. unfold start. destruct (avail r); auto.
    - apply lock_reach; auto. eapply lock_coll with (c := CSplit) (v := fun _ => 0) (k := fun r _ => start r); [|apply lock_end; auto].
      intros r L. unfold redistribute, can_allocate. unfold start. destruct (avail r); auto.
  Qed.
  Lemma mid_step : forall s j, j < n -> reach (s, family n (mid j)) (s, family n (mid (Datatypes.S j))).
  Proof.
    intros s j L. destruct (nodes j L) as [Ij Hj].
    destruct (complete j && negb (existsb (fun q => q <? j) (node j))) eqn:C.
    - apply andb_true_iff in C. destruct C as [C D]. apply negb_true_iff in D.
      assert (A : forall r, In r (node j) -> r < n /\ node r = node j /\ complete r = true /\ exists a, avail r = Some a /\ mid j r = Coll (node j) CAllreduce (need r) (fun l => K (sum l <? a))).
      { intros r I. destruct (Hj r I) as [Lr En]. unfold mid, complete. rewrite En. fold (complete j). rewrite C, D. simpl. split; auto. split; auto. split; auto.
        unfold complete in C. rewrite forallb_forall in C. specialize (C r I). unfold start. destruct (avail r) as [a|]; [|discriminate]. exists a. rewrite En. auto. }
      assert (G : node j <> []) by (intros X; rewrite X in Ij; contradiction).
      pose proof (step_group S nat (res unit) n s (mid j) (node j) CAllreduce need (fun r l => K (sum l <? match avail r with Some a => a | None => 0 end)) G) as T.
      eapply reach_one. replace (family n (mid (Datatypes.S j))) with (family n (fun r => if mem r (node j) then K (sum (map need (node j)) <? match avail r with Some a => a | None => 0 end) else mid j r)).
      + apply T. intros r I. destruct (A r I) as [Lr [_ [_ [a [Ea Em]]]]]. split; auto. rewrite Ea. auto.
      + apply family_ext. intros r Lr. destruct (mem r (node j)) eqn:M.
        * apply mem_in in M. destruct (A r M) as [_ [En [Cr [a [Ea _]]]]]. unfold mid. rewrite Cr, En.
          replace (existsb (fun q => q <? Datatypes.S j) (node j)) with true; [|symmetry; apply existsb_exists; exists j; split; auto; apply Nat.ltb_lt; lia].
          simpl. unfold fits. rewrite Ea, En. auto.
        * unfold mid. replace (existsb (fun q => q <? Datatypes.S j) (node r)) with (existsb (fun q => q <? j) (node r)); auto.
          destruct (nodes r Lr) as [Ir Hr]. assert (NI : ~ In j (node r)).
          { intros X. destruct (Hr j X) as [_ En]. rewrite <- En in Ir. apply mem_in in Ir. congruence. }
          clear -NI. induction (node r); simpl in *; auto. rewrite IHl by tauto. f_equal.
          destruct (Nat.ltb_spec a j), (Nat.ltb_spec a (Datatypes.S j)); auto; try lia.
    - rewrite (family_ext n (mid j) (mid (Datatypes.S j))); [constructor|]. intros r Lr. unfold mid.
      destruct (complete r) eqn:Cr; simpl; auto. destruct (nodes r Lr) as [Ir Hr].
      replace (existsb (fun q => q <? Datatypes.S j) (node r)) with (existsb (fun q => q <? j) (node r)); auto.
      apply andb_false_iff in C. destruct (existsb (fun q => q <? j) (node r)) eqn:D1.
      + symmetry. apply existsb_exists in D1. destruct D1 as [q [Iq Lq]]. apply existsb_exists. exists q. split; auto. apply Nat.ltb_lt in Lq. apply Nat.ltb_lt. lia.
      + symmetry. destruct (existsb (fun q => q <? Datatypes.S j) (node r)) eqn:D2; auto. apply existsb_exists in D2. destruct D2 as [q [Iq Lq]]. apply Nat.ltb_lt in Lq.
        assert (q <> j).
        { intros ->. destruct (Hr j Iq) as [_ En]. unfold complete in C, Cr. rewrite En in C. fold (complete r) in C. destruct C as [C|C]; [unfold complete in C; congruence|].
          rewrite D1 in C. discriminate. }
        assert (existsb (fun q => q <? j) (node r) = true); [|congruence]. apply existsb_exists. exists q. split; auto. apply Nat.ltb_lt. lia.
  Qed.
  Lemma mid_all : forall s j, j <= n -> reach (s, family n start) (s, family n (mid j)).
  Proof.
    induction j; intros L.
    - rewrite (family_ext n start (mid 0)); [constructor|]. intros r _. unfold mid. replace (existsb (fun q => q <? 0) (node r)) with false; [now rewrite andb_false_r|].
      symmetry. induction (node r); simpl; auto.
    - eapply reach_trans; [apply IHj; lia|apply mid_step; lia].
  Qed.
  Lemma prog_final : forall s, reach (s, family n prog) (s, family n final).
  Proof.
    intros s. eapply reach_trans; [apply prog_start|]. eapply reach_trans; [apply (mid_all s n); lia|].
    rewrite (family_ext n (mid n) final); [constructor|]. intros r L. unfold mid, final. destruct (nodes r L) as [I _].
    replace (existsb (fun q => q <? n) (node r)) with true; [now rewrite andb_true_r|]. symmetry. apply existsb_exists. exists r. split; auto. now apply Nat.ltb_lt.
  Qed.
  Lemma K_noact : forall b, noact (K b). Proof. intros []; simpl; auto. Qed.
  Lemma final_noact : forall r, noact (final r).
  Proof. intros r. unfold final. destruct (complete r); [apply K_noact|]. unfold start. destruct (avail r); [|apply (K_noact true)]. simpl. intros. apply K_noact. Qed.
  Lemma final_stuck : forall s q, q < n -> (forall v k, final q <> Coll (world n) (CWork 0) v k) -> stuck (s, family n final).
  Proof.
    intros s q Lq N. apply stuck_family; [intros; apply final_noact|]. intros r g c v k Lr E.
    assert (W : forall b, K b = Coll g c v k -> g = world n /\ c = CWork 0) by (intros []; unfold K; intros X; inversion X; auto).
    unfold final in E. destruct (complete r) eqn:C.
    - destruct (W _ E) as [-> ->]. exists q. split; [apply world_in; auto|]. right. auto.
    - unfold start in E. destruct (avail r) eqn:A.
      + inversion E; subst. unfold complete in C. destruct (forallb_false _ _ _ C) as [x [Ix Hx]]. destruct (nodes r Lr) as [_ Hr]. destruct (Hr x Ix) as [Lx Ex].
        exists x. split; auto. right. intros v' k'. unfold final, complete. rewrite Ex, C. unfold start. destruct (avail x); [discriminate|]. unfold K. discriminate.
      + destruct (W true E) as [-> ->]. exists q. split; [apply world_in; auto|]. right. auto.
  Qed.
  Lemma final_end : forall s q, q < n -> (forall v k, final q <> Coll (world n) (CWork 0) v k) -> always (s, family n prog) (fun t => t = (s, family n final)).
  Proof. intros. apply one_end; [apply quiet_family; intros; apply prog_noact|apply prog_final|eapply final_stuck; eauto]. Qed.

  (** What the check needs on a node. *)
  Definition enough (r : nat) : Prop := match avail r with None => False | Some a => sum (map (fun q => (n + 4) * nbytes q / n) (node r)) < a end.
  Lemma complete_all : (forall q, q < n -> avail q <> None) -> forall r, r < n -> complete r = true.
  Proof. intros H r L. unfold complete. apply forallb_forall. intros q I. destruct (nodes r L) as [_ Hr]. destruct (Hr q I) as [Lq _]. specialize (H q Lq). destruct (avail q); auto; congruence. Qed.
  Lemma fits_enough : forall r, avail r <> None -> fits r = true <-> enough r.
  Proof. intros r H. unfold fits, enough. destruct (avail r); [apply Nat.ltb_lt|congruence]. Qed.
  Theorem check_fits : forall s, (forall q, q < n -> enough q) -> all_return (s, family n prog) n (fun _ x => x = Ok tt).
  Proof.
    intros s H. assert (A : forall q, q < n -> avail q <> None) by (intros q L X; specialize (H q L); unfold enough in H; rewrite X in H; auto).
    apply always_weaken with (P := fun t => t = (s, family n (fun _ => Ret (Ok tt)))).
    - intros t ->. simpl. split; [apply family_length|]. intros r L. exists (Ok tt). split; auto. unfold returned. simpl. rewrite family_nth. destruct (Nat.ltb_spec r n); [auto|lia].
    - apply one_end; [apply quiet_family; intros; apply prog_noact| |].
      + eapply reach_trans; [apply prog_final|]. apply lock_reach; auto. eapply lock_coll with (c := CWork 0) (v := fun _ => 0) (k := fun _ _ => Ret (Ok tt)); [|apply lock_end; auto].
        intros r L. unfold final. rewrite (complete_all A r L). replace (fits r) with true; auto. symmetry. apply fits_enough; auto.
      + apply stuck_family; simpl; auto. intros; discriminate.
  Qed.
  Theorem check_raises : forall s, (forall q, q < n -> avail q <> None /\ ~ enough q) -> all_return (s, family n prog) n (fun _ x => x = Err OtherException).
  Proof.
    intros s H. eapply always_weaken; [|apply (final_end s 0 n_pos)].
    - intros t ->. simpl. split; [apply family_length|]. intros r L. exists (Err OtherException). split; auto. unfold returned. simpl. rewrite family_nth. destruct (Nat.ltb_spec r n); [|lia].
      unfold final. rewrite complete_all; auto; [|intros q Lq; apply H; auto]. destruct (H r L) as [A N]. destruct (fits r) eqn:F; auto. apply fits_enough in F; auto. contradiction.
    - intros v k. unfold final. rewrite complete_all; auto; [|intros q Lq; apply H; auto]. destruct (H 0 n_pos) as [A N]. destruct (fits 0) eqn:F; [apply fits_enough in F; auto; contradiction|]. unfold K. discriminate.
  Qed.
  Theorem check_mixed : forall s p q, (forall r, r < n -> avail r <> None) -> p < n -> q < n -> enough p -> ~ enough q ->
    always (s, family n prog) (fun t => forall r, r < n -> (enough r -> waits t r) /\ (~ enough r -> returned t r (Err OtherException))).
  Proof.
    intros s p q A Lp Lq Ep Nq. eapply always_weaken; [|apply (final_end s q Lq)].
    - intros t ->. intros r L. unfold waits, returned. simpl. rewrite family_nth. destruct (Nat.ltb_spec r n); [|lia]. unfold final. rewrite complete_all by auto. split; intros E.
      + apply fits_enough in E; auto. rewrite E. do 4 eexists. reflexivity.
      + destruct (fits r) eqn:F; auto. apply fits_enough in F; auto. contradiction.
    - intros v k. unfold final. rewrite complete_all by auto. destruct (fits q) eqn:F; [apply fits_enough in F; auto; contradiction|]. unfold K. discriminate.
  Qed.
  Theorem check_oserror : forall s p q, p < n -> In q (node p) -> avail p = None -> avail q <> None ->
    always (s, family n prog) (fun t => waits t p /\ waits t q).
  Proof.
    intros s p q Lp Iq Ep Nq. destruct (nodes p Lp) as [Ip Hp]. destruct (Hp q Iq) as [Lq Eq].
    assert (C : complete p = false).
    { unfold complete. destruct (forallb _ _) eqn:F; auto. rewrite forallb_forall in F. specialize (F p Ip). rewrite Ep in F. discriminate. }
    assert (Cq : complete q = false) by (unfold complete; rewrite Eq; exact C).
    destruct (avail q) as [a|] eqn:Ea; [|congruence].
    eapply always_weaken; [|apply (final_end s q Lq)].
    - intros t ->. unfold waits. simpl. rewrite !family_nth. destruct (Nat.ltb_spec p n); [|lia]. destruct (Nat.ltb_spec q n); [|lia].
      unfold final. rewrite C, Cq. unfold start. rewrite Ep, Ea. split; do 4 eexists; reflexivity.
    - intros v k. unfold final. rewrite Cq. unfold start. rewrite Ea. discriminate.
  Qed.
End Check.

(** * [parallel_map] *)
Lemma rsequence_nth : forall A (f : nat -> res A) n l, rsequence (map f (seq 0 n)) = Ok l -> forall r, r < n -> exists x, nth_error l r = Some x /\ f r = Ok x.
Proof.
  intros A f n l. assert (G : forall m l, rsequence (map f (seq m n)) = Ok l -> forall r, r < n -> exists x, nth_error l r = Some x /\ f (m + r) = Ok x).
  { induction n; intros m l' E r L; [lia|]. simpl in E. destruct (f m) as [x|] eqn:Em; [|discriminate]. 
    destruct (rsequence (map f (seq (S m) n))) as [t|] eqn:Et; [|discriminate]. injection E as <-. destruct r; simpl.
    - rewrite Nat.add_0_r. eauto.
    - destruct (IHn _ _ Et r) as [y [? ?]]; [lia|]. exists y. split; auto. now replace (m + S r) with (S m + r) by lia. }
  intros E r L. destruct (G 0 l E r L) as [x H]. eauto.
Qed.
Lemma rmap_ok : forall A B (f : A -> res B) g l, (forall x, In x l -> f x = Ok (g x)) -> rmap f l = Ok (map g l).
Proof. induction l; simpl; intros H; auto. rewrite H by auto. simpl. rewrite IHl by auto. auto. Qed.
Lemma rmap_err : forall A B (f : A -> res B) l, (exists e, rmap f l = Err e) <-> exists x e, In x l /\ f x = Err e.
Proof.
  induction l as [|a l IH]; simpl.
  - split; [intros [e X]; discriminate|intros [x [e [[] _]]]].
  - destruct (f a) as [y|e] eqn:E; simpl.
    + destruct (rmap f l) as [u|e]; simpl.
      * split; [intros [e X]; discriminate|]. intros [x [e [[->|I] F]]]; [congruence|]. destruct (proj2 IH) as [e' X]; eauto. discriminate.
      * split; [|eauto]. intros [e' X]. destruct (proj1 IH) as [x [e'' [I F]]]; eauto 6.
    + split; [|eauto]. intros [e' X]. exists a, e. auto.
Qed.
Section Pmap.
  Context {S A B : Type} (f : A -> res B) (l : list A) (root : option nat) (m : method) (perms : nat -> list nat) (n : nat).
  Hypothesis n_pos : 0 < n.
  Hypothesis con_or_alt : m = Con \/ m = Alt.
  Notation P := (fun r => pmap (S := S) f l root m (perms r) n r).
  Lemma items : exists ps, Permutation (concat ps) (enumerate l) /\ length ps = n /\ forall r, r < n -> partition_list_mpi (perms r) (enumerate l) m r n = Ok (nth r ps []).
  Proof.
    assert (exists ps, rsequence (map (fun r => partition_list_mpi (perms r) (enumerate l) m r n) (seq 0 n)) = Ok ps /\ Permutation (concat ps) (enumerate l)) as [ps [E Q]].
    { destruct con_or_alt as [-> | ->].
      - destruct (con_pieces_perm _ [] (enumerate l) n ltac:(lia)) as [ps [E Q]]. exists ps. auto.
      - destruct (alt_pieces_perm _ [] (enumerate l) n ltac:(lia)) as [ps [E Q]]. exists ps. auto. }
    exists ps. split; auto. split.
    - clear -E. revert ps E. generalize (fun r => partition_list_mpi (perms r) (enumerate l) m r n). intros h.
      assert (G : forall k ps, rsequence (map h (seq k n)) = Ok ps -> length ps = n).
      { induction n; intros k ps E; simpl in E; [injection E as <-; auto|]. destruct (h k); [|discriminate].
        destruct (rsequence (map h (seq (Datatypes.S k) n0))) eqn:Et; [|discriminate]. injection E as <-. simpl. f_equal. eauto. }
      eauto.
    - intros r L. destruct (rsequence_nth _ _ _ _ E r L) as [x [X1 X2]]. rewrite X2. f_equal. symmetry. apply nth_error_nth; auto.
  Qed.
  Lemma pmap_noact : forall r, noact (P r).
  Proof.
    intros r. unfold pmap, barrier. rewrite world_length.
    assert (X : noact (S := S) (if n <=? 1 then Ret (rbind (rmap f l) (fun l0 => Ok (Some l0))) else
      match partition_list_mpi (perms r) (enumerate l) m r n with
      | Ok llist => match rmap (fun p => rbind (f (snd p)) (fun y => Ok (fst p, y))) llist with
        | Ok flist => if 1 <? n then Coll (world n) CBarrier [] (fun _ => match root with
             | Some rt => Coll (world n) (CGather rt) flist (fun l0 => if r =? rt then Ret (Ok (Some (map snd (py_sorted (fun a b => fst a <=? fst b) (concat l0))))) else Ret (Ok None))
             | None => Coll (world n) CAllgather flist (fun rlist => Ret (Ok (Some (map snd (py_sorted (fun a b => fst a <=? fst b) (concat rlist)))))) end)
             else match root with
             | Some rt => Coll (world n) (CGather rt) flist (fun l0 => if r =? rt then Ret (Ok (Some (map snd (py_sorted (fun a b => fst a <=? fst b) (concat l0))))) else Ret (Ok None))
             | None => Coll (world n) CAllgather flist (fun rlist => Ret (Ok (Some (map snd (py_sorted (fun a b => fst a <=? fst b) (concat rlist)))))) end
        | Err e => Ret (Err e) end
      | Err e => Ret (Err e) end)).
    { destruct (n <=? 1); simpl; auto. destruct (partition_list_mpi (perms r) (enumerate l) m r n); simpl; auto. destruct (rmap _ a); simpl; auto.
      destruct (1 <? n), root; simpl; auto; intros; destruct (r =? n0); simpl; auto. }
    destruct (1 <? n) eqn:E1; [simpl; intros _|]; exact X.
  Qed.
  Theorem pmap_fine : forall (g : A -> B) s, (forall x, In x l -> f x = Ok (g x)) ->
    all_return (s, family n P) n (fun r x => x = Ok (match root with Some rt => if (n =? 1) || (r =? rt) then Some (map g l) else None | None => Some (map g l) end)).
  Proof.
    intros g s F. eapply lock_returns; [exact n_pos|intros; apply pmap_noact| |intros r L; reflexivity].
    unfold pmap. apply lock_barrier. destruct (Nat.leb_spec n 1) as [L1|L1].
    - apply lock_end. intros r L. rewrite (rmap_ok _ _ f g) by auto. simpl. replace (n =? 1) with true by (symmetry; apply Nat.eqb_eq; lia). destruct root; auto.
    - replace (n =? 1) with false by (symmetry; apply Nat.eqb_neq; lia). simpl.
      destruct items as [ps [Q [Lp E]]].
      set (fl := fun r => map (fun p : nat * A => (fst p, g (snd p))) (nth r ps [])).
      assert (Ef : forall r, r < n -> rmap (fun p => rbind (f (snd p)) (fun y => Ok (fst p, y))) (nth r ps []) = Ok (fl r)).
      { intros r L. apply rmap_ok. intros p I. rewrite F; auto. assert (In p (enumerate l)).
        { eapply Permutation_in; [exact Q|]. apply in_concat. exists (nth r ps []). split; auto. apply nth_In. lia. }
        destruct p as [i x]. apply in_combine_r in H. exact H. }
      assert (Efl : map fl (seq 0 n) = map (map (fun p : nat * A => (fst p, g (snd p)))) ps).
      { rewrite <- Lp. unfold fl. rewrite <- (map_map (fun r => nth r ps []) (map (fun p : nat * A => (fst p, g (snd p))))). f_equal.
        clear. assert (G : forall a b : list (list (nat * A)), map (fun r => nth r (a ++ b) []) (seq (length a) (length b)) = b).
        { intros a b. revert a. induction b as [|y b IH]; intros a; simpl; auto. f_equal; [now rewrite app_nth2, Nat.sub_diag by lia|].
          specialize (IH (a ++ [y])). rewrite app_length, <- app_assoc in IH. simpl in IH. rewrite Nat.add_1_r in IH. exact IH. }
        apply (G [] ps). }
      assert (Es : map snd (py_sorted (fun a b : nat * B => fst a <=? fst b) (concat (map fl (seq 0 n)))) = map g l).
      { rewrite Efl, <- concat_map, (sort_enumerated B (map g l)); [apply map_snd_enumerate|]. rewrite <- enumerate_map. now apply Permutation_map. }
      eapply lock_coll with (c := CBarrier) (v := fun _ => []) (k := fun r _ => match root with
          | None => Coll (world n) CAllgather (fl r) (fun rlist => Ret (Ok (Some (map snd (py_sorted (fun a b => fst a <=? fst b) (concat rlist))))))
          | Some rt => Coll (world n) (CGather rt) (fl r) (fun rlist => if r =? rt then Ret (Ok (Some (map snd (py_sorted (fun a b => fst a <=? fst b) (concat rlist))))) else Ret (Ok None)) end).
      + intros r L. rewrite E by auto. rewrite Ef by auto. unfold barrier. rewrite world_length. destruct (Nat.ltb_spec 1 n); [|lia]. auto.
      + destruct root as [rt|].
        * eapply lock_coll with (c := CGather rt) (v := fl); [intros r L; reflexivity|]. apply lock_end. intros r L. cbv beta. rewrite Es. destruct (r =? rt); auto.
        * eapply lock_coll with (c := CAllgather) (v := fl); [intros r L; reflexivity|]. apply lock_end. intros r L. cbv beta. rewrite Es. auto.
  Qed.
  (** Rank [r] has an item for which [f] raises. *)
  Definition fails (r : nat) : Prop := exists it i x e, partition_list_mpi (perms r) (enumerate l) m r n = Ok it /\ In (i, x) it /\ f x = Err e.
  Theorem pmap_raises : forall s q, 1 < n -> q < n -> fails q ->
    always (s, family n P) (fun t => forall r, r < n -> (fails r -> exists e, returned t r (Err e)) /\ (~ fails r -> waits t r)).
  Proof.
    intros s q L1 Lq Fq. destruct items as [ps [Q [Lp E]]].
    set (after := fun r : nat => match rmap (fun p => rbind (f (snd p)) (fun y => Ok (fst p, y))) (nth r ps []) with
      | Err e => Ret (Err e)
      | Ok flist => Coll (S := S) (world n) CBarrier [] (fun _ => match root with
             | Some rt => Coll (world n) (CGather rt) flist (fun l0 => if r =? rt then Ret (Ok (Some (map snd (py_sorted (fun a b => fst a <=? fst b) (concat l0))))) else Ret (Ok None))
             | None => Coll (world n) CAllgather flist (fun rlist => Ret (Ok (Some (map snd (py_sorted (fun a b => fst a <=? fst b) (concat rlist)))))) end)
      end).
    assert (Fi : forall r, r < n -> fails r <-> exists e, rmap (fun p => rbind (f (snd p)) (fun y => Ok (fst p, y))) (nth r ps []) = Err e).
    { intros r L. rewrite rmap_err. unfold fails. rewrite E by auto. split.
      - intros [it [i [x [e [X [I F]]]]]]. injection X as <-. exists (i, x), e. split; auto. simpl. rewrite F. auto.
      - intros [[i x] [e [I F]]]. simpl in F. exists (nth r ps []), i, x. destruct (f x) as [y|e'] eqn:Fx; [discriminate|]. exists e'. auto. }
    assert (An : forall r, noact (after r)).
    { intros r. unfold after. destruct (rmap _ _); simpl; auto. intros _. destruct root; simpl; auto. intros. destruct (r =? n0); simpl; auto. }
    eapply always_weaken; [|apply (lock_always n s P after n_pos)].
    - intros t ->. intros r L. unfold waits, returned. simpl. rewrite family_nth. destruct (Nat.ltb_spec r n); [|lia]. rewrite (Fi r L). unfold after.
      destruct (rmap _ (nth r ps [])) as [fl|e].
      + split; [intros [e X]; discriminate|]. intros _. do 4 eexists. reflexivity.
      + split; [eauto|]. intros N. destruct N. eauto.
    - intros; apply pmap_noact.
    - unfold pmap. apply lock_barrier. apply lock_end. intros r L. destruct (Nat.leb_spec n 1); [lia|]. rewrite E by auto. unfold after, barrier. rewrite world_length.
      destruct (Nat.ltb_spec 1 n); [|lia]. destruct (rmap _ (nth r ps [])); auto.
    - apply stuck_family; auto. intros r g c v k Lr Er. unfold after in Er. destruct (rmap _ (nth r ps [])); inversion Er; subst. exists q. split; [apply world_in; auto|]. right. intros v' k'.
      apply Fi in Fq; auto. destruct Fq as [e Eq]. unfold after. rewrite Eq. discriminate.
  Qed.
  Theorem pmap_over : forall s q, 1 < n -> q < n -> fails q -> always (s, family n P) over.
  Proof. intros s q L1 Lq Fq. eapply always_weaken; [|apply (pmap_raises s q); auto]. intros t H. right. destruct (proj1 (H q Lq) Fq) as [e X]. eauto. Qed.
End Pmap.

(** * NaN *)
Section Nan.
  Context {S : Type} (n : nat) (nan_check nan_dump nan_skip : bool) (d : nat -> list (option bool)).
  Hypothesis n_pos : 0 < n.
  Lemma walk_spec : forall l, walk l = true <-> In (Some false) l.
  Proof. induction l as [|[[]|] l IH]; simpl; split; intros H; auto; try discriminate; try tauto; destruct H as [H|H]; try discriminate; tauto. Qed.
  Theorem nan_all : forall s, all_return (s, family n (fun r => nan_process_output (S := S) n nan_check nan_dump nan_skip (d r))) n
    (fun _ x => x = false <-> nan_check = true /\ nan_skip = true /\ exists q, q < n /\ In (Some false) (d q)).
  Proof.
    intros s. set (found := negb (max (map (fun r => of_bool (walk (d r))) (seq 0 n)) =? 0)).
    assert (Ff : found = true <-> exists q, q < n /\ In (Some false) (d q)).
    { unfold found. rewrite negb_true_iff, Nat.eqb_neq, max_zero. split.
      - intros N. destruct (forallb (fun q => negb (walk (d q))) (seq 0 n)) eqn:F.
        + destruct N. intros x I. apply in_map_iff in I. destruct I as [q [<- I]]. rewrite forallb_forall in F. apply F in I. apply negb_true_iff in I. rewrite I. auto.
        + destruct (forallb_false _ _ _ F) as [q [I H]]. apply in_seq in I. apply negb_false_iff in H. exists q. split; [lia|apply walk_spec; auto].
      - intros [q [L I]] N. assert (of_bool (walk (d q)) = 0). { apply N. apply in_map_iff. exists q. split; auto. apply in_seq. lia. }
        apply walk_spec in I. rewrite I in H. discriminate. }
    eapply lock_returns with (out := fun _ => negb (nan_check && nan_skip && found)); auto.
    - intros r L. unfold nan_process_output, nan_check_walk. destruct nan_check; simpl; auto. intros l. destruct (negb (max l =? 0)), nan_dump, nan_skip; simpl; auto.
    - unfold nan_process_output, nan_check_walk. destruct nan_check; [|apply lock_end; auto].
      eapply lock_coll with (c := CAllreduce) (v := fun r => of_bool (walk (d r))); [intros; reflexivity|]. cbv beta. fold found. simpl.
      destruct found; simpl; [|rewrite andb_false_r; apply lock_end; auto]. rewrite andb_true_r.
      destruct nan_dump.
      + eapply lock_coll with (c := CWork 1) (v := fun _ => 0) (k := fun _ _ => if nan_skip then Ret false else Ret true); [intros; reflexivity|]. apply lock_end. intros. destruct nan_skip; auto.
      + apply lock_end. intros. destruct nan_skip; auto.
    - intros r L. rewrite <- Ff. destruct nan_check, nan_skip, found; simpl; intuition congruence.
  Qed.
End Nan.
