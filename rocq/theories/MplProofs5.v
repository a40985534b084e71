From Coq Require Import List Arith Bool Lia ZArith.
From Verif Require Import PyBase PyStr PipeModel ColModel ColSpec ColProofs ColProofs2 MplModel MplSpec MplProofs MplProofs2 MplProofs3 MplProofs4.
Import ListNotations.
Open Scope nat_scope.

Section Alike.
  Context {V S : Type}.
  Lemma alike_refl : forall v : pv V, alike v v.
  Proof.
    fix IH 1. intros [|v|l|l]; constructor.
    - induction l as [|a l IHl]; constructor; [apply IH|exact IHl].
    - induction l as [|a l IHl]; constructor; [apply IH|exact IHl].
  Qed.
  Lemma alike_outc_refl : forall o : outc V, alike_outc o o.
  Proof. intros [o| |e]; constructor. apply alike_refl. Qed.
  Lemma repeat_alike : forall (v : pv V) k, Forall2 alike (repeat v k) (repeat v k).
  Proof. induction k; simpl; constructor; auto. apply alike_refl. Qed.
  Lemma repeat_nil_alike : forall k, Forall2 (Forall2 (@alike V)) (repeat [] k) (repeat [] k).
  Proof. induction k; simpl; constructor; auto. Qed.
  Lemma start_alike : forall c d : list (tconf V S * S), Forall2 same_config c d -> alike_manager (start c) (start d).
  Proof.
    intros c d H. unfold alike_manager, start. cbn [tasks head idx]. split; [|split; reflexivity].
    induction H as [|x y c d [E1 [E2 [E3 [E4 E5]]]] H IH]; cbn [map]; constructor; auto.
    unfold alike_opt, alike_task, init_task. cbn [t_conf t_state t_num t_requires t_in]. rewrite E1, E2. repeat split; auto; [apply repeat_alike|apply repeat_nil_alike].
  Qed.
  Lemma start_at : forall (c : list (tconf V S * S)) i, task_at (tasks (start c)) i = option_map init_task (nth_error c i).
  Proof. intros. unfold task_at, start. cbn [tasks]. rewrite nth_error_map. destruct (nth_error c i); reflexivity. Qed.
End Alike.

Section Theorems.
  Context {W V S : Type}.
  Variable n : nat.
  Variable cfg : nat -> list (tconf V S * S).
  Variable km : str -> bool.
  Variable Inv : nat -> (nat -> S) -> Prop.
  Hypothesis pos : 0 < n.
  Hypothesis same : among n (Forall2 same_config) cfg.
  Hypothesis begins : forall i u, (forall r, r < n -> exists c, nth_error (cfg r) i = Some (c, u r)) -> Inv i u.

  Lemma start_together : together_alike n Inv (fun r => start (cfg r)).
  Proof.
    split.
    - intros r q L L'. apply start_alike. now apply same.
    - intros i u H. apply begins. intros r L. specialize (H r L). unfold users_of in H. rewrite start_at in H. destruct (nth_error (cfg r) i) as [[c s]|]; [|discriminate]. simpl in H. injection H as <-. eauto.
  Qed.
  Theorem pipeline_all : forall (b : nat -> nat -> methods W V S) k, (forall i, keeps_step n (Inv i) (fun r => b r i)) ->
    exists out, all_return (tt, map (fun r => run_on n (b r) km k (start (cfg r))) (seq 0 n)) n (fun r x => x = out r)
      /\ among n (Forall2 alike_event) (fun r => fst (out r)) /\ among n alike_result (fun r => snd (out r)).
  Proof.
    intros b k K. destruct (run_comes n b km Inv pos K k (fun r => start (cfg r)) start_together) as [out [C [G1 [G2 _]]]].
    exists out. split; [|split; auto]. exact (comes_return _ n tt _ out C).
  Qed.
  Theorem pipeline_alone : forall (bh : nat -> nat -> beh V S) k, (forall i, keeps_step n (Inv i) (fun r => @quietly W V S (bh r i))) ->
    (forall r i c s, nth_error (cfg r) i = Some (c, s) -> c_beh c = bh r i) ->
    all_return (tt, map (fun r => run_on n (fun i => @quietly W V S (bh r i)) km k (start (cfg r))) (seq 0 n)) n (fun r x =>
      fst x = fst (PipeModel.run km k (start (cfg r))) /\ same_end (snd x) (snd (PipeModel.run km k (start (cfg r))))).
  Proof.
    intros bh k K B. pose proof (pure_run n bh km Inv pos K k (fun r => start (cfg r)) start_together) as C. pose proof (comes_return _ n tt _ _ C) as A.
    unfold all_return in *. eapply always_weaken; [|exact A]. intros t [H1 H2]. split; auto. intros r L. destruct (H2 r L) as [x [R ->]]. eexists. split; [exact R|].
    assert (D : exists d, forall i, d = bh 0 i \/ True) by (exists (bh 0 0); auto). destruct D as [d _].
    destruct (seq_run_alone d (bh r) km k (start (cfg r)) (start (cfg r)) eq_refl) as [E1 E2].
    { intros i t' T. rewrite start_at in T. destruct (nth_error (cfg r) i) as [[c s]|] eqn:Nc; [|discriminate]. injection T as <-. simpl. eapply B; eauto. }
    split; auto. destruct (snd (seq_run (bh r) km k (start (cfg r)))), (snd (PipeModel.run km k (start (cfg r)))); simpl in *; auto.
  Qed.
End Theorems.

(** One rank. *)
Lemma one_keeps : forall W V S (bh : beh V S), keeps_step 1 (fun _ => True) (fun _ => @quietly W V S bh).
Proof.
  intros W V S bh.
  assert (G : forall (x : nat -> S * outc V), together (W := W) 1 (fun _ => True) (fun r => Ret (x r))).
  { intros x. exists x. split; [|split; auto].
    - exact (comes_return _ 1 tt _ x (comes_ret _ 1 tt x)).
    - intros r q L L'. replace r with 0 by lia. replace q with 0 by lia. apply alike_outc_refl. }
  constructor; auto.
  - intros. simpl. auto.
  - intros u a _ _. apply (G (fun r => b_setup bh (u r) (a r))).
  - intros u a _ _. apply (G (fun r => b_next bh (u r) (a r))).
  - intros u _. apply (G (fun r => b_finish bh (u r))).
Qed.

(** * Running two ranks *)
Section Two.
  Context {W R : Type}.
  Notation prog := (proc unit (msg W) R).
  Definition both (g : list nat) : bool := match g with [0; 1] => true | _ => false end.
  Lemma both_true : forall g, both g = true -> g = [0; 1].
  Proof. intros [|[|x] [|[|[|y]] [|z t]]]; simpl; intros; try discriminate; reflexivity. Qed.
  Definition call_eqb (c d : call) : bool :=
    match c, d with
    | CBarrier, CBarrier | CAllreduce, CAllreduce | CAllgather, CAllgather | CSplit, CSplit => true
    | CBcast i, CBcast j | CGather i, CGather j | CWork i, CWork j => i =? j
    | _, _ => false
    end.
  Lemma call_eqb_spec : forall c d, call_eqb c d = true <-> c = d.
  Proof. intros [] []; simpl; try rewrite Nat.eqb_eq; split; intros; congruence. Qed.
  Definition meets (p q : prog) : option (prog * prog) :=
    match p, q with
    | Coll g c v k, Coll g' c' v' k' => if both g && both g' && call_eqb c c' then Some (k [v; v'], k' [v; v']) else None
    | _, _ => None
    end.
  Fixpoint two (f : nat) (p q : prog) : prog * prog :=
    match f with O => (p, q) | S f => match meets p q with Some (p', q') => two f p' q' | None => (p, q) end end.
  Lemma meets_step : forall p q p' q', meets p q = Some (p', q') -> step (tt, [p; q]) (tt, [p'; q']).
  Proof.
    intros p q p' q' H. unfold meets in H. destruct p as [|g c v k|], q as [|g' c' v' k'|]; try discriminate.
    destruct (both g) eqn:G; [|discriminate]. destruct (both g') eqn:G'; [|discriminate]. apply both_true in G, G'. subst. destruct (call_eqb c c') eqn:Ec; [|discriminate]. apply call_eqb_spec in Ec. subst c'. injection H as <- <-.
    apply (step_coll tt [Coll [0; 1] c v k; Coll [0; 1] c v' k'] [0; 1] c); [discriminate|]. intros r [<-|[<-|[]]]; simpl; eauto.
  Qed.
  Lemma two_reach : forall f p q, reach (tt, [p; q]) (tt, [fst (two f p q); snd (two f p q)]).
  Proof.
    induction f as [|f IH]; intros p q; simpl; [apply reach_refl|]. destruct (meets p q) as [[p' q']|] eqn:E; [|apply reach_refl].
    eapply reach_step; [apply meets_step; eauto|apply IH].
  Qed.
  (** Waiting in different calls of both, or returned. *)
  Definition apart (p q : prog) : bool :=
    match p, q with
    | Coll g c _ _, Coll g' c' _ _ => both g && both g' && negb (call_eqb c c')
    | _, _ => false
    end.
  Lemma apart_stuck : forall p q, apart p q = true -> stuck (tt, [p; q]) /\ waits (tt, [p; q]) 0 /\ waits (tt, [p; q]) 1.
  Proof.
    intros p q H. destruct p as [|g c v k|], q as [|g' c' v' k'|]; try discriminate. simpl in H. destruct (both g) eqn:G; [|discriminate]. destruct (both g') eqn:G'; [|discriminate].
    apply both_true in G, G'. subst. destruct (call_eqb c c') eqn:Ec; [discriminate|]. assert (N : c <> c') by (intros <-; rewrite (proj2 (call_eqb_spec c c) eq_refl) in Ec; discriminate). split; [|split; unfold waits; simpl; eauto].
    intros t St. inversion St as [s0 ps h d Hn Hm|s0 s1 ps r a q k0 Hn Ha]; subst.
    - destruct h as [|r h]; [congruence|]. destruct (Hm r (or_introl eq_refl)) as [w [l E]].
      destruct r as [|[|r]]; simpl in E; [| |destruct r; discriminate].
      + assert (Eh : h = [1]) by congruence. assert (Ed : d = c) by congruence. subst h d. destruct (Hm 1 (or_intror (or_introl eq_refl))) as [w' [l' E']]. simpl in E'. congruence.
      + congruence.
    - destruct r as [|[|r]]; simpl in Hn; try discriminate. destruct r; discriminate.
  Qed.
End Two.
