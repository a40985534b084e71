From Coq Require Import List Bool Arith Lia.
From Verif Require Import PyBase DskModel.
Import ListNotations.
Open Scope list_scope.
Open Scope nat_scope.

Lemma in_set_nth : forall i p ps q, In q (set_nth i p ps) -> q = p \/ In q ps.
Proof.
  induction i as [|i IH]; intros p [|x ps] q H; simpl in H; try contradiction.
  - destruct H as [H|H]; [left; congruence|right; right; exact H].
  - destruct H as [H|H]; [right; left; exact H|]. destruct (IH _ _ _ H) as [->|H']; [left; reflexivity|right; right; exact H'].
Qed.
Lemma set_nth_in : forall i p ps q, nth_error ps i = Some q -> In p (set_nth i p ps).
Proof.
  induction i as [|i IH]; intros p [|x ps] q H; simpl in *; try discriminate; [left; reflexivity|right; eapply IH; exact H].
Qed.
Lemma set_nth_keeps : forall i p ps q r, nth_error ps i = Some q -> In r ps -> r <> q -> In r (set_nth i p ps).
Proof.
  induction i as [|i IH]; intros p [|x ps] q r H I N; simpl in *; try discriminate.
  - inversion H; subst. destruct I as [->|I]; [contradiction|right; exact I].
  - destruct I as [->|I]; [left; reflexivity|right; eapply IH; eassumption].
Qed.
Lemma length_set_nth : forall i p ps, length (set_nth i p ps) = length ps.
Proof. induction i as [|i IH]; intros p [|x ps]; simpl; auto. Qed.

(** What holds while processes remove what was [e0] *)
Definition leads (l : list name) (p : proc) : Prop := p = Start \/ p = ToList \/ p = Unlinking l.
Definition inv (s : entry * list proc) : Prop :=
  let '(e, ps) := s in
  match e with
  | Missing => forall p, In p ps -> p <> Failed
  | File => forall p, In p ps -> p = Start \/ p = ToRemove
  | Dir l => NoDup l /\
             (forall p, In p ps -> p = Start \/ p = ToList \/ p = Ended \/
                                   exists pre, p = Unlinking (pre ++ l) /\ forall x, In x pre -> ~ In x l) /\
             exists p, In p ps /\ leads l p
  end.

Lemma has_in : forall x l, has x l = true <-> In x l.
Proof.
  intros x l. unfold has. rewrite existsb_exists. split.
  - intros [y [I E]]. apply Nat.eqb_eq in E. subst. exact I.
  - intros I. exists x. split; [exact I|apply Nat.eqb_refl].
Qed.
Lemma drop_head : forall x r, ~ In x r -> drop x (x :: r) = r.
Proof.
  intros x r N. unfold drop. simpl. rewrite Nat.eqb_refl. simpl.
  induction r as [|y r IH]; [reflexivity|]. simpl. destruct (Nat.eqb_spec x y); [subst; exfalso; apply N; left; reflexivity|].
  simpl. f_equal. apply IH. intros I. apply N. right. exact I.
Qed.

Lemma inv_step : forall e ps i p e' p', inv (e, ps) -> nth_error ps i = Some p -> rm_step e p = (e', p') ->
  inv (e', set_nth i p' ps).
Proof.
  intros e ps i p e' p' I H S. pose proof (nth_error_In _ _ H) as IN.
  destruct e as [| |l].
  - (* Missing *)
    simpl in I. assert (e' = Missing /\ p' <> Failed) as [-> P].
    { destruct p as [| | |[|x r]| |]; simpl in S; inversion S; subst; split; try reflexivity; try discriminate.
      exfalso. apply (I Failed IN). reflexivity. }
    simpl. intros q Q. apply in_set_nth in Q. destruct Q as [->|Q]; [exact P|apply I; exact Q].
  - (* File *)
    simpl in I. destruct (I p IN) as [->| ->]; simpl in S; inversion S; subst; simpl; intros q Q;
      apply in_set_nth in Q; destruct Q as [->|Q]; auto; try discriminate.
    destruct (I q Q) as [->| ->]; discriminate.
  - (* Dir *)
    destruct I as [ND [F [p0 [I0 L0]]]].
    destruct (F p IN) as [->|[->|[->|[pre [-> NP]]]]].
    + (* Start *)
      simpl in S. inversion S; subst. simpl. split; [exact ND|]. split.
      * intros q Q. apply in_set_nth in Q. destruct Q as [->|Q]; [right; left; reflexivity|apply F; exact Q].
      * exists ToList. split; [eapply set_nth_in; exact H|right; left; reflexivity].
    + (* ToList *)
      simpl in S. inversion S; subst. simpl. split; [exact ND|]. split.
      * intros q Q. apply in_set_nth in Q. destruct Q as [->|Q]; [|apply F; exact Q].
        right. right. right. exists []. split; [reflexivity|intros x []].
      * exists (Unlinking l). split; [eapply set_nth_in; exact H|right; right; reflexivity].
    + (* Ended *)
      simpl in S. inversion S; subst. simpl. split; [exact ND|]. split.
      * intros q Q. apply in_set_nth in Q. destruct Q as [->|Q]; [auto|apply F; exact Q].
      * exists p0. split; [|exact L0]. eapply set_nth_keeps; [exact H|exact I0|].
        intros ->. destruct L0 as [L0|[L0|L0]]; discriminate.
    + destruct pre as [|x pre].
      * (* the leading process *)
        simpl in *. destruct l as [|x r].
        -- inversion S; subst. simpl. intros q Q. apply in_set_nth in Q. destruct Q as [->|Q]; [discriminate|].
           destruct (F q Q) as [->|[->|[->|[pre [-> _]]]]]; discriminate.
        -- assert (HX : has x (x :: r) = true) by (apply has_in; left; reflexivity).
           rewrite HX in S. inversion ND as [|? ? NX ND']; subst. rewrite drop_head in S by exact NX.
           inversion S; subst. simpl. split; [exact ND'|]. split.
           ++ intros q Q. apply in_set_nth in Q. destruct Q as [->|Q].
              ** right. right. right. exists []. split; [reflexivity|intros y []].
              ** destruct (F q Q) as [->|[->|[->|[pre [-> NP']]]]]; auto.
                 right. right. right. exists (pre ++ [x]). split; [rewrite <- app_assoc; reflexivity|].
                 intros y Y. apply in_app_or in Y. destruct Y as [Y|[<-|[]]]; [|exact NX].
                 intros Z. apply (NP' y Y). right. exact Z.
           ++ exists (Unlinking r). split; [eapply set_nth_in; exact H|right; right; reflexivity].
      * (* one that is behind *)
        simpl in S. assert (HX : has x l = false).
        { destruct (has x l) eqn:E; [|reflexivity]. apply has_in in E. exfalso. apply (NP x); [left; reflexivity|exact E]. }
        rewrite HX in S. inversion S; subst. simpl. split; [exact ND|]. split.
        -- intros q Q. apply in_set_nth in Q. destruct Q as [->|Q]; [auto|apply F; exact Q].
        -- exists p0. split; [|exact L0]. eapply set_nth_keeps; [exact H|exact I0|].
           intros ->. destruct L0 as [L0|[L0|L0]]; try discriminate. inversion L0 as [E].
           apply (f_equal (@length name)) in E. simpl in E. rewrite app_length in E. lia.
Qed.
Lemma inv_steps : forall k s s', rm_steps k s s' -> inv s -> inv s'.
Proof.
  intros k s s' H. induction H as [s|k e ps i p e' p' s N _ _ S _ IH]; intros I; [exact I|].
  apply IH. eapply inv_step; eassumption.
Qed.

(** Every step brings its process closer to its end. *)
Definition todo (n : nat) (p : proc) : nat :=
  match p with Start => n + 4 | ToRemove => 1 | ToList => n + 3 | Unlinking l => length l + 1 | Ended | Failed => 0 end.
Definition todos (n : nat) (ps : list proc) : nat := list_sum (map (todo n) ps).
Definition small (n : nat) (e : entry) : Prop := match e with Dir l => length l <= n | _ => True end.
Lemma rm_step_todo : forall n e p e' p', small n e -> p <> Ended -> p <> Failed -> rm_step e p = (e', p') ->
  small n e' /\ todo n p' < todo n p.
Proof.
  intros n e p e' p' Sm E F H. assert (D : forall x l, length (drop x l) <= length l).
  { intros x l. unfold drop. induction l as [|y l IH]; simpl; [lia|]. destruct (negb (x =? y)); simpl; lia. }
  destruct p as [| | |[|x r]| |], e as [| |l]; simpl in *; try contradiction; inversion H; subst; simpl; split; auto; try lia.
  - destruct l; inversion H; subst; simpl in *; auto.
  - destruct l; inversion H; subst; simpl; lia.
  - destruct (has x l); inversion H; subst; simpl; auto. pose proof (D x l). lia.
  - destruct (has x l); inversion H; subst; simpl; lia.
Qed.
Lemma todos_set : forall n ps i p p', nth_error ps i = Some p -> todo n p' < todo n p ->
  todos n (set_nth i p' ps) < todos n ps.
Proof.
  intros n ps. unfold todos. induction ps as [|q ps IH]; intros i p p' H L; [destruct i; discriminate|].
  destruct i as [|i]; simpl in *; [inversion H; subst; lia|]. specialize (IH _ _ _ H L). lia.
Qed.
Lemma rm_bound : forall n k s s', rm_steps k s s' -> small n (fst s) -> k <= todos n (snd s).
Proof.
  intros n k s s' H. induction H as [s|k e ps i p e' p' s N E F S _ IH]; intros Sm; [lia|].
  simpl in *. destruct (rm_step_todo n _ _ _ _ Sm E F S) as [Sm' L].
  specialize (IH Sm'). pose proof (todos_set n _ _ _ _ N L). lia.
Qed.
