(** Lemmas for the sizes of objects. *)
From Coq Require Import String.
From Coq Require Import List Ascii Bool Arith Lia.
From Verif Require Import PyBase PyStr MemModel MemProofs2 ObjModel ObjSpec ObjProofs.
Import ListNotations.
Open Scope list_scope.
Open Scope nat_scope.

Fixpoint sum_list (g : list nat -> nat -> option (list nat * res nat)) (seen l : list nat) : option (list nat * res nat) :=
  match l with
  | [] => Some (seen, Ok 0)
  | y :: r => match g seen y with
              | Some (seen, Ok n) => match sum_list g seen r with
                                     | Some (seen, Ok k) => Some (seen, Ok (n + k))
                                     | r => r
                                     end
              | r => r
              end
  end.
Definition guarded (r : option (list nat * res nat)) : option (list nat * res nat) :=
  match r with Some (seen, Err TypeError) => Some (seen, Ok 0) | r => r end.

Section H.
Variable h : nat -> obj.
Notation sizeof := (sizeof h).
Notation reach := (reach h).
Notation refers := (refers h).

Definition group (x : nat) : list nat := match okid (h x) with KGroup l => l | _ => [] end.
Definition dicts (x : nat) : list nat := match odict (h x) with Some d => [d] | None => [] end.

Lemma sizeof_S : forall f seen x, sizeof (S f) seen x =
  match okid (h x) with
  | KModule => Some (seen, Err TypeError)
  | _ =>
      if existsb (Nat.eqb x) seen then Some (seen, Ok 0)
      else
        match guarded (sum_list (sizeof f) (x :: seen) (group x)) with
        | Some (seen, Ok n1) =>
            match sum_list (sizeof f) seen (dicts x) with
            | Some (seen, Ok n2) =>
                match guarded (sum_list (sizeof f) seen (slot_values (h x))) with
                | Some (seen, Ok n3) => Some (seen, Ok (osize (h x) + n1 + n2 + n3))
                | r => r
                end
            | r => r
            end
        | r => r
        end
  end.
Proof.
  intros f seen x. cbn [ObjModel.sizeof].
  assert (K : forall l seen (F : list nat -> list nat -> option (list nat * res nat)),
     (forall seen l, F seen l = match l with
       | [] => Some (seen, Ok 0)
       | y :: r => match sizeof f seen y with
              | Some (seen, Ok n) => match F seen r with Some (seen, Ok k) => Some (seen, Ok (n + k)) | r => r end
              | r => r
              end
       end) -> F seen l = sum_list (sizeof f) seen l).
  { induction l as [|y l IH]; intros s F HF; rewrite HF; [reflexivity|]. cbn [sum_list].
    destruct (sizeof f s y) as [[s' [n|e]]|]; try reflexivity. now rewrite (IH s' F HF). }
  unfold group, dicts.
  assert (D : forall s, match odict (h x) with Some d => sizeof f s d | None => Some (s, Ok 0) end =
     sum_list (sizeof f) s (match odict (h x) with Some d => [d] | None => [] end)).
  { intros s. destruct (odict (h x)) as [d|]; [|reflexivity]. cbn [sum_list].
    destruct (sizeof f s d) as [[s' [k|e]]|]; try reflexivity. now rewrite Nat.add_0_r. }
  destruct (okid (h x)) as [| |l]; [reflexivity| |]; (destruct (existsb _ _); [reflexivity|]).
  - cbn [sum_list guarded]. rewrite D. destruct (sum_list _ _ _) as [[s [n2|e]]|]; try reflexivity.
    unfold slot_values. destruct (oslots (h x)) as [d|]; [|reflexivity].
    match goal with |- context [match ?F s ?l with _ => _ end] => rewrite (K l s F) by (intros ? []; reflexivity) end.
    unfold guarded. destruct (sum_list (sizeof f) _ _) as [[? [?|[]]]|]; reflexivity.
  - match goal with |- context [match ?F (x :: seen) l with _ => _ end] => rewrite (K l (x :: seen) F) by (intros ? []; reflexivity) end.
    match goal with |- match ?g with _ => _ end = _ => assert (GE : g = guarded (sum_list (sizeof f) (x :: seen) l)) end.
    { unfold guarded. destruct (sum_list (sizeof f) _ _) as [[? [?|[]]]|]; reflexivity. }
    rewrite GE. clear GE. destruct (guarded _) as [[s [n1|e]]|]; try reflexivity.
    rewrite D. destruct (sum_list (sizeof f) s _) as [[s2 [n2|e]]|]; try reflexivity.
    unfold slot_values. destruct (oslots (h x)) as [d|]; [|reflexivity].
    match goal with |- context [match ?F s2 ?l with _ => _ end] => rewrite (K l s2 F) by (intros ? []; reflexivity) end.
    unfold guarded. destruct (sum_list (sizeof f) _ _) as [[? [?|[]]]|]; reflexivity.
Qed.

(** * The objects that are left *)
Variable n : nat.
Definition unseen (seen : list nat) : nat := length (filter (fun y => negb (existsb (Nat.eqb y) seen)) (seq 0 n)).
Lemma mem_in : forall x l, existsb (Nat.eqb x) l = true <-> In x l.
Proof.
  intros x l. rewrite existsb_exists. split.
  - intros (y & Hy & E). apply Nat.eqb_eq in E. now subst.
  - intros H. exists x. split; [auto|apply Nat.eqb_refl].
Qed.
Lemma filter_le : forall A (p q : A -> bool) l, (forall x, In x l -> p x = true -> q x = true) -> length (filter p l) <= length (filter q l).
Proof.
  induction l as [|x l IH]; intros H; cbn; [lia|]. assert (IH' := IH (fun y Hy => H y (or_intror Hy))).
  specialize (H x (or_introl eq_refl)). destruct (p x), (q x); cbn; try lia; try discriminate (H eq_refl).
Qed.
Lemma filter_lt : forall A (p q : A -> bool) l x, (forall x, In x l -> p x = true -> q x = true) -> In x l -> p x = false -> q x = true ->
  length (filter p l) < length (filter q l).
Proof.
  induction l as [|y l IH]; intros x H Hin Hp Hq; [destruct Hin|]. cbn.
  assert (L := filter_le _ p q l (fun y Hy => H y (or_intror Hy))). destruct Hin as [->|Hin].
  - rewrite Hp, Hq. cbn. lia.
  - assert (IH' := IH x (fun y Hy => H y (or_intror Hy)) Hin Hp Hq). specialize (H y (or_introl eq_refl)).
    destruct (p y), (q y); cbn; try lia; try discriminate (H eq_refl).
Qed.
Lemma unseen_app : forall new seen, unseen (new ++ seen) <= unseen seen.
Proof.
  intros. apply filter_le. intros x _ H. rewrite existsb_app in H. apply negb_true_iff in H. apply orb_false_iff in H as [_ H].
  now rewrite H.
Qed.
Lemma unseen_cons : forall x seen, x < n -> ~ In x seen -> unseen (x :: seen) < unseen seen.
Proof.
  intros x seen Hx Hn. apply filter_lt with x.
  - intros y _ H. cbn [existsb] in H. apply negb_true_iff, orb_false_iff in H as [_ H]. now rewrite H.
  - apply in_seq. lia.
  - cbn [existsb]. now rewrite Nat.eqb_refl.
  - destruct (existsb (Nat.eqb x) seen) eqn:E; [|reflexivity]. apply mem_in in E. tauto.
Qed.

Hypothesis closed : forall x y, x < n -> refers x y -> y < n.
Lemma slot_refers : forall x y, In y (slot_values (h x)) -> refers x y.
Proof.
  intros x y H. right. right. unfold slot_values in H. destruct (oslots (h x)) as [d|]; [|destruct H].
  apply in_flat_map in H as (nm & _ & H). destruct (dget nm (oattrs (h x))) as [i|] eqn:E; [|destruct H].
  destruct H as [<-|[]]. revert E. generalize (oattrs (h x)) as l. induction l as [|[k v] l IH]; cbn [dget]; [discriminate|].
  destruct (seqb nm k); [intros X; injection X as ->; now left|]. intros X. right. auto.
Qed.
Lemma group_refers : forall x y, In y (group x) -> refers x y.
Proof. intros x y H. left. unfold group in H. destruct (okid (h x)) as [| |l]; try destruct H. all: exists l; auto. Qed.
Lemma dict_refers : forall x y, In y (dicts x) -> refers x y.
Proof. intros x y H. right. left. unfold dicts in H. destruct (odict (h x)) as [d|]; [|destruct H]. destruct H as [<-|[]]. reflexivity. Qed.

(** * Termination *)
Definition fails_type (r : res nat) : Prop := forall e, r = Err e -> e = TypeError.
Lemma sum_total : forall f, (forall seen x, x < n -> unseen seen < f -> exists new r, sizeof f seen x = Some (new ++ seen, r) /\ fails_type r) ->
  forall l seen, (forall x, In x l -> x < n) -> unseen seen < f ->
  exists new r, sum_list (sizeof f) seen l = Some (new ++ seen, r) /\ fails_type r.
Proof.
  intros f IH l. induction l as [|x l IHl]; intros seen Hl U.
  - exists [], (Ok 0). split; [reflexivity|]. intros e E; discriminate.
  - cbn [sum_list]. destruct (IH seen x) as (new & r & E & F); [apply Hl; now left|auto|]. rewrite E.
    destruct r as [k|e]; [|exists new, (Err e); auto].
    destruct (IHl (new ++ seen)) as (new' & r' & E' & F'); [intros; apply Hl; now right|pose proof (unseen_app new seen); lia|].
    rewrite E', app_assoc. destruct r' as [k'|e']; eexists (new' ++ new), _; (split; [reflexivity|]); auto.
    intros e X; discriminate.
Qed.
Lemma guarded_total : forall f, (forall seen x, x < n -> unseen seen < f -> exists new r, sizeof f seen x = Some (new ++ seen, r) /\ fails_type r) ->
  forall l seen, (forall x, In x l -> x < n) -> unseen seen < f ->
  exists new k, guarded (sum_list (sizeof f) seen l) = Some (new ++ seen, Ok k).
Proof.
  intros f IH l seen Hl U. destruct (sum_total f IH l seen Hl U) as (new & r & -> & F). destruct r as [k|e]; [exists new, k; reflexivity|].
  rewrite (F e eq_refl). exists new, 0. reflexivity.
Qed.
Lemma terminates : forall f seen x, x < n -> unseen seen < f -> exists new r, sizeof f seen x = Some (new ++ seen, r) /\ fails_type r.
Proof.
  induction f as [|f IH]; intros seen x Hx U; [lia|]. rewrite sizeof_S.
  assert (R : okid (h x) = KModule \/ okid (h x) <> KModule) by (destruct (okid (h x)); auto; right; discriminate).
  destruct R as [R|R].
  { rewrite R. exists [], (Err TypeError). split; [reflexivity|]. intros e E; congruence. }
  assert (MAIN : exists new r, (if existsb (Nat.eqb x) seen then Some (seen, Ok 0)
      else
        match guarded (sum_list (sizeof f) (x :: seen) (group x)) with
        | Some (seen, Ok n1) =>
            match sum_list (sizeof f) seen (dicts x) with
            | Some (seen, Ok n2) =>
                match guarded (sum_list (sizeof f) seen (slot_values (h x))) with
                | Some (seen, Ok n3) => Some (seen, Ok (osize (h x) + n1 + n2 + n3))
                | r => r
                end
            | r => r
            end
        | r => r
        end) = Some (new ++ seen, r) /\ fails_type r).
  { destruct (existsb (Nat.eqb x) seen) eqn:E.
    - exists [], (Ok 0). split; [reflexivity|]. intros e X; discriminate.
    - assert (Hn : ~ In x seen) by (intros X; apply mem_in in X; congruence).
      pose proof (unseen_cons x seen Hx Hn) as U1.
      destruct (guarded_total f IH (group x) (x :: seen)) as (n1 & k1 & ->); [intros y Hy; eapply closed; eauto using group_refers|lia|].
      pose proof (unseen_app n1 (x :: seen)) as U2.
      destruct (sum_total f IH (dicts x) (n1 ++ x :: seen)) as (n2 & r2 & -> & F2); [intros y Hy; eapply closed; eauto using dict_refers|lia|].
      replace (n2 ++ n1 ++ x :: seen) with ((n2 ++ n1 ++ [x]) ++ seen) by (now rewrite <- !app_assoc).
      destruct r2 as [k2|e]; [|eexists _, _; split; [reflexivity|auto]].
      pose proof (unseen_app n2 (n1 ++ x :: seen)) as U3.
      replace (n2 ++ n1 ++ x :: seen) with ((n2 ++ n1 ++ [x]) ++ seen) in U3 by (now rewrite <- !app_assoc).
      destruct (guarded_total f IH (slot_values (h x)) ((n2 ++ n1 ++ [x]) ++ seen)) as (n3 & k3 & ->);
        [intros y Hy; eapply closed; eauto using slot_refers|lia|].
      rewrite app_assoc. eexists _, _. split; [reflexivity|]. intros e X; discriminate. }
  destruct (okid (h x)); [congruence|exact MAIN|exact MAIN].
Qed.

(** * The sum *)
Lemma reach_trans : forall x y z, reach x y -> reach y z -> reach x z.
Proof. intros x y z H G. induction G; [auto|]. econstructor; eauto. Qed.
Lemma reach_one : forall x y, refers x y -> reach x y.
Proof. intros. econstructor; [constructor|auto]. Qed.

Definition good (x : nat) : Prop := x < n /\ forall y, reach x y -> okid (h y) <> KModule /\ slots_listed h y.
Lemma good_step : forall x y, good x -> refers x y -> good y.
Proof.
  intros x y [A B] H. split; [eapply closed; eauto|]. intros z Hz. apply B. eapply reach_trans; [apply reach_one, H|auto].
Qed.
Lemma sizes_app : forall l m, sizes h (l ++ m) = sizes h l + sizes h m.
Proof. intros. unfold sizes. now rewrite map_app, list_sum_app. Qed.

Definition visit (from : nat -> Prop) (seen new : list nat) : Prop :=
  NoDup (new ++ seen) /\ (forall y, In y new -> exists x, from x /\ reach x y) /\
  (forall y z, In y new -> refers y z -> In z (new ++ seen)) /\ (forall x, from x -> In x (new ++ seen)).

Lemma sum_visit : forall f, (forall seen x, good x -> unseen seen < f -> NoDup seen -> exists new,
     sizeof f seen x = Some (new ++ seen, Ok (sizes h new)) /\ visit (eq x) seen new) ->
  forall l seen, (forall x, In x l -> good x) -> unseen seen < f -> NoDup seen ->
  exists new, sum_list (sizeof f) seen l = Some (new ++ seen, Ok (sizes h new)) /\ visit (fun x => In x l) seen new.
Proof.
  intros f IH l. induction l as [|x l IHl]; intros seen Hl U N.
  - exists []. split; [reflexivity|]. split; [auto|split; [intros ? []|split; [intros ? ? []|intros ? []]]].
  - cbn [sum_list]. destruct (IH seen x) as (new & E & V1 & V2 & V3 & V4); [apply Hl; now left|auto|auto|]. rewrite E.
    destruct (IHl (new ++ seen)) as (new' & E' & W1 & W2 & W3 & W4);
      [intros; apply Hl; now right|pose proof (unseen_app new seen); lia|auto|].
    rewrite E'. exists (new' ++ new). rewrite <- app_assoc. split; [now rewrite sizes_app, Nat.add_comm|]. split; [|split; [|split]].
    + now rewrite <- app_assoc.
    + intros y Hy. apply in_app_or in Hy as [Hy|Hy].
      * destruct (W2 y Hy) as (z & Hz & R). exists z. split; [now right|auto].
      * destruct (V2 y Hy) as (z & Hz & R). exists z. split; [left; auto|auto].
    + intros y z Hy R. rewrite <- app_assoc. apply in_app_or in Hy as [Hy|Hy]; [eauto|]. apply in_or_app. right. eauto.
    + intros y [<-|Hy]; rewrite <- app_assoc; [apply in_or_app; right; auto|auto].
Qed.

Lemma refers_split : forall x y, slots_listed h x -> refers x y -> In y (group x) \/ In y (dicts x) \/ In y (slot_values (h x)).
Proof.
  intros x y S [(l & E & H)|[H|H]].
  - left. unfold group. now rewrite E.
  - right. left. unfold dicts. rewrite H. now left.
  - right. right. unfold slots_listed in S. unfold slot_values. destruct (oslots (h x)) as [[s|l]|].
    + rewrite S in H. destruct H.
    + destruct S as [N S]. cbn [slot_names]. apply in_map_iff in H as ([k v] & <- & H). apply in_flat_map. exists k. split.
      * apply S. apply in_map_iff. exists (k, v). auto.
      * assert (G : dget k (oattrs (h x)) = Some v).
        { clear S. revert N H. generalize (oattrs (h x)) as m. induction m as [|[k' v'] m IH]; intros N H; [destruct H|]. cbn [dget].
          cbn in N. apply NoDup_cons_iff in N as [N1 N2]. destruct H as [H|H].
          - injection H as -> ->. now rewrite seqb_refl.
          - destruct (seqb k k') eqn:E; [|auto]. apply seqb_eq in E. subst. exfalso. apply N1. apply in_map_iff. exists (k', v). auto. }
        rewrite G. now left.
    + rewrite S in H. destruct H.
Qed.

Lemma sizeof_visit : forall f seen x, good x -> unseen seen < f -> NoDup seen -> exists new,
  sizeof f seen x = Some (new ++ seen, Ok (sizes h new)) /\ visit (eq x) seen new.
Proof.
  induction f as [|f IH]; intros seen x G U N; [lia|]. rewrite sizeof_S.
  destruct (proj2 G x (reach_self _ _)) as [R SL].
  assert (MAIN : exists new, (if existsb (Nat.eqb x) seen then Some (seen, Ok 0)
      else
        match guarded (sum_list (sizeof f) (x :: seen) (group x)) with
        | Some (seen, Ok n1) =>
            match sum_list (sizeof f) seen (dicts x) with
            | Some (seen, Ok n2) =>
                match guarded (sum_list (sizeof f) seen (slot_values (h x))) with
                | Some (seen, Ok n3) => Some (seen, Ok (osize (h x) + n1 + n2 + n3))
                | r => r
                end
            | r => r
            end
        | r => r
        end) = Some (new ++ seen, Ok (sizes h new)) /\ visit (eq x) seen new).
  { destruct (existsb (Nat.eqb x) seen) eqn:E.
    - exists []. split; [reflexivity|]. apply mem_in in E. split; [auto|split; [intros ? []|split; [intros ? ? []|]]].
      intros y <-. exact E.
    - assert (Hn : ~ In x seen) by (intros X; apply mem_in in X; congruence).
      pose proof (unseen_cons x seen (proj1 G) Hn) as U1.
      destruct (sum_visit f IH (group x) (x :: seen)) as (n1 & -> & A1 & A2 & A3 & A4);
        [intros; eapply good_step; eauto using group_refers|lia|now constructor|].
      pose proof (unseen_app n1 (x :: seen)) as U2. cbn [guarded].
      destruct (sum_visit f IH (dicts x) (n1 ++ x :: seen)) as (n2 & -> & B1 & B2 & B3 & B4);
        [intros; eapply good_step; eauto using dict_refers|lia|auto|].
      pose proof (unseen_app n2 (n1 ++ x :: seen)) as U3.
      destruct (sum_visit f IH (slot_values (h x)) (n2 ++ n1 ++ x :: seen)) as (n3 & -> & C1 & C2 & C3 & C4);
        [intros; eapply good_step; eauto using slot_refers|lia|auto|].
      cbn [guarded].
      exists (n3 ++ n2 ++ n1 ++ [x]).
      replace ((n3 ++ n2 ++ n1 ++ [x]) ++ seen) with (n3 ++ n2 ++ n1 ++ x :: seen) by (now rewrite <- !app_assoc).
      split; [|split; [|split; [|split]]].
      + f_equal. f_equal. f_equal. rewrite !sizes_app. unfold sizes at 7. cbn. lia.
      + replace ((n3 ++ n2 ++ n1 ++ [x]) ++ seen) with (n3 ++ n2 ++ n1 ++ x :: seen) by (now rewrite <- !app_assoc). exact C1.
      + intros y Hy. exists x. split; [auto|]. rewrite !in_app_iff in Hy. destruct Hy as [Hy|[Hy|[Hy|[<-|[]]]]].
        * destruct (C2 y Hy) as (z & Hz & Rz). eapply reach_trans; [apply reach_one, slot_refers, Hz|auto].
        * destruct (B2 y Hy) as (z & Hz & Rz). eapply reach_trans; [apply reach_one, dict_refers, Hz|auto].
        * destruct (A2 y Hy) as (z & Hz & Rz). eapply reach_trans; [apply reach_one, group_refers, Hz|auto].
        * constructor.
      + intros y z Hy Rz.
        replace ((n3 ++ n2 ++ n1 ++ [x]) ++ seen) with (n3 ++ n2 ++ n1 ++ x :: seen) by (now rewrite <- !app_assoc).
        rewrite !(in_app_iff n3), !(in_app_iff n2) in *. rewrite !(in_app_iff n1) in Hy.
        destruct Hy as [Hy|[Hy|[Hy|[<-|[]]]]].
        * specialize (C3 y z Hy Rz). rewrite !in_app_iff in C3. rewrite in_app_iff. tauto.
        * specialize (B3 y z Hy Rz). rewrite !in_app_iff in B3. rewrite in_app_iff. tauto.
        * specialize (A3 y z Hy Rz). rewrite !in_app_iff in A3. rewrite in_app_iff. tauto.
        * destruct (refers_split x z SL Rz) as [X|[X|X]].
          -- specialize (A4 z X). rewrite in_app_iff in *. tauto.
          -- specialize (B4 z X). rewrite !in_app_iff in *. tauto.
          -- specialize (C4 z X). rewrite !in_app_iff in *. tauto.
      + intros y <-. rewrite !in_app_iff. left. right. right. right. now left. }
  destruct (okid (h x)); [congruence|exact MAIN|exact MAIN].
Qed.

Lemma unseen_nil : unseen [] < S n.
Proof.
  unfold unseen. assert (X : forall A (p : A -> bool) l, length (filter p l) <= length l).
  { induction l; cbn; [lia|]. destruct (p a); cbn; lia. }
  specialize (X _ (fun y => negb (existsb (Nat.eqb y) [])) (seq 0 n)). rewrite seq_length in X. lia.
Qed.
Lemma total_size_spec : forall x, good x -> exists l, NoDup l /\ (forall y, In y l <-> reach x y) /\
  total_size h n x = Some (Ok (sizes h l)).
Proof.
  intros x G. destruct (sizeof_visit (S n) [] x G unseen_nil (NoDup_nil _)) as (new & E & V1 & V2 & V3 & V4).
  rewrite app_nil_r in *. exists new. split; [auto|]. split; [|unfold total_size; now rewrite E].
  intros y. split.
  - intros Hy. destruct (V2 y Hy) as (z & <- & R). exact R.
  - intros R. induction R; [auto|]. eauto.
Qed.
End H.
