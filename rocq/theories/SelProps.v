(** C63: selections. *)
From Coq Require Import String.
From Coq Require Import List Ascii Bool Arith ZArith Lia Permutation.
From Verif Require Import PyBase PyStr MemModel AttrModel AttrProofs CopyProofs ContModel ContProofs FlowSpec SelModel SelSpec SelProofs.
Import ListNotations.
Open Scope list_scope.
Open Scope nat_scope.

Lemma one_iff : forall allow sels k v s, dget k sels = Some v ->
  (one allow sels k = Ok s <-> exists kd, Allowed allow k kd /\ Means kd v (snd s) /\ fst s = fst (key_parts k)).
Proof.
  intros allow sels k v [a s] G. unfold one. rewrite G. cbn [fst snd]. split.
  - destruct (parser allow (snd (key_parts k))) as [f|] eqn:P; [|discriminate]. apply parser_iff in P as (kd & E & -> & A).
    destruct (kparse kd v) as [s0|] eqn:K; [|discriminate]. cbn [rbind]. intros H. injection H as <- <-. exists kd. split; [now apply allowed_iff|].
    split; [now apply kparse_iff|reflexivity].
  - intros (kd & A & M & E). apply allowed_iff in A as [A1 A2]. rewrite (proj2 (parser_iff allow _ (kparse kd))) by (exists kd; auto).
    apply kparse_iff in M. rewrite M. cbn [rbind]. now rewrite <- E.
Qed.
Lemma one_cases : forall allow sels k, In k (map fst sels) -> (exists p, one allow sels k = Ok p) \/ one allow sels k = Err ValueError.
Proof.
  intros allow sels k I. apply dget_in in I as [v G]. unfold one. rewrite G. destruct (parser allow (snd (key_parts k))) as [f|] eqn:P; [|now right].
  apply parser_iff in P as (kd & E & -> & A). destruct (kparse_err kd v) as [[s H]|H]; rewrite H; cbn; eauto.
Qed.
Definition Good (allow : bool) (sels : list (str * yaml)) : Prop :=
  forall k v, In (k, v) sels -> exists kd s, Allowed allow k kd /\ Means kd v s.
Lemma good_one : forall allow sels, NoDup (map fst sels) -> Good allow sels ->
  forall k, In k (sort_names (map fst sels)) -> exists p, one allow sels k = Ok p /\ fst p = fst (key_parts k).
Proof.
  intros allow sels N G k I. apply (Permutation_in k (Permutation_sym (py_sorted_perm sleb (map fst sels)))) in I.
  apply dget_in in I as [v Hv]. destruct (G k v) as (kd & s & A & M); [now apply dget_elem|].
  exists (fst (key_parts k), s). split; [|reflexivity]. eapply one_iff; [exact Hv|]. exists kd. auto.
Qed.

(** A selection is accepted exactly if all its keys and values have one of the
    forms of the documentation; otherwise the answer is ValueError. *)
Theorem C63_accepted : forall allow sels, NoDup (map fst sels) ->
  ((exists r, resolve_sel allow sels = Ok r) <-> forall k v, In (k, v) sels -> exists kd s, Allowed allow k kd /\ Means kd v s) /\
  ((exists r, resolve_sel allow sels = Ok r) \/ resolve_sel allow sels = Err ValueError).
Proof.
  intros allow sels N. unfold resolve_sel.
  assert (C : (forall k, In k (sort_names (map fst sels)) -> exists p, one allow sels k = Ok p /\ fst p = fst (key_parts k)) \/
              (exists k, In k (sort_names (map fst sels)) /\ one allow sels k = Err ValueError)).
  { assert (H : forall k, In k (sort_names (map fst sels)) -> In k (map fst sels)) by (intros k; apply Permutation_in, Permutation_sym, (py_sorted_perm sleb)).
    induction (sort_names (map fst sels)) as [|x l IH]; [left; intros k []|]. destruct IH as [IH|(k & I & E)]; [intros; apply H; now right| |right; exists k; split; [now right|exact E]].
    destruct (one_cases allow sels x) as [(p & Hp)|Hx]; [apply H; now left| |right; exists x; split; [now left|exact Hx]].
    left. intros k [<-|I]; [|auto]. exists p. split; [exact Hp|]. pose proof (H x (or_introl eq_refl)) as Ix. apply dget_in in Ix as [v Hv].
    destruct (proj1 (one_iff allow sels x v p Hv) Hp) as (kd & _ & _ & E). exact E. }
  destruct C as [C|(k & I & E)].
  - destruct (fold_ok allow sels _ [] C) as (r & R & _). split; [|left; eauto]. split; [|eauto]. intros _ k v Iv.
    assert (Gv : dget k sels = Some v) by now apply dget_nodup.
    destruct (C k) as (p & Hp & _); [apply (Permutation_in k (py_sorted_perm sleb (map fst sels))), in_map_iff; exists (k, v); auto|].
    pose proof (proj1 (one_iff allow sels k v p Gv) Hp) as (kd & A & M & _). eauto.
  - assert (B : fold_left (sel_step allow sels) (sort_names (map fst sels)) (Ok []) = Err ValueError).
    { eapply fold_bad; eauto. intros x Ix. apply one_cases. eapply Permutation_in; [apply Permutation_sym, (py_sorted_perm sleb)|exact Ix]. }
    rewrite B. split; [|now right]. split; [intros [r Hr]; discriminate|]. intros G. exfalso.
    destruct (good_one allow sels N G k I) as (p & Hp & _). congruence.
Qed.
Print Assumptions C63_accepted.
(** Precedence as it is: ranges before maps before indices. *)
Theorem C63_order : forall allow sels r axis kd v s, NoDup (map fst sels) -> resolve_sel allow sels = Ok r -> axis <> [] ->
  First [Range; Map; Index] sels axis kd -> dget (key_of axis kd) sels = Some v -> Means kd v s -> dget (sel_name axis) r = Some s.
Proof.
  intros allow sels r axis kd v s N R Ha F G M. destruct (C63_accepted allow sels N) as [[Acc _] _].
  assert (Gd : Good allow sels) by exact (Acc (ex_intro _ r R)). destruct (fold_ok allow sels _ [] (good_one allow sels N Gd)) as (r' & R' & P).
  unfold resolve_sel in R. rewrite R in R'. injection R' as <-. destruct (P axis) as [P1 _]. clear P.
  assert (Al : Allowed allow (key_of axis kd) kd).
  { destruct (Gd (key_of axis kd) v) as (kd' & s' & A & _); [now apply dget_elem|]. pose proof A as A'. apply allowed_iff in A' as [E E2].
    rewrite key_parts_of in E. cbn [snd] in E. assert (kd = kd') by (destruct kd, kd'; auto; discriminate). now subst. }
  apply (P1 (key_of axis kd) (axis, s)).
  - apply sorted_last; auto.
    + apply dget_in. eauto.
    + now rewrite key_parts_of.
    + intros y Iy Ey L. apply dget_in in Iy as [vy Gy]. destruct (Gd y vy) as (ky & sy & Ay & _); [now apply dget_elem|].
      destruct Ay as [_ [(ay & ->)| ->]].
      * rewrite key_parts_of in Ey. cbn in Ey. subst ay. destruct F as (a & b & El & _ & Hn). rewrite later_iff in L.
        assert (Hin : ~ In ky a) by (intros I; rewrite (Hn ky I) in Gy; discriminate).
        destruct a as [|k1 [|k2 [|k3 a]]]; injection El; intros; subst.
        -- destruct ky; [reflexivity|discriminate L|discriminate L].
        -- destruct ky; [cbn in Hin; tauto|discriminate L|reflexivity].
        -- destruct ky; [cbn in Hin; tauto|reflexivity|cbn in Hin; tauto].
        -- destruct a; discriminate.
      * rewrite key_parts_word in Ey. cbn in Ey. congruence.
  - eapply one_iff; [exact G|]. exists kd. split; [exact Al|]. split; [exact M|]. now rewrite key_parts_of.
Qed.
Print Assumptions C63_order.
(** An axis without keys is not selected. *)
Theorem C63_untouched : forall allow sels r axis, NoDup (map fst sels) -> resolve_sel allow sels = Ok r -> axis <> [] ->
  (forall kd, dget (key_of axis kd) sels = None) -> dget (sel_name axis) r = None.
Proof.
  intros allow sels r axis N R Ha H. destruct (C63_accepted allow sels N) as [[Acc _] _].
  assert (Gd : Good allow sels) by exact (Acc (ex_intro _ r R)). destruct (fold_ok allow sels _ [] (good_one allow sels N Gd)) as (r' & R' & P).
  unfold resolve_sel in R. rewrite R in R'. injection R' as <-. destruct (P axis) as [_ P2]. rewrite P2; [reflexivity|].
  intros k I E. apply (Permutation_in k (Permutation_sym (py_sorted_perm sleb (map fst sels)))) in I. apply dget_in in I as [v G].
  destruct (Gd k v) as (kd & s & [_ [(a & ->)| ->]] & _); [now apply dget_elem| |].
  - rewrite key_parts_of in E. cbn in E. subst a. rewrite H in G. discriminate.
  - rewrite key_parts_word in E. cbn in E. congruence.
Qed.
Print Assumptions C63_untouched.
(** The documented precedence, if no axis has an index and a map but no range. *)
Theorem C63_documented_partial : forall allow sels r axis kd v s, NoDup (map fst sels) -> resolve_sel allow sels = Ok r -> axis <> [] ->
  (dget (key_of axis Range) sels <> None \/ dget (key_of axis Index) sels = None \/ dget (key_of axis Map) sels = None) ->
  First documented sels axis kd -> dget (key_of axis kd) sels = Some v -> Means kd v s -> dget (sel_name axis) r = Some s.
Proof.
  intros allow sels r axis kd v s N R Ha H F G M. eapply C63_order; eauto.
  destruct F as (a & b & E & D & Hn). unfold documented in E.
  destruct a as [|k1 [|k2 [|k3 a]]]; injection E; intros; subst.
  - exists [], [Map; Index]. split; [reflexivity|]. split; [exact D|]. intros k [].
  - exists [Range; Map], []. split; [reflexivity|]. split; [exact D|]. intros k [<-|[<-|[]]]; [apply Hn; now left|].
    destruct H as [H|[H|H]]; [|congruence|exact H]. elim H. apply Hn. now left.
  - exists [Range], [Index]. split; [reflexivity|]. split; [exact D|]. intros k [<-|[]]. apply Hn. now left.
  - destruct a; discriminate.
Qed.
Print Assumptions C63_documented_partial.
(** Without map selections the precedence is as documented. *)
Theorem C63_no_map : forall sels r axis kd v s, NoDup (map fst sels) -> resolve_sel false sels = Ok r -> axis <> [] ->
  First documented sels axis kd -> dget (key_of axis kd) sels = Some v -> Means kd v s -> dget (sel_name axis) r = Some s.
Proof.
  intros sels r axis kd v s N R Ha F G M. eapply C63_documented_partial; eauto. right. right.
  destruct (dget (key_of axis Map) sels) as [w|] eqn:E; [|reflexivity]. exfalso.
  destruct (C63_accepted false sels N) as [[Acc _] _]. destruct (Acc (ex_intro _ r R) (key_of axis Map) w) as (kd' & s' & A & _); [now apply dget_elem|].
  apply allowed_iff in A as [A1 A2]. rewrite key_parts_of in A1. destruct kd'; try discriminate. discriminate A2. reflexivity.
Qed.
Print Assumptions C63_no_map.
(** The index selection should win over the map, but does not. *)
Theorem C63_precedence_refuted : exists sels r axis v s, NoDup (map fst sels) /\ resolve_sel true sels = Ok r /\
  First documented sels axis Index /\ dget (key_of axis Index) sels = Some v /\ Means Index v s /\ dget (sel_name axis) r <> Some s.
Proof.
  exists [(s_ "pol_index", YList [YInt 3%Z]); (s_ "pol_map", YList [YStr (s_ "XX")])]. eexists. exists (s_ "pol"), (YList [YInt 3%Z]), (SIndex [YInt 3%Z]).
  split; [repeat constructor; cbn; intuition discriminate|]. split; [reflexivity|]. split.
  - exists [Range], [Map]. split; [reflexivity|]. split; [discriminate|]. intros k [<-|[]]. reflexivity.
  - split; [reflexivity|]. split; [constructor; [discriminate|intros v [<-|[]]; constructor]|]. discriminate.
Qed.
Print Assumptions C63_precedence_refuted.
(** A key without an axis is accepted and selects on an axis without a name. *)
Theorem C63_no_axis_refuted : exists k v r, (forall axis kd, k <> key_of axis kd) /\ resolve_sel false [(k, v)] = Ok r /\ map fst r = [s_ "_sel"].
Proof.
  exists (s_ "range"), (YList [YInt 0%Z; YInt 4%Z]). eexists. split; [|split; reflexivity].
  intros axis kd E. assert (I : In underscore (s_ "range")) by (rewrite E; unfold key_of; apply in_or_app; right; now left).
  exact (no_underscore Range I).
Qed.
Print Assumptions C63_no_axis_refuted.
Example C63_example : resolve_sel true [(s_ "freq_range", YList [YInt 256%Z; YInt 512%Z; YInt 4%Z]); (s_ "stack_index", YList [YInt 1%Z; YInt 2%Z]);
    (s_ "stack_range", YList [YInt 1%Z; YInt 14%Z]); (s_ "sub_pol_map", YList [YStr (s_ "XX")])] =
  Ok [(s_ "freq_sel", SRange [YInt 256%Z; YInt 512%Z; YInt 4%Z]); (s_ "stack_sel", SRange [YInt 1%Z; YInt 14%Z]); (s_ "sub_pol_sel", SIndex [YStr (s_ "XX")])] /\
  resolve_sel false [(s_ "pol_map", YList [YStr (s_ "XX")])] = Err ValueError /\
  resolve_sel true [(s_ "pol_index", YList [YStr (s_ "XX")])] = Err ValueError /\
  resolve_sel true [(s_ "pol_range", YList [YInt 1%Z])] = Err ValueError /\ resolve_sel true [(s_ "polrange", YList [YInt 1%Z; YInt 2%Z])] = Err ValueError.
Proof. repeat split. Qed.
