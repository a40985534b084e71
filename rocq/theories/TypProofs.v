(** Lemmas for [bytes_to_unicode]. *)
From Coq Require Import String.
From Coq Require Import List Ascii Bool Arith Lia.
From Verif Require Import PyBase PyStr TypModel TypSpec.
Import ListNotations.
Open Scope list_scope.
Open Scope nat_scope.

Section Ind.
  Variable P : pyo -> Prop.
  Hypothesis H1 : forall b, P (OBytes b).
  Hypothesis H2 : forall t, P (OStr t).
  Hypothesis H3 : forall l, P (OArrS l).
  Hypothesis H4 : forall l, P (OArrU l).
  Hypothesis H5 : forall l, Forall P l -> P (OList l).
  Hypothesis H6 : forall l, Forall P l -> P (OTuple l).
  Hypothesis H7 : forall l, Forall P l -> P (ONamed l).
  Hypothesis H8 : forall l, Forall P l -> P (OSet l).
  Hypothesis H9 : forall l, Forall (fun kv => P (fst kv) /\ P (snd kv)) l -> P (ODict l).
  Hypothesis H10 : P OGen.
  Hypothesis H11 : forall n, P (OOther n).
  Fixpoint pyo_ind' (o : pyo) : P o :=
    let all := fix go l : Forall P l :=
        match l with [] => Forall_nil _ | x :: r => Forall_cons x (pyo_ind' x) (go r) end in
    match o with
    | OBytes b => H1 b
    | OStr t => H2 t
    | OArrS l => H3 l
    | OArrU l => H4 l
    | OList l => H5 l (all l)
    | OTuple l => H6 l (all l)
    | ONamed l => H7 l (all l)
    | OSet l => H8 l (all l)
    | ODict l => H9 l ((fix go l : Forall (fun kv => P (fst kv) /\ P (snd kv)) l :=
        match l with
        | [] => Forall_nil _
        | kv :: r => Forall_cons kv (conj (pyo_ind' (fst kv)) (pyo_ind' (snd kv))) (go r)
        end) l)
    | OGen => H10
    | OOther n => H11 n
    end.
End Ind.

Fixpoint mapr {A B} (f : A -> res B) (l : list A) : res (list B) :=
  match l with
  | [] => Ok []
  | x :: r => rbind (f x) (fun x' => rbind (mapr f r) (fun r' => Ok (x' :: r')))
  end.
Lemma mapr_ok : forall A B (f : A -> res B) l m, mapr f l = Ok m <-> Forall2 (fun x y => f x = Ok y) l m.
Proof.
  induction l as [|x l IH]; intros m; cbn.
  - split; intros H; [injection H as <-; constructor|inversion H; reflexivity].
  - split.
    + intros H. destruct (f x) as [y|] eqn:E; [|discriminate]. cbn in H.
      destruct (mapr f l) as [m'|] eqn:E'; [|discriminate]. cbn in H. injection H as <-.
      constructor; auto. now apply IH.
    + intros H. inversion H as [|a b c d Hf Hr]; subst. rewrite Hf. cbn. apply IH in Hr. now rewrite Hr.
Qed.
Lemma mapr_total : forall A B (f : A -> res B) l, (forall x, In x l -> exists y, f x = Ok y) -> exists m, mapr f l = Ok m.
Proof.
  induction l as [|x l IH]; intros H; [eexists; reflexivity|].
  destruct (H x) as [y Hy]; [now left|]. destruct IH as [m Hm]; [intros; apply H; now right|].
  cbn. rewrite Hy. cbn. rewrite Hm. eexists; reflexivity.
Qed.

Section D.
Variable decode : str -> option text.
Notation b2u := (b2u decode).
Notation converted := (converted decode).

Lemma b2u_list : forall l, b2u (OList l) = rbind (mapr b2u l) (fun m => Ok (OList m)).
Proof.
  intros l. cbn. match goal with |- rbind (?F l) _ = _ => assert (E : F l = mapr b2u l) end; [|now rewrite E].
  induction l as [|x l IH]; [reflexivity|]. cbn [mapr]. now rewrite <- IH.
Qed.
Lemma b2u_tuple : forall l, b2u (OTuple l) = rbind (mapr b2u l) (fun m => Ok (OTuple m)).
Proof.
  intros l. cbn. match goal with |- rbind (?F l) _ = _ => assert (E : F l = mapr b2u l) end; [|now rewrite E].
  induction l as [|x l IH]; [reflexivity|]. cbn [mapr]. now rewrite <- IH.
Qed.
Lemma b2u_set : forall l, b2u (OSet l) = rbind (mapr b2u l) (fun m => Ok (OSet (mkset m))).
Proof.
  intros l. cbn. match goal with |- rbind (?F l) _ = _ => assert (E : F l = mapr b2u l) end; [|now rewrite E].
  induction l as [|x l IH]; [reflexivity|]. cbn [mapr]. now rewrite <- IH.
Qed.
Definition b2u_pair (kv : pyo * pyo) : res (pyo * pyo) :=
  rbind (b2u (fst kv)) (fun k => rbind (b2u (snd kv)) (fun v => Ok (k, v))).
Lemma b2u_dict : forall l, b2u (ODict l) = rbind (mapr b2u_pair l) (fun m => Ok (ODict (mkdict m))).
Proof.
  intros l. cbn. match goal with |- rbind (?F l) _ = _ => assert (E : F l = mapr b2u_pair l) end; [|now rewrite E].
  induction l as [|[k v] l IH]; [reflexivity|]. cbn [mapr]. rewrite <- IH. unfold b2u_pair at 1. cbn [fst snd].
  destruct (b2u k); [|reflexivity]. cbn. destruct (b2u v); reflexivity.
Qed.
Lemma pair_ok : forall kv r, b2u_pair kv = Ok r <-> b2u (fst kv) = Ok (fst r) /\ b2u (snd kv) = Ok (snd r).
Proof.
  intros [k v] [k' v']. unfold b2u_pair. cbn [fst snd]. split.
  - intros H. destruct (b2u k); [|discriminate]. cbn in H. destruct (b2u v); [|discriminate]. cbn in H.
    injection H as -> ->. auto.
  - intros [-> ->]. reflexivity.
Qed.

(** * Sets and dictionaries *)
Lemma oadd_in : forall x y l, In y (oadd x l) <-> y = x \/ In y l.
Proof.
  induction l as [|z l IH]; cbn [oadd].
  - cbn. intuition auto.
  - destruct (pyo_dec x z) as [->|Hn]; cbn [In].
    + intuition auto.
    + rewrite IH. intuition auto.
Qed.
Lemma oadd_nodup : forall x l, NoDup l -> NoDup (oadd x l).
Proof.
  induction l as [|z l IH]; intros H; cbn [oadd].
  - constructor; [intros []|constructor].
  - destruct (pyo_dec x z) as [->|Hn]; [auto|]. apply NoDup_cons_iff in H as [H1 H2]. constructor; auto.
    rewrite oadd_in. intros [->|?]; auto.
Qed.
Lemma fold_oadd : forall l s, (forall y, In y (fold_left (fun s x => oadd x s) l s) <-> In y s \/ In y l) /\
  (NoDup s -> NoDup (fold_left (fun s x => oadd x s) l s)).
Proof.
  induction l as [|x l IH]; intros s; cbn [fold_left].
  - split; auto. intros y. cbn. tauto.
  - destruct (IH (oadd x s)) as [A B]. split; [|intros H; now apply B, oadd_nodup].
    intros y. rewrite A, oadd_in. cbn. intuition auto.
Qed.
Lemma mkset_in : forall l y, In y (mkset l) <-> In y l.
Proof. intros l y. unfold mkset. rewrite (proj1 (fold_oadd l [])). cbn. tauto. Qed.
Lemma mkset_nodup : forall l, NoDup (mkset l).
Proof. intros l. apply (proj2 (fold_oadd l [])). constructor. Qed.
Lemma oadd_new : forall x l, ~ In x l -> oadd x l = l ++ [x].
Proof.
  induction l as [|z l IH]; intros H; cbn; [auto|]. destruct (pyo_dec x z) as [->|Hn]; [exfalso; apply H; now left|].
  rewrite IH; auto. intros ?. apply H; now right.
Qed.
Lemma mkset_id : forall l, NoDup l -> mkset l = l.
Proof.
  assert (K : forall l s, NoDup (s ++ l) -> fold_left (fun s x => oadd x s) l s = s ++ l).
  { induction l as [|x l IH]; intros s H; cbn; [now rewrite app_nil_r|].
    rewrite oadd_new.
    - rewrite IH; rewrite <- app_assoc; auto.
    - apply NoDup_remove_2 in H. intros Hx. apply H. apply in_or_app. now left. }
  intros l H. now apply (K l []).
Qed.

Fixpoint oget (k : pyo) (l : list (pyo * pyo)) : option pyo :=
  match l with
  | [] => None
  | (k', v) :: r => if pyo_dec k k' then Some v else oget k r
  end.
Lemma oput_keys : forall k v l x, In x (map fst (oput k v l)) <-> x = k \/ In x (map fst l).
Proof.
  induction l as [|[k' v'] l IH]; intros x; cbn [oput].
  - cbn. intuition auto.
  - destruct (pyo_dec k k') as [->|Hn]; cbn [map fst In]; [intuition auto|]. rewrite IH. intuition auto.
Qed.
Lemma oput_nodup : forall k v l, NoDup (map fst l) -> NoDup (map fst (oput k v l)).
Proof.
  induction l as [|[k' v'] l IH]; intros H; cbn [oput].
  - constructor; [intros []|constructor].
  - cbn [map fst] in H. apply NoDup_cons_iff in H as [H1 H2].
    destruct (pyo_dec k k') as [->|Hn]; cbn [map fst]; constructor; auto.
    rewrite oput_keys. intros [->|?]; auto.
Qed.
Lemma oput_in : forall k v l k' v', NoDup (map fst l) ->
  (In (k', v') (oput k v l) <-> (k' = k /\ v' = v) \/ (k' <> k /\ In (k', v') l)).
Proof.
  induction l as [|[k1 v1] l IH]; intros k' v' N; cbn [oput].
  - cbn. split; [intros [H|[]]; injection H as <- <-; auto|]. intros [[-> ->]|[_ []]]; now left.
  - cbn [map fst] in N. apply NoDup_cons_iff in N as [N1 N2].
    assert (K : forall v0, In (k1, v0) l -> False).
    { intros v0 H. apply N1. apply in_map_iff. exists (k1, v0). auto. }
    destruct (pyo_dec k k1) as [->|Hn]; cbn [In].
    + split.
      * intros [H|H]; [injection H as <- <-; auto|]. right. split; [intros ->; eauto|now right].
      * intros [[-> ->]|[Hne [H|H]]]; auto. injection H as -> ->. congruence.
    + rewrite (IH k' v' N2). split.
      * intros [H|[?|[? ?]]]; auto. injection H as <- <-. right. split; [congruence|now left].
      * intros [?|[? [H|?]]]; auto.
Qed.
Lemma last_for_snoc : forall k v e k1 v1, last_for k v (e ++ [(k1, v1)]) <->
  (k = k1 /\ v = v1) \/ (k <> k1 /\ last_for k v e).
Proof.
  intros k v e k1 v1. split.
  - intros (a & b & E & H). destruct b as [|[k2 v2] b] using rev_ind.
    + apply app_inj_tail in E as [-> E]. injection E as -> ->. auto.
    + clear IHb. rewrite app_comm_cons, app_assoc in E. apply app_inj_tail in E as [-> E]. injection E as -> ->.
      right. rewrite map_app in H. split.
      * intros ->. apply H. apply in_or_app. right. now left.
      * exists a, b. split; auto. intros X. apply H. apply in_or_app. now left.
  - intros [[-> ->]|[Hn (a & b & -> & H)]].
    + exists e, []. split; auto.
    + exists a, (b ++ [(k1, v1)]). split; [now rewrite <- app_assoc|]. rewrite map_app. intros X.
      apply in_app_or in X as [?|[X|[]]]; auto.
Qed.
Lemma mkdict_spec : forall l, NoDup (map fst (mkdict l)) /\
  forall k v, In (k, v) (mkdict l) <-> last_for k v l.
Proof.
  induction l as [|[k1 v1] l IH] using rev_ind.
  - split; [constructor|]. intros k v. split; [intros []|]. intros (a & b & E & _). destruct a; discriminate.
  - destruct IH as [N IH]. unfold mkdict in *. rewrite fold_left_app. cbn [fold_left fst snd].
    split; [now apply oput_nodup|]. intros k v. rewrite oput_in, last_for_snoc, IH by auto. reflexivity.
Qed.
Lemma oput_new : forall k v l, ~ In k (map fst l) -> oput k v l = l ++ [(k, v)].
Proof.
  induction l as [|[k' v'] l IH]; intros H; cbn; [auto|].
  destruct (pyo_dec k k') as [->|Hn]; [exfalso; apply H; now left|]. rewrite IH; auto. intros ?. apply H; now right.
Qed.
Lemma mkdict_id : forall l, NoDup (map fst l) -> mkdict l = l.
Proof.
  assert (K : forall l s, NoDup (map fst (s ++ l)) -> fold_left (fun d kv => oput (fst kv) (snd kv) d) l s = s ++ l).
  { induction l as [|[k v] l IH]; intros s H; cbn; [now rewrite app_nil_r|].
    rewrite oput_new.
    - rewrite IH; rewrite <- app_assoc; auto.
    - rewrite map_app in H. cbn in H. apply NoDup_remove_2 in H. intros Hx. apply H. apply in_or_app. now left. }
  intros l H. now apply (K l []).
Qed.
Lemma mkdict_from : forall l k v, In (k, v) (mkdict l) -> In (k, v) l.
Proof. intros l k v H. apply (proj2 (mkdict_spec l)) in H as (a & b & -> & _). apply in_elt. Qed.

Lemma Forall2_in_r : forall A B (R : A -> B -> Prop) l m y, Forall2 R l m -> In y m -> exists x, In x l /\ R x y.
Proof.
  induction 1 as [|x y' l m Hxy H IH]; intros Hin; [destruct Hin|].
  destruct Hin as [->|Hin]; [exists x; split; [now left|auto]|].
  destruct (IH Hin) as (x' & ? & ?). exists x'. split; [now right|auto].
Qed.
Lemma Forall2_in_l : forall A B (R : A -> B -> Prop) l m x, Forall2 R l m -> In x l -> exists y, In y m /\ R x y.
Proof.
  induction 1 as [|x' y l m Hxy H IH]; intros Hin; [destruct Hin|].
  destruct Hin as [->|Hin]; [exists y; split; [now left|auto]|].
  destruct (IH Hin) as (y' & ? & ?). exists y'. split; [now right|auto].
Qed.

Lemma astype_ok : forall l ts, astype_str l = Ok ts <-> Forall2 (fun b t => ascii_text b = Some t) l ts.
Proof.
  induction l as [|b l IH]; intros ts; cbn.
  - split; intros H; [injection H as <-; constructor|inversion H; reflexivity].
  - split.
    + intros H. destruct (ascii_text b) as [t|] eqn:E; [|discriminate]. destruct (astype_str l) as [r|] eqn:E'; [|discriminate].
      cbn in H. injection H as <-. constructor; auto. now apply IH.
    + intros H. inversion H as [|a c d e Hf Hr]; subst. rewrite Hf. apply IH in Hr. now rewrite Hr.
Qed.

(** * Idempotence *)
Lemma stable_list : forall l, (forall x, In x l -> b2u x = Ok x) -> mapr b2u l = Ok l.
Proof. intros l H. apply mapr_ok. induction l as [|x l IH]; constructor; [apply H; now left|apply IH; intros; apply H; now right]. Qed.
Lemma stable_dict : forall l, (forall k v, In (k, v) l -> b2u k = Ok k /\ b2u v = Ok v) -> mapr b2u_pair l = Ok l.
Proof.
  intros l H. apply mapr_ok. induction l as [|[k v] l IH]; constructor.
  - apply pair_ok. apply (H k v). now left.
  - apply IH. intros; apply H; now right.
Qed.
Lemma idempotent : forall o r, b2u o = Ok r -> b2u r = Ok r.
Proof.
  induction o as [b|t|l|l|l IH|l IH|l IH|l IH|l IH| |n] using pyo_ind'; intros r H.
  - cbn in H. destruct (decode b); [|discriminate]. injection H as <-. reflexivity.
  - injection H as <-. reflexivity.
  - cbn in H. destruct (astype_str l); [|discriminate]. injection H as <-. reflexivity.
  - injection H as <-. reflexivity.
  - rewrite b2u_list in H. destruct (mapr b2u l) as [m|] eqn:E; [|discriminate]. injection H as <-.
    apply mapr_ok in E. rewrite b2u_list, stable_list; [reflexivity|].
    intros y Hy. destruct (Forall2_in_r _ _ _ _ _ _ E Hy) as (x & Hx & Hb). rewrite Forall_forall in IH. eapply IH; eauto.
  - rewrite b2u_tuple in H. destruct (mapr b2u l) as [m|] eqn:E; [|discriminate]. injection H as <-.
    apply mapr_ok in E. rewrite b2u_tuple, stable_list; [reflexivity|].
    intros y Hy. destruct (Forall2_in_r _ _ _ _ _ _ E Hy) as (x & Hx & Hb). rewrite Forall_forall in IH. eapply IH; eauto.
  - cbn in H. destruct l as [|x [|y l]]; try discriminate. injection H as <-. reflexivity.
  - rewrite b2u_set in H. destruct (mapr b2u l) as [m|] eqn:E; [|discriminate]. injection H as <-.
    apply mapr_ok in E. rewrite b2u_set, stable_list; [cbn; now rewrite mkset_id by apply mkset_nodup|].
    intros y Hy. apply (proj1 (mkset_in m y)) in Hy.
    destruct (Forall2_in_r _ _ _ _ _ _ E Hy) as (x & Hx & Hb). rewrite Forall_forall in IH. eapply IH; eauto.
  - rewrite b2u_dict in H. destruct (mapr b2u_pair l) as [m|] eqn:E; [|discriminate]. injection H as <-.
    apply mapr_ok in E. rewrite b2u_dict, stable_dict; [cbn; now rewrite mkdict_id by apply mkdict_spec|].
    intros k v Hy. apply mkdict_from in Hy.
    destruct (Forall2_in_r _ _ _ _ _ _ E Hy) as (x & Hx & Hb). apply pair_ok in Hb as [Hb1 Hb2].
    rewrite Forall_forall in IH. destruct (IH x Hx) as [I1 I2]. split; eauto.
  - injection H as <-. reflexivity.
  - injection H as <-. reflexivity.
Qed.

(** * No byte strings are left *)
Lemma inside_inv : forall x o, inside x o ->
  x = o \/
  match o with
  | OList l | OTuple l | ONamed l | OSet l => exists y, In y l /\ inside x y
  | ODict l => exists k v, In (k, v) l /\ (inside x k \/ inside x v)
  | _ => False
  end.
Proof. destruct 1; eauto 7. Qed.
Lemma none_left : forall o r, b2u o = Ok r -> no_bytes r.
Proof.
  assert (L : forall l m, Forall (fun o => forall r, b2u o = Ok r -> no_bytes r) l ->
     Forall2 (fun x y => b2u x = Ok y) l m -> forall y, In y m -> no_bytes y).
  { intros l m IH E y Hy. destruct (Forall2_in_r _ _ _ _ _ _ E Hy) as (x & Hx & Hb). rewrite Forall_forall in IH. eapply IH; eauto. }
  assert (C : forall o, (~ is_bytes o) -> (forall x, inside x o -> x = o \/ ~ is_bytes x) -> no_bytes o).
  { intros o H K x Hx. destruct (K x Hx) as [->|?]; auto. }
  induction o as [b|t|l|l|l IH|l IH|l IH|l IH|l IH| |n] using pyo_ind'; intros r H;
    try (injection H as <-; apply C; [intros [[? ?]|[? ?]]; discriminate|intros x Hx; apply inside_inv in Hx as [?|[]]; auto]; fail).
  - cbn in H. destruct (decode b); [|discriminate]. injection H as <-.
    apply C; [intros [[? ?]|[? ?]]; discriminate|intros x Hx; apply inside_inv in Hx as [?|[]]; auto].
  - cbn in H. destruct (astype_str l); [|discriminate]. injection H as <-.
    apply C; [intros [[? ?]|[? ?]]; discriminate|intros x Hx; apply inside_inv in Hx as [?|[]]; auto].
  - rewrite b2u_list in H. destruct (mapr b2u l) as [m|] eqn:E; [|discriminate]. injection H as <-. apply mapr_ok in E.
    apply C; [intros [[? ?]|[? ?]]; discriminate|]. intros x Hx. apply inside_inv in Hx as [?|(y & Hy & Hi)]; auto.
    right. exact (L _ _ IH E y Hy x Hi).
  - rewrite b2u_tuple in H. destruct (mapr b2u l) as [m|] eqn:E; [|discriminate]. injection H as <-. apply mapr_ok in E.
    apply C; [intros [[? ?]|[? ?]]; discriminate|]. intros x Hx. apply inside_inv in Hx as [?|(y & Hy & Hi)]; auto.
    right. exact (L _ _ IH E y Hy x Hi).
  - cbn in H. destruct l as [|y [|z l]]; try discriminate. injection H as <-.
    apply C; [intros [[? ?]|[? ?]]; discriminate|]. intros x Hx.
    apply inside_inv in Hx as [?|(w & [<-|[]] & Hi)]; auto. right.
    apply inside_inv in Hi as [->|[]]. intros [[? ?]|[? ?]]; discriminate.
  - rewrite b2u_set in H. destruct (mapr b2u l) as [m|] eqn:E; [|discriminate]. injection H as <-. apply mapr_ok in E.
    apply C; [intros [[? ?]|[? ?]]; discriminate|]. intros x Hx. apply inside_inv in Hx as [?|(y & Hy & Hi)]; auto.
    right. apply (proj1 (mkset_in m y)) in Hy. exact (L _ _ IH E y Hy x Hi).
  - rewrite b2u_dict in H. destruct (mapr b2u_pair l) as [m|] eqn:E; [|discriminate]. injection H as <-. apply mapr_ok in E.
    apply C; [intros [[? ?]|[? ?]]; discriminate|]. intros x Hx. apply inside_inv in Hx as [?|(k & v & Hy & Hi)]; auto.
    right. apply mkdict_from in Hy. destruct (Forall2_in_r _ _ _ _ _ _ E Hy) as (kv & Hx & Hb).
    apply pair_ok in Hb as [Hb1 Hb2]. rewrite Forall_forall in IH. destruct (IH kv Hx) as [I1 I2].
    destruct Hi as [Hi|Hi]; [exact (I1 _ Hb1 x Hi)|exact (I2 _ Hb2 x Hi)].
Qed.

(** * The conversion is as specified *)
Lemma Forall2_weaken : forall A B (R S : A -> B -> Prop) l m, (forall x y, In x l -> R x y -> S x y) ->
  Forall2 R l m -> Forall2 S l m.
Proof.
  intros A B R S l m H HF. induction HF as [|x y l m Hxy HF IH]; constructor.
  - apply H; [now left|auto].
  - apply IH. intros a b Ha. apply H. now right.
Qed.
Lemma Forall2_map : forall A B C D (f : A -> C) (g : B -> D) (R : C -> D -> Prop) l m,
  Forall2 (fun x y => R (f x) (g y)) l m -> Forall2 R (map f l) (map g m).
Proof. induction 1; constructor; auto. Qed.

Lemma no_named_sub : forall o y, no_named o -> (forall x, inside x y -> inside x o) -> no_named y.
Proof. intros o y H S x l Hx. apply H. auto. Qed.

Lemma b2u_converted : forall o r, no_named o -> b2u o = Ok r -> converted o r.
Proof.
  induction o as [b|t|l|l|l IH|l IH|l IH|l IH|l IH| |n] using pyo_ind'; intros r NN H;
    try (injection H as <-; constructor; fail).
  - cbn in H. destruct (decode b) as [t|] eqn:E; [|discriminate]. injection H as <-. now constructor.
  - cbn in H. destruct (astype_str l) as [ts|] eqn:E; [|discriminate]. injection H as <-. constructor. now apply astype_ok.
  - rewrite b2u_list in H. destruct (mapr b2u l) as [m|] eqn:E; [|discriminate]. injection H as <-. apply mapr_ok in E.
    constructor. eapply Forall2_weaken; [|exact E]. intros x y Hx Hy. rewrite Forall_forall in IH. apply IH; auto.
    eapply no_named_sub; [exact NN|]. intros z Hz. eapply in_list; eauto.
  - rewrite b2u_tuple in H. destruct (mapr b2u l) as [m|] eqn:E; [|discriminate]. injection H as <-. apply mapr_ok in E.
    constructor. eapply Forall2_weaken; [|exact E]. intros x y Hx Hy. rewrite Forall_forall in IH. apply IH; auto.
    eapply no_named_sub; [exact NN|]. intros z Hz. eapply in_tuple; eauto.
  - exfalso. apply (NN (ONamed l) l); [constructor|auto].
  - rewrite b2u_set in H. destruct (mapr b2u l) as [m|] eqn:E; [|discriminate]. injection H as <-. apply mapr_ok in E.
    assert (E' : Forall2 converted l m).
    { eapply Forall2_weaken; [|exact E]. intros x y Hx Hy. rewrite Forall_forall in IH. apply IH; auto.
      eapply no_named_sub; [exact NN|]. intros z Hz. eapply in_set; eauto. }
    constructor; [apply mkset_nodup| |].
    + intros x Hx. destruct (Forall2_in_l _ _ _ _ _ _ E' Hx) as (y & Hy & Hc). exists y. split; auto. now apply mkset_in.
    + intros y Hy. apply (proj1 (mkset_in m y)) in Hy. eapply Forall2_in_r; eauto.
  - rewrite b2u_dict in H. destruct (mapr b2u_pair l) as [m|] eqn:E; [|discriminate]. injection H as <-. apply mapr_ok in E.
    assert (E' : Forall2 (fun x y => converted (fst x) (fst y) /\ converted (snd x) (snd y)) l m).
    { eapply Forall2_weaken; [|exact E]. intros [k v] y Hx Hy. apply pair_ok in Hy as [Hk Hv].
      rewrite Forall_forall in IH. destruct (IH _ Hx) as [I1 I2]. split.
      - apply I1; auto. eapply no_named_sub; [exact NN|]. intros z Hz. eapply in_key; eauto.
      - apply I2; auto. eapply no_named_sub; [exact NN|]. intros z Hz. eapply in_value; eauto. }
    destruct (mkdict_spec m) as [N L].
    apply cv_dict with (e := m); auto; apply Forall2_map; eapply Forall2_weaken; [|exact E'| |exact E']; tauto.
Qed.

(** Converse of sorts: it works when everything can be decoded. *)
Lemma b2u_total : forall o, no_named o -> decodable decode o -> exists r, b2u o = Ok r.
Proof.
  assert (SD : forall o y, decodable decode o -> (forall x, inside x y -> inside x o) -> decodable decode y).
  { intros o y [A B] S. split; [intros b Hb; apply A; auto|intros l b Hl; apply B; auto]. }
  induction o as [b|t|l|l|l IH|l IH|l IH|l IH|l IH| |n] using pyo_ind'; intros NN DD;
    try (eexists; reflexivity).
  - destruct DD as [D _]. specialize (D b (in_self _)). cbn. destruct (decode b); [eauto|congruence].
  - destruct DD as [_ D]. specialize (D l). cbn.
    assert (T : exists ts, astype_str l = Ok ts).
    { specialize (fun b => D b (in_self _)). clear NN. induction l as [|b l IHl]; [eexists; reflexivity|].
      assert (Db : ascii_text b <> None) by (apply D; now left). cbn.
      destruct (ascii_text b); [|congruence]. destruct IHl as [ts ->]; [intros c Hc; apply D; now right|]. eexists; reflexivity. }
    destruct T as [ts ->]. eexists; reflexivity.
  - rewrite b2u_list. destruct (mapr_total _ _ b2u l) as [m ->]; [|eexists; reflexivity].
    intros x Hx. rewrite Forall_forall in IH. apply IH; auto.
    + eapply no_named_sub; [exact NN|]. intros z Hz. eapply in_list; eauto.
    + eapply SD; [exact DD|]. intros z Hz. eapply in_list; eauto.
  - rewrite b2u_tuple. destruct (mapr_total _ _ b2u l) as [m ->]; [|eexists; reflexivity].
    intros x Hx. rewrite Forall_forall in IH. apply IH; auto.
    + eapply no_named_sub; [exact NN|]. intros z Hz. eapply in_tuple; eauto.
    + eapply SD; [exact DD|]. intros z Hz. eapply in_tuple; eauto.
  - exfalso. apply (NN (ONamed l) l); [constructor|auto].
  - rewrite b2u_set. destruct (mapr_total _ _ b2u l) as [m ->]; [|eexists; reflexivity].
    intros x Hx. rewrite Forall_forall in IH. apply IH; auto.
    + eapply no_named_sub; [exact NN|]. intros z Hz. eapply in_set; eauto.
    + eapply SD; [exact DD|]. intros z Hz. eapply in_set; eauto.
  - rewrite b2u_dict. destruct (mapr_total _ _ b2u_pair l) as [m ->]; [|eexists; reflexivity].
    intros [k v] Hx. rewrite Forall_forall in IH. destruct (IH _ Hx) as [I1 I2]. cbn [fst snd] in *.
    destruct I1 as [k' Hk].
    { eapply no_named_sub; [exact NN|]. intros z Hz. eapply in_key; eauto. }
    { eapply SD; [exact DD|]. intros z Hz. eapply in_key; eauto. }
    destruct I2 as [v' Hv].
    { eapply no_named_sub; [exact NN|]. intros z Hz. eapply in_value; eauto. }
    { eapply SD; [exact DD|]. intros z Hz. eapply in_value; eauto. }
    exists (k', v'). now apply pair_ok.
Qed.

(** * Objects without byte strings *)
Lemma unchanged : forall o, no_named o -> proper_obj o -> no_bytes o -> b2u o = Ok o.
Proof.
  assert (SP : forall o y, proper_obj o -> (forall x, inside x y -> inside x o) -> proper_obj y).
  { intros o y [A B] S. split; [intros l Hl; apply A; auto|intros l Hl; apply B; auto]. }
  assert (SB : forall o y, no_bytes o -> (forall x, inside x y -> inside x o) -> no_bytes y).
  { intros o y A S x Hx. apply A; auto. }
  induction o as [b|t|l|l|l IH|l IH|l IH|l IH|l IH| |n] using pyo_ind'; intros NN PP BB; try reflexivity;
    try (exfalso; apply (BB _ (in_self _)); ((left; eexists; reflexivity) || (right; eexists; reflexivity))).
  - rewrite b2u_list, stable_list; [reflexivity|]. intros x Hx. rewrite Forall_forall in IH. apply IH; auto.
    + eapply no_named_sub; [exact NN|]. intros z Hz. eapply in_list; eauto.
    + eapply SP; [exact PP|]. intros z Hz. eapply in_list; eauto.
    + eapply SB; [exact BB|]. intros z Hz. eapply in_list; eauto.
  - rewrite b2u_tuple, stable_list; [reflexivity|]. intros x Hx. rewrite Forall_forall in IH. apply IH; auto.
    + eapply no_named_sub; [exact NN|]. intros z Hz. eapply in_tuple; eauto.
    + eapply SP; [exact PP|]. intros z Hz. eapply in_tuple; eauto.
    + eapply SB; [exact BB|]. intros z Hz. eapply in_tuple; eauto.
  - exfalso. apply (NN (ONamed l) l); [constructor|auto].
  - rewrite b2u_set, stable_list.
    + cbn. rewrite mkset_id; auto. apply PP. constructor.
    + intros x Hx. rewrite Forall_forall in IH. apply IH; auto.
      * eapply no_named_sub; [exact NN|]. intros z Hz. eapply in_set; eauto.
      * eapply SP; [exact PP|]. intros z Hz. eapply in_set; eauto.
      * eapply SB; [exact BB|]. intros z Hz. eapply in_set; eauto.
  - rewrite b2u_dict, stable_dict.
    + cbn. rewrite mkdict_id; auto. apply PP. constructor.
    + intros k v Hx. rewrite Forall_forall in IH. destruct (IH _ Hx) as [I1 I2]. cbn [fst snd] in *. split.
      * apply I1; [eapply no_named_sub; [exact NN|]|eapply SP; [exact PP|]|eapply SB; [exact BB|]]; intros z Hz; eapply in_key; eauto.
      * apply I2; [eapply no_named_sub; [exact NN|]|eapply SP; [exact PP|]|eapply SB; [exact BB|]]; intros z Hz; eapply in_value; eauto.
Qed.
End D.
