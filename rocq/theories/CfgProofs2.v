(** Lemmas for the validated property types. *)
From Coq Require Import String.
From Coq Require Import List Ascii Bool Arith ZArith QArith Lia.
From Verif Require Import PyBase PyStr MemModel MemProofs2 AttrProofs CopyProofs JsonProofs CfgModel CfgSpec CfgProofs.
Import ListNotations.
Open Scope list_scope.
Open Scope nat_scope.

Section Ind.
  Variable P : pyv -> Prop.
  Hypothesis HN : P VNone.
  Hypothesis HB : forall b, P (VBool b).
  Hypothesis HI : forall z, P (VInt z).
  Hypothesis HF : forall f, P (VFloat f).
  Hypothesis HS : forall s, P (VStr s).
  Hypothesis HL : forall l, Forall P l -> P (VList l).
  Hypothesis HT : forall l, Forall P l -> P (VTuple l).
  Hypothesis HD : forall l, Forall (fun kx => P (snd kx)) l -> P (VDict l).
  Fixpoint pyv_ind' (v : pyv) : P v :=
    match v with
    | VNone => HN
    | VBool b => HB b
    | VInt z => HI z
    | VFloat f => HF f
    | VStr s => HS s
    | VList l => HL l ((fix go l : Forall P l :=
        match l with [] => Forall_nil _ | x :: r => Forall_cons x (pyv_ind' x) (go r) end) l)
    | VTuple l => HT l ((fix go l : Forall P l :=
        match l with [] => Forall_nil _ | x :: r => Forall_cons x (pyv_ind' x) (go r) end) l)
    | VDict l => HD l ((fix go l : Forall (fun kx => P (snd kx)) l :=
        match l with [] => Forall_nil _ | kx :: r => Forall_cons kx (pyv_ind' (snd kx)) (go r) end) l)
    end.
End Ind.

Fixpoint eq_list (l m : list pyv) : bool :=
  match l, m with
  | [], [] => true
  | x :: l', y :: m' => py_eq x y && eq_list l' m'
  | _, _ => false
  end.
Fixpoint eq_dict (l m : list (str * pyv)) : bool :=
  match l with
  | [] => true
  | (k, x) :: l' => match dget k m with Some y => py_eq x y | None => false end && eq_dict l' m
  end.
Lemma py_eq_list : forall l m, py_eq (VList l) (VList m) = eq_list l m.
Proof. induction l as [|x l IH]; intros [|y m]; try reflexivity; cbn in *; now rewrite <- IH. Qed.
Lemma py_eq_tuple : forall l m, py_eq (VTuple l) (VTuple m) = eq_list l m.
Proof. induction l as [|x l IH]; intros [|y m]; try reflexivity; cbn in *; now rewrite <- IH. Qed.
Lemma py_eq_dict : forall l m, py_eq (VDict l) (VDict m) = (length l =? length m) && eq_dict l m.
Proof.
  intros l m. cbn. f_equal. induction l as [|[k x] l IH]; [reflexivity|]. cbn. now rewrite <- IH.
Qed.
Lemma eq_list_same : forall l, Forall (fun a => forall b, py_eq a b = true <-> same a b) l ->
  forall m, eq_list l m = true <-> Forall2 same l m.
Proof.
  induction 1 as [|x l Hx Hl IH]; intros [|y m]; cbn; split; intros H; try discriminate; try constructor;
    try (inversion H; subst; fail); auto.
  - apply andb_true_iff in H as [H1 H2]. now apply Hx.
  - apply andb_true_iff in H as [H1 H2]. now apply IH.
  - inversion H; subst. apply andb_true_iff. split; [now apply Hx|now apply IH].
Qed.
Lemma eq_dict_same : forall m l, Forall (fun kx : str * pyv => forall b, py_eq (snd kx) b = true <-> same (snd kx) b) l ->
  eq_dict l m = true <-> Forall (fun kx => exists y, dget (fst kx) m = Some y /\ same (snd kx) y) l.
Proof.
  intros m l. induction 1 as [|[k x] l Hx Hl IH]; cbn; [split; auto|].
  rewrite andb_true_iff, IH. cbn in Hx. split.
  - intros [H1 H2]. constructor; auto. cbn. destruct (dget k m) as [y|]; [|discriminate].
    exists y. split; auto. now apply Hx.
  - intros H. inversion H as [|a b (y & Hy & Hs) Hf]; subst. cbn in Hy, Hs. rewrite Hy.
    split; auto. now apply Hx.
Qed.

Lemma flt_eq_same : forall x y a b, number a = Some x -> number b = Some y ->
  flt_eq x y = true <-> same a b.
Proof.
  intros x y a b Ha Hb. split.
  - intros H. destruct x as [|n|p], y as [|m|q]; cbn in H; try discriminate.
    + apply Bool.eqb_prop in H. subst m. destruct a, b; cbn in Ha, Hb; try discriminate.
      injection Ha as ->. injection Hb as ->. constructor.
    + apply Qeq_bool_iff in H. eapply same_num; eauto.
  - intros H. destruct H; cbn in Ha, Hb; try discriminate.
    + rewrite H in Ha. rewrite H0 in Hb. injection Ha as <-. injection Hb as <-. cbn. now apply Qeq_bool_iff.
    + injection Ha as <-. injection Hb as <-. cbn. now destruct n.
Qed.

Lemma same_number : forall a b, same a b -> (number a = None <-> number b = None).
Proof. destruct 1; cbn; try tauto. rewrite H, H0. split; discriminate. Qed.

Lemma py_eq_same : forall a b, py_eq a b = true <-> same a b.
Proof.
  assert (N : forall a b, number a <> None \/ number b <> None ->
                (py_eq a b = true <-> exists x y, number a = Some x /\ number b = Some y /\ flt_eq x y = true)).
  { intros a b H. destruct a, b; cbn; split; intros E;
      try (destruct E as (x & y & Ex & Ey & E)); try congruence; try discriminate;
      try (do 2 eexists; repeat split; eauto; fail);
      try (injection Ex as <-; injection Ey as <-; auto; fail);
      cbn in H; destruct H as [H|H]; congruence. }
  assert (NS : forall a b, number a <> None \/ number b <> None -> (py_eq a b = true <-> same a b)).
  { intros a b H. rewrite (N a b H). split.
    - intros (x & y & Hx & Hy & E). eapply flt_eq_same; eauto.
    - intros S. pose proof (same_number _ _ S) as SN.
      destruct (number a) as [x|] eqn:Ea, (number b) as [y|] eqn:Eb.
      + exists x, y. repeat split; auto. eapply flt_eq_same; eauto.
      + exfalso. destruct SN as [_ SN]. specialize (SN eq_refl). discriminate.
      + exfalso. destruct SN as [SN _]. specialize (SN eq_refl). discriminate.
      + exfalso. destruct H; congruence. }
  induction a as [|bb|z|f|s|l IH|l IH|l IH] using pyv_ind'; intros b;
    try (apply NS; left; discriminate);
    destruct b as [|b'|z'|f'|s'|m|m|m]; try (apply NS; right; discriminate);
    try (split; intros H; [discriminate|inversion H; subst; discriminate]).
  - split; [constructor|reflexivity].
  - cbn. rewrite seqb_eq. split; [intros ->; constructor|]. intros H; inversion H; subst; auto. discriminate.
  - rewrite py_eq_list, (eq_list_same _ IH). split; [constructor; auto|].
    intros H; inversion H; subst; auto. discriminate.
  - rewrite py_eq_tuple, (eq_list_same _ IH). split; [constructor; auto|].
    intros H; inversion H; subst; auto. discriminate.
  - rewrite py_eq_dict, andb_true_iff, Nat.eqb_eq, (eq_dict_same _ _ IH). split.
    + intros [A B]. now constructor.
    + intros H; inversion H; subst; auto. discriminate.
Qed.

Lemma in_options : forall v options, existsb (py_eq v) options = true <-> exists o, In o options /\ same v o.
Proof.
  intros v options. rewrite existsb_exists. split; intros (o & H1 & H2); exists o; split; auto; now apply py_eq_same.
Qed.

(** * Ranges *)
Lemma flt_lt_le : forall a b, a <> FNan -> b <> FNan -> (flt_lt a b = false <-> flt_le b a).
Proof.
  intros [|n|p] [|m|q] Ha Hb; try congruence; try (destruct n); try (destruct m); cbn; split; intros H;
    try discriminate; try tauto; auto.
  - apply negb_false_iff in H. now apply Qle_bool_iff.
  - apply negb_false_iff. now apply Qle_bool_iff.
Qed.

(** * Lists *)
Lemma items_ok : forall types l, types <> [] ->
  (match types with [] => false | _ => existsb (fun x => negb (existsb (isinstance x) types)) l end = false
   <-> forall x, In x l -> exists t, In t types /\ isinstance x t = true).
Proof.
  intros types l Ht. destruct types as [|t0 ts]; [congruence|]. remember (t0 :: ts) as types. clear Heqtypes t0 ts Ht.
  split.
  - intros H x Hx. destruct (existsb (isinstance x) types) eqn:E; [now apply existsb_exists|].
    assert (X : existsb (fun x => negb (existsb (isinstance x) types)) l = true).
    { apply existsb_exists. exists x. now rewrite E. }
    congruence.
  - intros H. destruct (existsb _ l) eqn:E; auto. apply existsb_exists in E as (x & Hx & Hn).
    apply H in Hx. apply existsb_exists in Hx. now rewrite Hx in Hn.
Qed.

(** * Log levels *)
Lemma check_levels_ok : forall l acc, NoDup (map fst (acc ++ l)) ->
  (forall r, check_levels l acc = Ok r ->
     exists ls, map snd l = map VStr ls /\ Forall (fun s => In (upper s) loglevels) ls /\
       r = acc ++ combine (map fst l) (map (fun s => VStr (upper s)) ls)) /\
  (forall ls, map snd l = map VStr ls -> Forall (fun s => In (upper s) loglevels) ls ->
     check_levels l acc = Ok (acc ++ combine (map fst l) (map (fun s => VStr (upper s)) ls))).
Proof.
  induction l as [|[k v] l IH]; intros acc N.
  - cbn. split.
    + intros r H. injection H as <-. exists []. rewrite app_nil_r. auto.
    + intros [|] H _; [|discriminate]. now rewrite app_nil_r.
  - assert (D : forall v', dput k v' acc = acc ++ [(k, v')]).
    { intros v'. apply dput_new. rewrite map_app in N. cbn in N. apply NoDup_remove_2 in N.
      intros H. apply N. apply in_or_app. now left. }
    assert (N' : forall v', NoDup (map fst ((acc ++ [(k, v')]) ++ l))).
    { intros v'. rewrite <- app_assoc. cbn. rewrite map_app in *. exact N. }
    split.
    + intros r H. cbn [check_levels] in H. destruct v as [| | | |s| | |]; try discriminate.
      destruct (mem (upper s) loglevels) eqn:E; [|discriminate]. rewrite D in H.
      destruct (IH _ (N' (VStr (upper s)))) as [A _]. destruct (A r H) as (ls & E1 & E2 & ->).
      exists (s :: ls). cbn [map snd fst combine]. rewrite E1. split; auto. split; [constructor; auto; now apply mem_in|].
      now rewrite <- app_assoc.
    + intros [|s ls] E1 E2; cbn in E1; [discriminate|]. injection E1 as -> E1.
      inversion E2 as [|a b Ea Eb]; subst. cbn [check_levels].
      rewrite (proj2 (mem_in _ _) Ea), D.
      destruct (IH _ (N' (VStr (upper s)))) as [_ B]. rewrite (B ls E1 Eb). cbn. now rewrite <- app_assoc.
Qed.
Lemma check_levels_err : forall l acc e, check_levels l acc = Err e -> 
  (exists k s, In (k, VStr s) l /\ ~ In (upper s) loglevels /\ e = ValueError) \/
  (exists k v, In (k, v) l /\ (forall s, v <> VStr s) /\ e = AttributeError).
Proof.
  induction l as [|[k v] l IH]; intros acc e H; [discriminate|]. cbn [check_levels] in H.
  destruct v as [| | | |s| | |];
    try (injection H as <-; right; do 2 eexists; split; [now left|]; split; [discriminate|auto]; fail).
  destruct (mem (upper s) loglevels) eqn:E.
  - destruct (IH _ _ H) as [(k' & s' & A & B & C)|(k' & v' & A & B & C)].
    + left. exists k', s'. split; [now right|auto].
    + right. exists k', v'. split; [now right|auto].
  - injection H as <-. left. exists k, s. split; [now left|]. split; auto.
    intros Hin. apply mem_in in Hin. congruence.
Qed.
Lemma upper_level : forall s, In s loglevels -> upper s = s.
Proof. intros s H. cbn in H. repeat destruct H as [<-|H]; try reflexivity. destruct H. Qed.
