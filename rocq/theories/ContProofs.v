(** Lemmas for containers: order of names, dictionaries, inheritance. *)
From Coq Require Import String.
From Coq Require Import List Ascii Bool Arith ZArith Lia Sorting.Sorted Permutation.
From Verif Require Import PyBase PyStr MemModel MemProofs2 AttrModel AttrProofs CopyProofs ContModel ContSpec.
Import ListNotations.
Open Scope list_scope.
Open Scope nat_scope.

(** * The order *)
Lemma code_inj : forall x y, nat_of_ascii x = nat_of_ascii y -> x = y.
Proof. intros x y H. rewrite <- (ascii_nat_embedding x), <- (ascii_nat_embedding y). now rewrite H. Qed.
Lemma sleb_total : forall a b, sleb a b = true \/ sleb b a = true.
Proof.
  induction a as [|x a IH]; intros [|y b]; cbn [sleb]; auto.
  destruct (Nat.ltb_spec (nat_of_ascii x) (nat_of_ascii y)); auto.
  destruct (Nat.ltb_spec (nat_of_ascii y) (nat_of_ascii x)); auto.
Qed.
Lemma sleb_trans : forall a b c, sleb a b = true -> sleb b c = true -> sleb a c = true.
Proof.
  induction a as [|x a IH]; intros [|y b] [|z c]; cbn [sleb]; auto; try discriminate.
  destruct (Nat.ltb_spec (nat_of_ascii x) (nat_of_ascii y)); destruct (Nat.ltb_spec (nat_of_ascii y) (nat_of_ascii z));
  destruct (Nat.ltb_spec (nat_of_ascii x) (nat_of_ascii z)); auto; try lia;
  destruct (Nat.ltb_spec (nat_of_ascii y) (nat_of_ascii x)); try lia; try discriminate;
  destruct (Nat.ltb_spec (nat_of_ascii z) (nat_of_ascii y)); try lia; try discriminate;
  destruct (Nat.ltb_spec (nat_of_ascii z) (nat_of_ascii x)); try lia; try discriminate; eauto.
Qed.
Lemma sleb_before : forall a b, sleb a b = true -> a = b \/ before a b.
Proof.
  induction a as [|x a IH]; intros [|y b] H; cbn [sleb] in H; try discriminate; auto.
  - right. constructor.
  - destruct (Nat.ltb_spec (nat_of_ascii x) (nat_of_ascii y)); [right; now constructor|].
    destruct (Nat.ltb_spec (nat_of_ascii y) (nat_of_ascii x)); [discriminate|].
    assert (x = y) by (apply code_inj; lia). subst y. destruct (IH _ H) as [->|B]; [now left|right; now apply B_next].
Qed.
Lemma before_irrefl : forall a, ~ before a a.
Proof. induction a as [|x a IH]; intros H; inversion H; subst; [lia|auto]. Qed.
Lemma before_trans : forall a b c, before a b -> before b c -> before a c.
Proof.
  intros a b c H. revert c. induction H as [y s|x y a b H|x a b H IH]; intros c K; inversion K; subst.
  - constructor.
  - constructor.
  - apply B_char. lia.
  - now apply B_char.
  - now apply B_char.
  - apply B_next. auto.
Qed.
Lemma listed_nodup : forall l, listed l -> NoDup l.
Proof.
  induction 1 as [|x l H IH F]; constructor; auto. intros K. rewrite Forall_forall in F. exact (before_irrefl x (F x K)).
Qed.
Lemma sort_listed : forall l, NoDup l -> listed (sort_names l).
Proof.
  intros l N. unfold sort_names. pose proof (py_sorted_sorted sleb sleb_total sleb_trans l) as S.
  apply (Permutation_NoDup (py_sorted_perm sleb l)) in N. revert N. induction S as [|x r S IH F]; intros N; constructor.
  - apply IH. now inversion N.
  - inversion N; subst. rewrite Forall_forall in *. intros y Hy. destruct (sleb_before x y (F y Hy)) as [->|B]; [contradiction|exact B].
Qed.
Lemma listed_ext : forall l l', listed l -> listed l' -> (forall x, In x l <-> In x l') -> l = l'.
Proof.
  induction l as [|x l IH]; intros [|y l'] H H' E; auto.
  - destruct (proj2 (E y) (or_introl eq_refl)).
  - destruct (proj1 (E x) (or_introl eq_refl)).
  - inversion H as [|? ? S F]; inversion H' as [|? ? S' F']; subst. rewrite Forall_forall in F, F'.
    assert (x = y).
    { destruct (proj1 (E x) (or_introl eq_refl)) as [->|K]; auto. destruct (proj2 (E y) (or_introl eq_refl)) as [->|K']; auto.
      destruct (before_irrefl x). exact (before_trans _ _ _ (F _ K') (F' _ K)). }
    subst y. f_equal. apply IH; auto. intros z. split; intros K.
    + destruct (proj1 (E z) (or_intror K)) as [<-|K']; auto. destruct (before_irrefl x). auto.
    + destruct (proj2 (E z) (or_intror K)) as [<-|K']; auto. destruct (before_irrefl x). auto.
Qed.
Lemma in_sort : forall x l, In x (sort_names l) <-> In x l.
Proof.
  intros x l. split; apply Permutation_in; [apply Permutation_sym|]; apply py_sorted_perm.
Qed.

(** * Dictionaries *)
Section Dicts.
Context {V : Type}.
Implicit Types d e : list (str * V).
Lemma dget_none : forall k d, dget k d = None <-> ~ In k (map fst d).
Proof.
  intros k d. split.
  - intros H K. apply dget_in in K as [v K]. congruence.
  - intros H. destruct (dget k d) as [v|] eqn:E; auto. destruct H. apply dget_in. eauto.
Qed.
Lemma dget_iff : forall k v d, NoDup (map fst d) -> (dget k d = Some v <-> In (k, v) d).
Proof. intros k v d N. split; [apply dget_elem|now apply dget_nodup]. Qed.
Lemma dput_keys : forall k v d x, In x (map fst (dput k v d)) <-> x = k \/ In x (map fst d).
Proof.
  intros k v d x. rewrite !dget_in. split.
  - intros [w H]. destruct (str_eq_dec x k) as [->|N]; auto. rewrite dget_dput_other in H by auto. eauto.
  - intros [->|[w H]]; [rewrite dget_dput_same; eauto|].
    destruct (str_eq_dec x k) as [->|N]; [rewrite dget_dput_same; eauto|]. rewrite dget_dput_other by auto. eauto.
Qed.
Lemma dput_nodup : forall k v d, NoDup (map fst d) -> NoDup (map fst (dput k v d)).
Proof.
  induction d as [|[k' v'] d IH]; intros N; cbn [dput map fst].
  - repeat constructor. auto.
  - inversion N; subst. destruct (seqb k k') eqn:E; cbn [map fst]; constructor; auto.
    rewrite dput_keys. intros [->|K]; auto. apply seqb_neq in E. auto.
Qed.
Lemma update_nodup : forall e d, NoDup (map fst d) -> NoDup (map fst (update d e)).
Proof. unfold update. induction e as [|[k v] e IH]; intros d N; cbn [fold_left]; auto. apply IH. now apply dput_nodup. Qed.
Lemma dget_update : forall e d k, NoDup (map fst e) ->
  dget k (update d e) = match dget k e with Some v => Some v | None => dget k d end.
Proof.
  unfold update. induction e as [|[x v] e IH]; intros d k N; cbn [fold_left dget fst snd]; auto.
  inversion N as [|? ? Hx Ne]; subst. rewrite IH by auto. cbn [dget]. destruct (seqb k x) eqn:E.
  - apply seqb_eq in E. subst x. rewrite (proj2 (dget_none k e) Hx). apply dget_dput_same.
  - apply seqb_neq in E. destruct (dget k e); auto. now apply dget_dput_other.
Qed.
Lemma sort_dict_keys : forall d, map fst (sort_dict d) = sort_names (map fst d).
Proof.
  intros d. unfold sort_dict.
  assert (G : forall l, incl l (map fst d) -> map fst (flat_map (fun k => match dget k d with Some v => [(k, v)] | None => [] end) l) = l).
  { induction l as [|k l IH]; intros I; cbn [flat_map]; auto. rewrite map_app, IH; [|intros x Hx; apply I; now right].
    destruct (proj1 (dget_in _ k d) (I k (or_introl eq_refl))) as [v ->]. reflexivity. }
  apply G. intros x. apply in_sort.
Qed.
Lemma dget_sort_dict : forall d k, NoDup (map fst d) -> dget k (sort_dict d) = dget k d.
Proof.
  intros d k N. assert (K : NoDup (map fst (sort_dict d))) by (rewrite sort_dict_keys; apply listed_nodup, sort_listed, N).
  destruct (dget k d) as [v|] eqn:E.
  - apply dget_iff; auto. unfold sort_dict. apply in_flat_map. exists k. split.
    + apply in_sort. apply dget_in. eauto.
    + rewrite E. now left.
  - apply dget_none. rewrite sort_dict_keys, in_sort. now apply dget_none.
Qed.
(** Two sorted dictionaries with the same content are the same. *)
Lemma sort_dict_ext : forall d e, NoDup (map fst d) -> NoDup (map fst e) -> (forall k, dget k d = dget k e) -> sort_dict d = sort_dict e.
Proof.
  intros d e N M H. unfold sort_dict.
  assert (E : sort_names (map fst d) = sort_names (map fst e)).
  { apply listed_ext; try (now apply sort_listed). intros x. rewrite !in_sort, !dget_in. split; intros [v Hv]; exists v; congruence. }
  rewrite E. clear E. induction (sort_names (map fst e)) as [|k l IH]; cbn [flat_map]; auto. now rewrite IH, H.
Qed.
End Dicts.

(** * Sets *)
Lemma mem_name_in : forall x l, mem_name x l = true <-> In x l.
Proof.
  intros x l. unfold mem_name. rewrite existsb_exists. split.
  - intros (y & Hy & E). apply seqb_eq in E. now subst.
  - intros H. exists x. split; auto. apply seqb_refl.
Qed.
Lemma union_in : forall b a x, In x (union a b) <-> In x a \/ In x b.
Proof.
  unfold union. induction b as [|y b IH]; intros a x; cbn [fold_left In]; [tauto|]. rewrite IH.
  destruct (mem_name y a) eqn:E.
  - apply mem_name_in in E. split; [tauto|]. intros [H|[->|H]]; auto.
  - rewrite in_app_iff. cbn [In]. tauto.
Qed.
Lemma nodup_snoc : forall (A : Type) (a : list A) y, NoDup a -> ~ In y a -> NoDup (a ++ [y]).
Proof. intros A a y N H. apply NoDup_Add with (a := y) (l := a); [|now split]. rewrite <- (app_nil_r a) at 1. apply Add_app. Qed.
Lemma union_nodup : forall b a, NoDup a -> NoDup (union a b).
Proof.
  unfold union. induction b as [|y b IH]; intros a N; cbn [fold_left]; auto. apply IH.
  destruct (mem_name y a) eqn:E; auto. apply nodup_snoc; auto. intros K. apply mem_name_in in K. congruence.
Qed.

(** * Inheritance *)
Section Classes.
Context {D : Type}.
Variable env : nat -> @cls D.
Variable mro : nat -> list nat.
Hypothesis M : mro_ok mro.
Hypothesis S0 : specs_ok env.

Lemma first_some_in : forall (A : Type) (f : nat -> option A) l x, first_some f l = Some x -> exists k, In k l /\ f k = Some x.
Proof.
  induction l as [|k l IH]; intros x H; cbn [first_some] in H; [discriminate|]. destruct (f k) as [y|] eqn:E.
  - injection H as <-. exists k. split; auto. now left.
  - destruct (IH _ H) as (k' & I & K). exists k'. split; auto. now right.
Qed.
Lemma attr_nodup : forall k e, spec_attr env mro k = Some e -> NoDup (map fst e).
Proof. intros k e H. apply first_some_in in H as (k' & _ & H). eauto. Qed.

Definition merged (l : list nat) : list (str * D) :=
  fold_left (fun d k => match spec_attr env mro k with Some e => update d e | None => d end) l [].
Lemma merged_app : forall l k, merged (l ++ [k]) =
  match spec_attr env mro k with Some e => update (merged l) e | None => merged l end.
Proof. intros. unfold merged. now rewrite fold_left_app. Qed.
Lemma merged_nodup : forall l, NoDup (map fst (merged l)).
Proof.
  intros l. rewrite <- (rev_involutive l). induction (rev l) as [|k r IH]; cbn [rev]; [constructor|]. rewrite merged_app.
  destruct (spec_attr env mro k); auto. now apply update_nodup.
Qed.
(** The first class of the order whose attribute has the name. *)
Fixpoint first_decl (f : nat -> option (list (str * D))) (n : str) (l : list nat) : option D :=
  match l with
  | [] => None
  | k :: r => match f k with
              | Some e => match dget n e with Some v => Some v | None => first_decl f n r end
              | None => first_decl f n r
              end
  end.
Lemma dget_merged : forall l n, dget n (merged (rev l)) = first_decl (spec_attr env mro) n l.
Proof.
  induction l as [|k l IH]; intros n; cbn [rev first_decl]; [reflexivity|]. rewrite merged_app.
  destruct (spec_attr env mro k) as [e|] eqn:E; auto. rewrite dget_update by (eapply attr_nodup; eauto). destruct (dget n e); auto.
Qed.
Lemma class_spec_merged : forall c, class_spec env mro c = sort_dict (merged (rev (mro c))).
Proof. reflexivity. Qed.
Lemma dget_class_spec : forall c n, dget n (class_spec env mro c) = first_decl (spec_attr env mro) n (mro c).
Proof. intros. rewrite class_spec_merged, dget_sort_dict by apply merged_nodup. apply dget_merged. Qed.
Lemma class_spec_listed : forall c, listed (map fst (class_spec env mro c)).
Proof. intros. rewrite class_spec_merged, sort_dict_keys. apply sort_listed, merged_nodup. Qed.

Lemma first_decl_some : forall f n l v, first_decl f n l = Some v -> exists k e, In k l /\ f k = Some e /\ dget n e = Some v.
Proof.
  induction l as [|k l IH]; intros v H; cbn [first_decl] in H; [discriminate|].
  destruct (f k) as [e|] eqn:E; [destruct (dget n e) as [w|] eqn:G|].
  - injection H as <-. exists k, e. repeat split; auto. now left.
  - destruct (IH _ H) as (k' & e' & I & H1 & H2). exists k', e'. repeat split; auto. now right.
  - destruct (IH _ H) as (k' & e' & I & H1 & H2). exists k', e'. repeat split; auto. now right.
Qed.
Lemma first_decl_none : forall f n l, first_decl f n l = None -> forall k e, In k l -> f k = Some e -> dget n e = None.
Proof.
  induction l as [|k l IH]; intros H k' e' I Hf; cbn [first_decl] in H; [destruct I|].
  destruct I as [<-|I].
  - rewrite Hf in H. destruct (dget n e'); [discriminate|reflexivity].
  - destruct (f k) as [e|]; [destruct (dget n e); [discriminate|]|]; eauto.
Qed.
(** A class that defines the attribute looks it up on itself. *)
Lemma attr_own : forall k e, c_spec (env k) = Some e -> spec_attr env mro k = Some e.
Proof. intros k e H. unfold spec_attr. destruct (M k) as ([r ->] & _). cbn [first_some]. now rewrite H. Qed.

Lemma class_spec_names : forall c n, In n (map fst (class_spec env mro c)) <-> exists k v, In k (mro c) /\ declares env k n v.
Proof.
  intros c n. rewrite dget_in. setoid_rewrite dget_class_spec. split.
  - intros [v H]. apply first_decl_some in H as (k & e & I & H & G). apply first_some_in in H as (k' & I' & H).
    exists k', v. split.
    + destruct (M c) as (_ & _ & K). exact (K k I k' I').
    + exists e. split; auto. now apply dget_elem.
  - intros (k & v & I & e & H & G). destruct (first_decl (spec_attr env mro) n (mro c)) as [w|] eqn:E; [eauto|].
    pose proof (first_decl_none _ _ _ E k e I (attr_own _ _ H)) as K. apply (dget_nodup _ e n v) in G; [congruence|eauto].
Qed.

Lemma first_decl_own : forall l n v, first_decl (fun k => c_spec (env k)) n l = Some v -> most_derived env l n v.
Proof.
  induction l as [|k l IH]; intros n v H; cbn [first_decl] in H; [discriminate|].
  assert (R : first_decl (fun k => c_spec (env k)) n l = Some v -> (forall v', ~ declares env k n v') -> most_derived env (k :: l) n v).
  { intros H' N. destruct (IH _ _ H') as (p & k' & q & -> & Hd & Hp). exists (k :: p), k', q. split; [reflexivity|]. split; auto.
    intros k2 v2 [<-|I]; eauto. }
  destruct (c_spec (env k)) as [e|] eqn:E; [destruct (dget n e) as [w|] eqn:G|].
  - injection H as <-. exists [], k, l. split; [reflexivity|]. split; [exists e; split; auto; now apply dget_elem|]. intros ? ? [].
  - apply R; auto. intros v' (e' & H1 & H2). rewrite E in H1. injection H1 as <-. apply dget_none in G. apply G. exact (in_map fst _ _ H2).
  - apply R; auto. intros v' (e' & H1 & H2). congruence.
Qed.
Lemma most_derived_own : forall l n v, most_derived env l n v -> first_decl (fun k => c_spec (env k)) n l = Some v.
Proof.
  intros l n v (p & k & q & -> & (d & Hk & Hi) & Hp). induction p as [|x p IH]; cbn [app first_decl].
  - rewrite Hk. now rewrite (dget_nodup _ d n v (S0 _ _ Hk) Hi).
  - rewrite IH by (intros; apply Hp; now right). destruct (c_spec (env x)) as [e|] eqn:E; auto.
    destruct (dget n e) as [w|] eqn:G; auto. destruct (Hp x w (or_introl eq_refl)). exists e. split; auto. now apply dget_elem.
Qed.

(** With single inheritance, and wherever each class has its own specification. *)
Definition resolves (c : nat) : Prop := forall k, In k (mro c) -> c_spec (env k) = None -> exists p, mro c = p ++ mro k.
Lemma suffix_eq : forall (l : list nat) p1 q1 p2 q2 x, NoDup l -> l = p1 ++ x :: q1 -> l = p2 ++ x :: q2 -> q1 = q2.
Proof.
  intros l p1. revert l. induction p1 as [|y p1 IH]; intros l q1 p2 q2 x N -> E.
  - destruct p2 as [|z p2]; cbn [app] in *; [now injection E|]. injection E as E1 E2. subst z q1. inversion N as [|? ? K _]; subst. destruct K.
    apply in_or_app. right. now left.
  - destruct p2 as [|z p2]; cbn [app] in *; injection E as E1 E2.
    + subst y q2. inversion N as [|? ? K _]; subst. destruct K. apply in_or_app. right. now left.
    + subst z. inversion N; subst. eapply (IH _ q1 p2 q2 x); eauto.
Qed.
Lemma first_some_decl : forall l e n v, first_some (fun k => c_spec (env k)) l = Some e -> dget n e = Some v ->
  first_decl (fun k => c_spec (env k)) n l = Some v.
Proof.
  induction l as [|k l IH]; intros e n v H G; cbn [first_some first_decl] in *; [discriminate|].
  destruct (c_spec (env k)) as [e'|] eqn:E; eauto. injection H as ->. now rewrite G.
Qed.
Lemma resolve_same : forall c, resolves c -> forall n p l, mro c = p ++ l ->
  first_decl (spec_attr env mro) n l = first_decl (fun k => c_spec (env k)) n l.
Proof.
  intros c R n p l. revert p. induction l as [|k l IH]; intros p E; [reflexivity|].
  assert (IH' : first_decl (spec_attr env mro) n l = first_decl (fun k => c_spec (env k)) n l).
  { apply (IH (p ++ [k])). now rewrite <- app_assoc. }
  destruct (c_spec (env k)) as [e|] eqn:Ek.
  - cbn [first_decl]. rewrite (attr_own _ _ Ek), Ek, IH'. reflexivity.
  - assert (I : In k (mro c)) by (rewrite E; apply in_or_app; right; now left).
    destruct (R k I Ek) as [p' E']. destruct (M k) as ([r Er] & _). rewrite Er in E'.
    destruct (M c) as (_ & N & _). pose proof (suffix_eq _ _ _ _ _ _ N E E') as Q. subst r.
    assert (A : spec_attr env mro k = first_some (fun k => c_spec (env k)) (k :: l)) by (unfold spec_attr; now rewrite Er).
    cbn [first_decl]. rewrite IH'. destruct (spec_attr env mro k) as [e|] eqn:F; [|now rewrite Ek].
    destruct (dget n e) as [v|] eqn:G; [|now rewrite Ek]. symmetry.
    exact (first_some_decl (k :: l) e n v (eq_sym A) G).
Qed.
End Classes.

(** Declarations in another order. *)
Section Order.
Context {D : Type}.
Variables env env' : nat -> @cls D.
Variable mro : nat -> list nat.
Definition reordered : Prop := forall k,
  match c_spec (env k), c_spec (env' k) with
  | Some d, Some d' => Permutation d d'
  | None, None => True
  | _, _ => False
  end.
Hypothesis S0 : specs_ok env.
Hypothesis R : reordered.
Lemma reordered_ok : specs_ok env'.
Proof.
  intros k d' H. specialize (R k). rewrite H in R. destruct (c_spec (env k)) as [d|] eqn:E; [|contradiction].
  exact (Permutation_NoDup (Permutation_map fst R) (S0 k d E)).
Qed.
Lemma reordered_attr : forall l n,
  match first_some (fun k => c_spec (env k)) l, first_some (fun k => c_spec (env' k)) l with
  | Some d, Some d' => dget n d = dget n d'
  | None, None => True
  | _, _ => False
  end.
Proof.
  induction l as [|k l IH]; intros n; cbn [first_some]; auto. specialize (R k).
  destruct (c_spec (env k)) as [d|] eqn:E; destruct (c_spec (env' k)) as [d'|]; try contradiction.
  - apply dget_perm; auto. eauto.
  - apply IH.
Qed.
Lemma reordered_decl : forall l n, first_decl (spec_attr env mro) n l = first_decl (spec_attr env' mro) n l.
Proof.
  induction l as [|k l IH]; intros n; cbn [first_decl]; auto. pose proof (reordered_attr (mro k) n) as A.
  unfold spec_attr in *. destruct (first_some _ (mro k)); destruct (first_some _ (mro k)); try contradiction; rewrite ?A, ?IH; auto.
Qed.
Lemma reordered_spec : forall c, class_spec env mro c = class_spec env' mro c.
Proof.
  intros c. rewrite !class_spec_merged. apply sort_dict_ext; try apply merged_nodup; auto.
  intros k. rewrite !dget_merged; auto using reordered_ok. apply reordered_decl.
Qed.
End Order.

(** * Axes *)
Section Axes.
Context {D : Type}.
Variable env : nat -> @cls D.
Variable mro : nat -> list nat.
Hypothesis M : mro_ok mro.
Definition gathered (l : list nat) : list str :=
  fold_left (fun s k => match axes_attr env mro k with Some l => union s l | None => s end) l [].
Lemma gathered_app : forall l k, gathered (l ++ [k]) =
  match axes_attr env mro k with Some a => union (gathered l) a | None => gathered l end.
Proof. intros. unfold gathered. now rewrite fold_left_app. Qed.
Lemma gathered_ok : forall l, NoDup (gathered (rev l)) /\
  forall a, In a (gathered (rev l)) <-> exists k s, In k l /\ axes_attr env mro k = Some s /\ In a s.
Proof.
  induction l as [|k l [N IH]]; cbn [rev].
  - split; [constructor|]. intros a. split; [intros []|]. intros (k & s & [] & _).
  - rewrite gathered_app. destruct (axes_attr env mro k) as [s|] eqn:E.
    + split; [now apply union_nodup|]. intros a. rewrite union_in, IH. split.
      * intros [(k' & s' & I & H)|H]; [exists k', s'; cbn [In]; tauto|exists k, s; cbn [In]; auto].
      * intros (k' & s' & [<-|I] & H & H'); [right; congruence|left; eauto].
    + split; auto. intros a. rewrite IH. split; intros (k' & s' & I & H & H').
      * exists k', s'. cbn [In]; auto.
      * destruct I as [<-|I]; [congruence|eauto].
Qed.
Lemma class_axes_listed : forall c, listed (class_axes env mro c).
Proof. intros c. apply sort_listed. apply gathered_ok. Qed.
Lemma class_axes_in : forall c a, In a (class_axes env mro c) <-> exists k, In k (mro c) /\ has_axis env k a.
Proof.
  intros c a. unfold class_axes. rewrite in_sort. fold (gathered (rev (mro c))). rewrite (proj2 (gathered_ok (mro c)) a). split.
  - intros (k & s & I & H & Ha). apply first_some_in in H as (k' & I' & H). exists k'. split.
    + destruct (M c) as (_ & _ & K). exact (K k I k' I').
    + exists s. auto.
  - intros (k & I & s & H & Ha). exists k, s. repeat split; auto. unfold axes_attr. destruct (M k) as ([r ->] & _). cbn [first_some]. now rewrite H.
Qed.
Lemma axes_in : forall c inst a, In a (axes env mro c inst) <-> In a (class_axes env mro c) \/ In a inst.
Proof. intros. unfold axes. rewrite in_sort, !union_in. cbn [In]. tauto. Qed.
Lemma axes_listed : forall c inst, listed (axes env mro c inst).
Proof. intros. apply sort_listed. repeat apply union_nodup. constructor. Qed.
End Axes.
