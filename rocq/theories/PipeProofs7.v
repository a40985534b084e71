(** The choice of the next task, output counts, validation, signatures. *)
From Coq Require Import List Bool Arith ZArith Lia Permutation Sorted.
From Verif Require Import PyBase PyStr PipeModel PipeSpec PipeProofs PipeProofs2 PipeProofs3 PipeProofs4 PipeProofs5.
Import ListNotations.
Open Scope list_scope.
Open Scope nat_scope.

(** ** The first of the largest *)
Section Sort.
Context {A : Type} (leb : A -> A -> bool).
Hypothesis leb_total : forall x y, leb x y = true \/ leb y x = true.
Hypothesis leb_trans : forall x y z, leb x y = true -> leb y z = true -> leb x z = true.

Lemma insert_last : forall s x m, sort_insert leb x (s ++ [m]) =
  (if existsb (leb x) (s ++ [m]) then removelast (sort_insert leb x (s ++ [m])) ++ [m]
   else (s ++ [m]) ++ [x]).
Proof.
  induction s as [|y s IH]; intros x m; cbn [app sort_insert existsb].
  - destruct (leb x m); reflexivity.
  - destruct (leb x y) eqn:E; cbn [orb].
    + rewrite app_comm_cons, (app_comm_cons (y :: s)). now rewrite removelast_last.
    + rewrite IH. destruct (existsb (leb x) (s ++ [m])); [|reflexivity].
      rewrite !app_comm_cons. now rewrite removelast_last.
Qed.

Lemma last_of_sorted : forall l, l <> [] -> exists s m a b,
  py_sorted leb l = s ++ [m] /\ l = a ++ m :: b /\
  (forall x, In x a -> leb x m = true) /\ (forall x, In x b -> leb m x = false).
Proof.
  induction l as [|x l IH]; [congruence|]. intros _.
  destruct l as [|z l].
  - exists [], x, [], []. cbn. repeat split; auto; intros ? [].
  - destruct IH as (s & m & a & b & Es & El & Ha & Hb); [discriminate|].
    change (py_sorted leb (x :: z :: l)) with (sort_insert leb x (py_sorted leb (z :: l))).
    pose proof (py_sorted_sorted leb leb_total leb_trans (z :: l)) as HS.
    pose proof (py_sorted_perm leb (z :: l)) as HP.
    rewrite Es in HS, HP |- *. rewrite insert_last.
    assert (Hmax : forall y, In y (z :: l) -> leb y m = true).
    { intros y Hy. apply (Permutation_in _ HP) in Hy. apply in_app_or in Hy as [Hy|[<-|[]]].
      - apply in_split in Hy as (s1 & s2 & ->). rewrite <- app_assoc in HS. cbn in HS.
        clear - HS. induction s1 as [|w s1 IH]; cbn in HS.
        + inversion HS as [|? ? _ HF]; subst. rewrite Forall_forall in HF. apply HF.
          apply in_or_app; right; left; auto.
        + apply IH. now inversion HS.
      - destruct (leb_total m m); auto. }
    destruct (existsb (leb x) (s ++ [m])) eqn:Ee.
    + exists (removelast (sort_insert leb x (s ++ [m]))), m, (x :: a), b.
      rewrite El. repeat split; auto. intros w [<-|Hw]; auto.
      apply existsb_exists in Ee as (y & Hy & Hxy).
      apply (leb_trans _ y); auto. apply Hmax.
      eapply Permutation_in; [apply Permutation_sym; exact HP|exact Hy].
    + exists (s ++ [m]), x, [], (z :: l). split; [auto|]. split; [auto|]. split; [intros ? []|].
      intros y Hy. apply not_true_is_false. intros Hxy.
      assert (existsb (leb x) (s ++ [m]) = true); [|congruence].
      apply existsb_exists. exists y. split; auto. now apply (Permutation_in _ HP).
Qed.

Lemma first_of_sorted_reverse : forall l i r, sorted_reverse leb l = i :: r ->
  exists a b, l = a ++ i :: b /\ (forall x, In x a -> leb i x = false) /\
    (forall x, In x b -> leb x i = true).
Proof.
  intros l i r H.
  unfold sorted_reverse in H.
  assert (Hr : rev l <> []).
  { intros E. rewrite E in H. discriminate. }
  destruct (last_of_sorted (rev l) Hr) as (s & m & a & b & Es & El & Ha & Hb).
  rewrite Es, rev_app_distr in H. cbn in H. injection H as -> _.
  exists (rev b), (rev a). apply (f_equal (@rev A)) in El. rewrite rev_involutive in El.
  rewrite El, rev_app_distr. cbn. rewrite <- app_assoc. repeat split; auto;
    intros x Hx; apply in_rev in Hx; auto.
Qed.
End Sort.

Section P.
Context {V S : Type}.
Notation task := (task V S).
Notation pv := (pv V).
Notation event := (event V).

(** Smaller priority, or the same and a smaller base priority. *)
Definition key_lt (a b : Z * Z) : Prop := (fst a < fst b)%Z \/ (fst a = fst b /\ (snd a < snd b)%Z).

Lemma key_leb_total : forall a b, key_leb a b = true \/ key_leb b a = true.
Proof.
  intros [a1 a2] [b1 b2]. unfold key_leb; cbn.
  rewrite !orb_true_iff, !andb_true_iff, !Z.ltb_lt, !Z.eqb_eq, !Z.leb_le. lia.
Qed.
Lemma key_leb_trans : forall a b c, key_leb a b = true -> key_leb b c = true -> key_leb a c = true.
Proof.
  intros [a1 a2] [b1 b2] [c1 c2]. unfold key_leb; cbn.
  rewrite !orb_true_iff, !andb_true_iff, !Z.ltb_lt, !Z.eqb_eq, !Z.leb_le. lia.
Qed.
Lemma key_leb_false : forall a b, key_leb a b = false -> key_lt b a.
Proof.
  intros [a1 a2] [b1 b2]. unfold key_leb, key_lt; cbn.
  rewrite orb_false_iff, andb_false_iff, Z.ltb_ge, Z.eqb_neq, Z.leb_gt. lia.
Qed.
Lemma key_leb_true : forall a b, key_leb a b = true -> key_lt a b \/ a = b.
Proof.
  intros [a1 a2] [b1 b2]. unfold key_leb, key_lt; cbn.
  rewrite orb_true_iff, andb_true_iff, Z.ltb_lt, Z.eqb_eq, Z.leb_le. intros H.
  destruct (Z.eq_dec a1 b1), (Z.eq_dec a2 b2); [right; congruence|lia..].
Qed.

Lemma rotation_dist : forall n start p, start < n -> p < n ->
  ((p + start) mod n + n - start) mod n = p.
Proof.
  intros n start p Hs Hp. destruct (le_lt_dec n (p + start)) as [H|H].
  - replace ((p + start) mod n) with (p + start - n).
    + replace (p + start - n + n - start) with p by lia. now apply Nat.mod_small.
    + symmetry. replace (p + start) with (p + start - n + 1 * n) at 1 by lia.
      rewrite Nat.mod_add by lia. apply Nat.mod_small. lia.
  - rewrite (Nat.mod_small (p + start)) by lia.
    replace (p + start + n - start) with (p + 1 * n) by lia.
    rewrite Nat.mod_add by lia. now apply Nat.mod_small.
Qed.

Lemma rotation_sorted : forall n start, start < n ->
  StronglySorted (fun i j => (i + n - start) mod n < (j + n - start) mod n) (rotation n start).
Proof.
  intros n start H. unfold rotation.
  assert (G : forall k a, a + k <= n -> StronglySorted (fun i j => (i + n - start) mod n < (j + n - start) mod n)
             (map (fun ii => (ii + start) mod n) (seq a k))).
  { induction k as [|k IH]; intros a Ha; cbn; constructor.
    - apply IH. lia.
    - rewrite Forall_forall. intros j Hj. apply in_map_iff in Hj as (q & <- & Hq).
      apply in_seq in Hq. rewrite !rotation_dist by lia. lia. }
  apply (G n 0). lia.
Qed.

Lemma filter_sorted : forall A (R : A -> A -> Prop) f l, StronglySorted R l -> StronglySorted R (filter f l).
Proof.
  intros A R f l H. induction H as [|x l H IH HF]; cbn; [constructor|].
  destruct (f x); auto. constructor; auto. rewrite Forall_forall in *.
  intros y Hy. apply filter_In in Hy as [Hy _]. auto.
Qed.

Lemma sorted_before : forall A (R : A -> A -> Prop) a x b y, StronglySorted R (a ++ x :: b) ->
  In y b -> R x y.
Proof.
  intros A R a x b y. induction a as [|z a IH]; cbn; intros H Hy; inversion H as [|? ? HS HF]; subst.
  - rewrite Forall_forall in HF. auto.
  - auto.
Qed.

Lemma chosen : forall (m : mst V S) i, idx m < length (tasks m) -> available m <> [] ->
  next_task m = Some i ->
  let n := length (tasks m) in
  (exists t, task_at (tasks m) i = Some t /\ is_available t = true) /\
  forall j t, task_at (tasks m) j = Some t -> is_available t = true -> j <> i ->
    key_lt (sort_key (tasks m) j) (sort_key (tasks m) i) \/
    (sort_key (tasks m) j = sort_key (tasks m) i /\
     (i + n - idx m) mod n < (j + n - idx m) mod n).
Proof.
  intros m i Hidx Hav H n. unfold next_task in H.
  set (leb := fun i j => _) in H.
  pose proof (sorted_reverse_perm _ leb (available m)) as HP.
  destruct (sorted_reverse leb (available m)) as [|x r] eqn:Es.
  - apply Permutation_sym, Permutation_nil in HP. contradiction.
  - injection H as ->.
    assert (T : forall x y, leb x y = true \/ leb y x = true) by (intros; apply key_leb_total).
    assert (TR : forall x y z, leb x y = true -> leb y z = true -> leb x z = true)
      by (intros ? ? ?; apply key_leb_trans).
    destruct (first_of_sorted_reverse leb T TR _ _ _ Es) as (a & b & El & Ha & Hb).
    split.
    + assert (Hi : In i (available m)) by (rewrite El; apply in_or_app; right; left; auto).
      unfold available in Hi. apply filter_In in Hi as [_ Hi].
      destruct (task_at (tasks m) i) as [t|]; [|discriminate]. eauto.
    + intros j t Ht Hj Hne.
      assert (Hin : In j (available m)).
      { unfold available. apply filter_In. rewrite Ht. split; auto.
        apply rotation_in. eapply task_at_lt; eauto. }
      rewrite El in Hin. apply in_app_or in Hin as [Hin|[Hin|Hin]].
      * left. apply key_leb_false. apply Ha; auto.
      * congruence.
      * destruct (key_leb_true _ _ (Hb j Hin)) as [Hlt|Heq]; [left; auto|right; split; auto].
        assert (HS : StronglySorted (fun i j => (i + n - idx m) mod n < (j + n - idx m) mod n) (available m)).
        { apply filter_sorted, rotation_sorted, Hidx. }
        rewrite El in HS. apply (sorted_before _ _ _ _ _ _ HS Hin).
Qed.

Lemma chosen_fallback : forall (m : mst V S) i, head_ok (shape (tasks m)) (head m) ->
  available m = [] -> next_task m = Some i -> i = head m.
Proof.
  intros m i HH Hav H. destruct (next_task_some m i HH H) as (t & Ht & [Ha|[_ ?]]); auto.
  exfalso. assert (Hin : In i (available m)).
  { unfold available. apply filter_In. rewrite Ht. split; auto.
    apply rotation_in. eapply task_at_lt; eauto. }
  rewrite Hav in Hin. destruct Hin.
Qed.

(** ** Numbers of outputs *)
Variable cfg : list (tconf V S * S).
Variable km : str -> bool.

Definition good (e : event) : Prop :=
  forall i o c, returned e = Some (i, o) -> conf_at cfg i c -> 2 <= length (klist (c_out c)) ->
    fits (c_out c) o.

Lemma check_fits : forall k (o : pv) x, 2 <= length (klist k) -> check_output k o = Ok x -> fits k o.
Proof.
  intros k o x Hk H. unfold check_output in H. unfold fits.
  destruct (klist k) as [|k1 [|k2 ks]] eqn:Ek; cbn in Hk; try lia.
  destruct o as [|v|l|l]; auto; try discriminate.
  - destruct (Nat.eqb_spec (length (k1 :: k2 :: ks)) (length l)); [|discriminate]. eauto 10.
  - destruct (Nat.eqb_spec (length (k1 :: k2 :: ks)) (length l)); [|discriminate]. eauto 10.
Qed.

Lemma step_good : forall tr m ev m', Inv cfg km tr m -> step km m = (ev, Go m') -> Forall good ev.
Proof.
  intros tr m ev m' HI H. unfold step in H.
  destruct (next_task m) as [i|] eqn:En; [|discriminate].
  destruct (next_task_some m i (proj1 (proj2 HI)) En) as (t & Ht & Hav). rewrite Ht in H.
  destruct (slot_of _ _ _ _ _ _ HI Ht) as (c & s & Hi & Htc & HT).
  destruct (pipeline_next i t) as [ev0 r0] eqn:Ep.
  pose proof (pipeline_next_ok _ _ _ _ _ _ _ HT Ep) as HR.
  destruct r0 as [t' o| | |x]; cbn [result_ok] in HR.
  - destruct HR as (e & -> & Ho & HT' & Hret & _).
    assert (Hc' : t_conf t' = c) by apply HT'. rewrite Hc' in H.
    assert (G : forall x, check_output (c_out c) o = Ok x -> Forall good [e]).
    { intros x Ex. constructor; [|constructor]. intros i' o' c' Hr [s' Hc0] Hk.
      destruct Hret as [Hret|[Hret _]]; [|congruence].
      rewrite Hret in Hr. injection Hr as <- <-. rewrite Hi in Hc0. injection Hc0 as <- <-.
      eapply check_fits; eauto. }
    destruct (check_output (c_out c) o) as [[l|]|x] eqn:Ec; [| |discriminate].
    + destruct (queue_pairs km _ _); [|discriminate]. injection H as <- <-. eauto.
    + injection H as <- <-. eauto.
  - destruct HR as (-> & _). destruct (i =? head m); injection H as <- <-; [|constructor].
    constructor; [|constructor]. intros i' o' c' Hr. discriminate.
  - destruct HR as (-> & _). injection H as <- <-. constructor; [|constructor]. intros i' o' c' Hr. discriminate.
  - discriminate.
Qed.

Lemma run_good : forall n tr r, run km n (start cfg) = (tr, r) -> (forall x, r <> Fail x) -> Forall good tr.
Proof.
  induction n as [|n IH]; intros tr r H Hr.
  - cbn in H. injection H as <- <-. constructor.
  - rewrite run_snoc in H. destruct (run km n (start cfg)) as [ev r0] eqn:E.
    destruct r0 as [m| |x].
    + destruct (step km m) as [ev' r'] eqn:Es. injection H as <- <-.
      assert (HI : Inv cfg km ev m) by (apply (run_ok _ _ _ _ _ E)).
      specialize (IH _ _ eq_refl ltac:(discriminate)).
      destruct r' as [m'| |x].
      * apply Forall_app; split; auto. eapply step_good; eauto.
      * destruct (step_ok _ _ _ _ _ _ HI Es) as [-> _]. now rewrite app_nil_r.
      * exfalso; now apply (Hr x).
    + injection H as <- <-. eapply IH; eauto.
    + injection H as <- <-. exfalso; now apply (Hr x).
Qed.
End P.

(** ** Signatures *)
Lemma arity_iff : forall a n, arity_ok a n = Ok tt <->
  (nargs a - ndefaults a - 1 <= n /\ (varargs a = true \/ n < nargs a)).
Proof.
  intros [na nd va] n. unfold arity_ok; cbn.
  destruct (Z.ltb_spec (Z.of_nat n) (Z.of_nat na - Z.of_nat nd - 1)) as [H|H].
  - split; [discriminate|lia].
  - destruct va.
    + rewrite andb_false_r. split; auto. intros _. split; [lia|auto].
    + rewrite andb_true_r. destruct (Z.ltb_spec (Z.of_nat na - 1) (Z.of_nat n)) as [G|G].
      * split; [discriminate|]. intros [_ [E|E]]; [discriminate|lia].
      * split; auto. intros _. split; [lia|right; lia].
Qed.

(** ** Validation *)
Lemma atom_eqb_eq : forall a b, atom_eqb a b = true <-> a = b.
Proof.
  intros [s| |x] [t| |y]; cbn; split; intros H; try congruence.
  - apply seqb_eq in H. congruence.
  - injection H as ->. apply seqb_refl.
  - apply Z.eqb_eq in H. congruence.
  - injection H as ->. apply Z.eqb_refl.
Qed.
Lemma existsb_atom : forall a l, existsb (atom_eqb a) l = true <-> In a l.
Proof.
  intros a l. rewrite existsb_exists. split.
  - intros (x & Hx & E). apply atom_eqb_eq in E. now subst.
  - intros H; exists a; split; auto. now apply atom_eqb_eq.
Qed.
Lemma no_dup_atoms_iff : forall l, no_dup_atoms l = true <-> NoDup l.
Proof.
  induction l as [|a l IH]; cbn.
  - split; auto. constructor.
  - rewrite andb_true_iff, negb_true_iff, IH. split.
    + intros [H1 H2]. constructor; auto. intros Hin. apply existsb_atom in Hin. congruence.
    + intros H. inversion H; subst. split; auto. apply not_true_is_false. rewrite existsb_atom. auto.
Qed.

(** Everything wanted of kind [v] is among [outs]. *)
Definition all_in (outs : list atom) (v : option kraw) : Prop :=
  match v with Some (KTuple _) => False | _ => forall a, In a (given v) -> In a outs end.

Lemma check_wanted_iff : forall outs t v, check_wanted outs t v = Ok tt <-> all_in outs v.
Proof.
  intros outs t v. unfold check_wanted, wanted, dangling.
  assert (L : forall l, (if forallb (fun a => existsb (atom_eqb a) outs) l then Ok tt
              else match ts_type t with Some _ => Err CaputConfigError | None => Err KeyError end) = Ok tt
              <-> forall a, In a l -> In a outs).
  { intros l. destruct (forallb _ l) eqn:E.
    - rewrite forallb_forall in E. split; auto. intros _ a Ha. now apply existsb_atom, E.
    - split; [destruct (ts_type t); discriminate|]. intros H. exfalso.
      apply not_true_iff_false in E. apply E. rewrite forallb_forall. intros a Ha.
      now apply existsb_atom, H. }
  destruct v as [[[s| |z]|l|l]|]; cbn [all_in given]; try apply L.
  - split; [destruct (ts_type t); discriminate|contradiction].
Qed.

Lemma check_specs_iff : forall outs l, check_specs outs l = Ok tt <->
  forall t, In t l -> all_in outs (ts_in t) /\ all_in outs (ts_requires t).
Proof.
  intros outs l. induction l as [|t l IH]; cbn.
  - split; auto. intros _ t [].
  - destruct (check_wanted outs t (ts_in t)) as [[]|e] eqn:E1; cbn.
    + apply check_wanted_iff in E1.
      destruct (check_wanted outs t (ts_requires t)) as [[]|e] eqn:E2; cbn.
      * apply check_wanted_iff in E2. rewrite IH. split; [|auto].
        intros H t' [<-|Ht]; auto.
      * split; [discriminate|]. intros H. destruct (H t (or_introl eq_refl)) as [_ H2].
        apply (check_wanted_iff outs t) in H2. congruence.
    + split; [discriminate|]. intros H. destruct (H t (or_introl eq_refl)) as [H1 _].
      apply (check_wanted_iff outs t) in H1. congruence.
Qed.

Lemma validate_iff : forall l, validate_task_inputs l = Ok tt <->
  NoDup (flat_map out_values l) /\
  forall t, In t l -> all_in (flat_map out_values l) (ts_in t) /\ all_in (flat_map out_values l) (ts_requires t).
Proof.
  intros l. unfold validate_task_inputs.
  destruct (no_dup_atoms (flat_map out_values l)) eqn:E.
  - apply no_dup_atoms_iff in E. rewrite check_specs_iff. tauto.
  - split; [discriminate|]. intros [H _]. apply no_dup_atoms_iff in H. congruence.
Qed.

(** No output given as null, no tuples. *)
Definition plain_spec (t : tspec) : Prop :=
  ts_out t <> Some (KAtom ANone) /\
  (forall l, ts_in t <> Some (KTuple l)) /\ (forall l, ts_requires t <> Some (KTuple l)).

Lemma out_values_given : forall t, ts_out t <> Some (KAtom ANone) -> out_values t = given (ts_out t).
Proof. intros t H. unfold out_values, given. destruct (ts_out t) as [[[]| |]|]; congruence. Qed.

Lemma flat_map_ext_in : forall A B (f g : A -> list B) l, (forall x, In x l -> f x = g x) ->
  flat_map f l = flat_map g l.
Proof.
  induction l as [|x l IH]; intros H; cbn; auto. rewrite H by (left; auto). f_equal. apply IH.
  intros y Hy. apply H; right; auto.
Qed.

Lemma validate_plain : forall l, (forall t, In t l -> plain_spec t) ->
  (validate_task_inputs l = Ok tt <-> valid_specs l).
Proof.
  intros l HP. rewrite validate_iff. unfold valid_specs.
  rewrite (flat_map_ext_in _ _ out_values (fun t => given (ts_out t)) l)
    by (intros t Ht; apply out_values_given, (HP t Ht)).
  split; intros [H1 H2]; split; auto.
  - intros t a Ht Ha. destruct (H2 t Ht) as [A B]. destruct (HP t Ht) as (_ & P1 & P2).
    assert (Hin : In a (flat_map (fun t => given (ts_out t)) l)).
    { destruct Ha as [Ha|Ha].
      - destruct (ts_in t) as [[]|]; cbn [all_in] in A; auto. contradiction.
      - destruct (ts_requires t) as [[]|]; cbn [all_in] in B; auto. contradiction. }
    apply in_flat_map in Hin. exact Hin.
  - intros t Ht. destruct (HP t Ht) as (_ & P1 & P2). split.
    + destruct (ts_in t) as [[x|x|l0]|] eqn:E; cbn [all_in]; try (now destruct (P1 l0));
        intros b Hb; apply in_flat_map; apply (H2 t b Ht); rewrite E; auto.
    + destruct (ts_requires t) as [[x|x|l0]|] eqn:E; cbn [all_in]; try (now destruct (P2 l0));
        intros b Hb; apply in_flat_map; apply (H2 t b Ht); rewrite E; auto.
Qed.
