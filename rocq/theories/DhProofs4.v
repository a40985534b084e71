From Coq Require Import String.
From Coq Require Import List Ascii Bool Arith ZArith Lia.
From Verif Require Import PyBase PyStr PartModel MemModel MemProofs2 FmtModel DhModel DhSpec DhProofs DhProofs2 DhProofs3.
Import ListNotations.
Open Scope list_scope.
Open Scope nat_scope.

(** * Equality *)
Lemma list_eqb_iff : forall A (e : A -> A -> bool), (forall x y, e x y = true <-> x = y) -> forall a b, list_eqb e a b = true <-> a = b.
Proof.
  intros A e E. induction a as [|x a IH]; intros [|y b]; cbn; try (split; intros; congruence).
  rewrite andb_true_iff, E, IH. split; [intros (-> & ->); auto|intros H; injection H; auto].
Qed.
Lemma carg_eqb_iff : forall a b, carg_eqb a b = true <-> a = b.
Proof.
  intros [|x|x] [|y|y]; cbn; try (split; intros; congruence).
  - rewrite Z.eqb_eq. split; congruence.
  - rewrite seqb_eq. split; congruence.
Qed.
Lemma settings_eqb_iff : forall a b, settings_eqb a b = true <-> a = b.
Proof.
  intros [c m o] [c' m' o']. unfold settings_eqb. cbn. rewrite !andb_true_iff, carg_eqb_iff.
  assert (Hc : ochunks_eqb c c' = true <-> c = c').
  { destruct c, c'; cbn; try (split; intros; congruence). rewrite (list_eqb_iff _ _ Nat.eqb_eq). split; congruence. }
  assert (Ho : copts_eqb o o' = true <-> o = o').
  { destruct o, o'; cbn; try (split; intros; congruence).
    - rewrite (list_eqb_iff _ _ carg_eqb_iff). split; congruence.
    - rewrite carg_eqb_iff. split; congruence. }
  rewrite Hc, Ho. split; [intros ((-> & ->) & ->); auto|intros H; injection H; auto].
Qed.
Lemma buffer_eqb_iff : forall a b, buffer_eqb a b = true <-> a = b.
Proof.
  intros [s v] [s' v']. unfold buffer_eqb. cbn. rewrite andb_true_iff, (list_eqb_iff _ _ Nat.eqb_eq), (list_eqb_iff _ _ Z.eqb_eq).
  split; [intros (-> & ->); auto|intros H; injection H; auto].
Qed.
Lemma dget_some_in : forall V k (l : list (str * V)) v, dget k l = Some v -> In (k, v) l.
Proof.
  intros V k l v. induction l as [|[k' v'] l IH]; cbn; [discriminate|]. destruct (seqb k k') eqn:E; auto.
  intros H. injection H; intros ->. apply seqb_eq in E. subst. auto.
Qed.
Lemma dget_in_nodup : forall V k (l : list (str * V)) v, NoDup (map fst l) -> In (k, v) l -> dget k l = Some v.
Proof.
  intros V k l v. induction l as [|[k' v'] l IH]; cbn; [intros _ []|]. intros N [E|I].
  - injection E; intros -> ->. rewrite seqb_refl. reflexivity.
  - apply NoDup_cons_iff in N. destruct N as (Nk & N). rewrite seqb_no; auto. intros ->. apply Nk. apply in_map_iff. exists (k', v). auto.
Qed.
Lemma dict_eqb_iff : forall a b, NoDup (map fst a) -> NoDup (map fst b) -> dict_eqb a b = true <-> SameDict a b.
Proof.
  intros a b Na Nb. unfold dict_eqb. rewrite andb_true_iff, Nat.eqb_eq, forallb_forall. split.
  - intros (L & F) k.
    assert (Inc : incl (map fst b) (map fst a)).
    { apply NoDup_length_incl; auto.
      - rewrite !map_length. lia.
      - intros q Q. apply in_map_iff in Q. destruct Q as ([q' v] & E & Q). cbn in E. subst q'. specialize (F _ Q). cbn in F.
        destruct (dget q b) eqn:G; [|discriminate]. apply dget_some_in in G. apply in_map_iff. eexists. split; eauto. reflexivity. }
    destruct (dget k a) as [v|] eqn:G.
    + pose proof (F _ (dget_some_in _ _ _ _ G)) as H. cbn in H. destruct (dget k b); [|discriminate]. apply Z.eqb_eq in H. subst. reflexivity.
    + destruct (dget k b) as [w|] eqn:G'; auto. exfalso. apply dget_some_in in G'.
      assert (I : In k (map fst a)) by (apply Inc; apply in_map_iff; exists (k, w); auto).
      apply in_map_iff in I. destruct I as ([k' v] & E & I). cbn in E. subst k'. rewrite (dget_in_nodup _ _ _ _ Na I) in G. discriminate.
  - intros Sd. assert (Q : forall x y : list (str * Z), NoDup (map fst x) -> SameDict x y -> incl (map fst x) (map fst y)).
    { intros x y Nx H q I. apply in_map_iff in I. destruct I as ([q' v] & E & I). cbn in E. subst q'.
      pose proof (dget_in_nodup _ _ _ _ Nx I) as G. rewrite H in G. apply dget_some_in in G. apply in_map_iff. eexists. split; eauto. reflexivity. }
    split.
    + pose proof (NoDup_incl_length Na (Q a b Na Sd)) as L1.
      pose proof (NoDup_incl_length Nb (Q b a Nb (fun k => eq_sym (Sd k)))) as L2. rewrite !map_length in L1, L2. lia.
    + intros [k v] I. rewrite <- (Sd k), (dget_in_nodup _ _ _ _ Na I). apply Z.eqb_refl.
Qed.
Lemma dset_eqb_iff : forall st x y, attrs_ok st -> dset_eqb st x y = true <-> SameDset st x y.
Proof.
  intros st x y A. unfold dset_eqb, SameDset. rewrite !andb_true_iff, settings_eqb_iff, seqb_eq, Bool.eqb_true_iff.
  assert (R : onat_eqb (d_root x) (d_root y) = true <-> d_root x = d_root y).
  { destruct (d_root x), (d_root y); cbn; try (split; intros; congruence). rewrite Nat.eqb_eq. split; congruence. }
  assert (D : is_dist x = is_dist y <-> (a_axis (d_data x) = None <-> a_axis (d_data y) = None)).
  { unfold is_dist. destruct (a_axis (d_data x)), (a_axis (d_data y)).
    - split; [intros _; split; discriminate|reflexivity].
    - split; [discriminate|]. intros H. discriminate (proj2 H eq_refl).
    - split; [discriminate|]. intros H. discriminate (proj1 H eq_refl).
    - split; [intros _; split; reflexivity|reflexivity]. }
  rewrite R, D. clear R D. split.
  - intros (((((H1 & H2) & H3) & H4) & H5) & H6). split; [exact H1|]. repeat split; auto.
    + destruct (nth_error (atts st) (d_attrs x)) as [a|] eqn:E1; [|discriminate].
      destruct (nth_error (atts st) (d_attrs y)) as [b|] eqn:E2; [|discriminate].
      exists a, b. repeat split; auto. apply dict_eqb_iff; auto; eapply A; eauto.
    + destruct (nth_error (bufs st) (a_buf (d_data x))) as [a|] eqn:E1; [|discriminate].
      destruct (nth_error (bufs st) (a_buf (d_data y))) as [b|] eqn:E2; [|discriminate].
      apply buffer_eqb_iff in H5. subst b. eauto.
  - intros (H1 & H2 & H3 & H4 & (a & b & E1 & E2 & H5) & (c & E3 & E4)). repeat split; auto; try apply H1.
    + rewrite E1, E2. apply dict_eqb_iff; auto; eapply A; eauto.
    + rewrite E3, E4. apply buffer_eqb_iff. reflexivity.
Qed.

(** * Redistribution of a handle *)
Lemma redistribute_handle : forall csize st i d r base x b axis q,
  nth_error (hands st) i = Some d -> d_root d = Some r -> a_axis (d_data d) = Some q ->
  deref st (Base r (d_name d)) = Ok base -> a_axis (d_data base) = Some x ->
  nth_error (bufs st) (a_buf (d_data base)) = Some b -> axis < length (b_shape b) ->
  exists st' a, redistribute csize st (Hand i) axis = Ok st'
    /\ a_axis a = Some axis /\ nth_error (bufs st') (a_buf a) = Some b
    /\ deref st' (Base r (d_name d)) = Ok (set_data base a) /\ deref st' (Hand i) = Ok (set_data d a)
    /\ (forall r' n', (r', n') <> (r, d_name d) -> deref st' (Base r' n') = deref st (Base r' n'))
    /\ (forall j, j <> i -> deref st' (Hand j) = deref st (Hand j))
    /\ atts st' = atts st /\ (forall j b0, nth_error (bufs st) j = Some b0 -> nth_error (bufs st') j = Some b0).
Proof.
  intros csize st i d r base x b axis q Hi Hr Hq Hb Hx B La.
  assert (AR : exists bs a, arr_redist csize (bufs st) (d_data base) axis = Ok (bs, a) /\ a_axis a = Some axis
             /\ nth_error bs (a_buf a) = Some b /\ forall j b0, nth_error (bufs st) j = Some b0 -> nth_error bs j = Some b0).
  { unfold arr_redist. rewrite Hx, B. apply Nat.ltb_lt in La. rewrite La.
    destruct (x =? axis) eqn:E; [apply Nat.eqb_eq in E; subst x; exists (bufs st), (d_data base); auto|].
    destruct (csize =? 1).
    - exists (bufs st), (Arr (a_buf (d_data base)) (Some axis)). auto.
    - exists (bufs st ++ [b]), (Arr (length (bufs st)) (Some axis)). cbn. repeat split; auto using nth_app_end.
      intros j b0 H. apply nth_app_old. exact H. }
  destruct AR as (bs & a & E & Ea & Eb & Eo).
  unfold redistribute. cbn [deref]. rewrite Hi. cbn [rbind]. rewrite Hq, Hr.
  assert (Hb' := Hb). cbn [deref] in Hb'. destruct (nth_error (roots st) r) as [l|] eqn:El; [|discriminate].
  destruct (dget (d_name d) l) as [base'|] eqn:Eg; [|discriminate]. injection Hb'; intros ->.
  cbn [rbind]. rewrite E. cbn [rbind].
  set (rs := lset r (dput (d_name d) (set_data base a) l) (roots st)).
  exists (St bs (atts st) rs (lset i (set_data d a) (hands st))), a.
  split. { unfold assign. cbn [roots]. rewrite El. reflexivity. }
  cbn [bufs atts]. repeat split; auto.
  - cbn [deref roots]. unfold rs. rewrite lset_same by (apply (nth_some_lt _ _ _ _ El)). rewrite dget_dput_same. reflexivity.
  - cbn [deref hands]. rewrite lset_same by (apply (nth_some_lt _ _ _ _ Hi)). reflexivity.
  - intros r' n' N. cbn [deref roots]. unfold rs. destruct (Nat.eq_dec r r') as [<-|Nr].
    + rewrite lset_same by (apply (nth_some_lt _ _ _ _ El)). rewrite El. rewrite dget_dput_other by congruence. reflexivity.
    + rewrite lset_other by auto. reflexivity.
  - intros j N. cbn [deref hands]. rewrite lset_other by auto. reflexivity.
Qed.
