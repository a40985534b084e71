From Coq Require Import String.
From Coq Require Import List Ascii Bool Arith ZArith Lia.
From Verif Require Import PyBase PyStr MemModel MemProofs2 FmtModel DhModel DhSpec DhProofs.
Import ListNotations.
Open Scope list_scope.
Open Scope nat_scope.

Lemma sim_copy : forall s csize ids st a x, Rel s ids st a -> SimStep s csize st a (Copy x).
Proof.
  intros s csize ids st a x R. unf. look R x H; cbn [rbind].
  2: { rewrite D. cbn. eauto. }
  rewrite Hk. cbn [rbind]. rewrite Hc. unfold deep_copy. rewrite Hb, Ht. cbn [rbind fst snd]. split; auto.
  set (kn := KOwn (length (owns a))).
  set (a1 := ASt (names a) (owns a ++ [c]) (akeys a)).
  set (ids' := more_ids ids kn (length (bufs st), length (atts st))).
  assert (N : cell_of a kn = None) by (cbn; apply nth_error_None; lia).
  assert (C : cell_of a1 kn = Some c) by (cbn; apply nth_app_end).
  assert (O : forall k', kn <> k' -> cell_of a1 k' = cell_of a k').
  { intros [r n|j] Hn; cbn; auto. destruct (nth_error (owns a) j) eqn:E.
    - apply nth_app_old. exact E.
    - apply nth_error_None in E. destruct (Nat.eq_dec j (length (owns a))) as [->|Hj]; [exfalso; apply Hn; reflexivity|].
      apply nth_error_None. rewrite app_length. cbn. lia. }
  exists ids'.
  assert (R1 : Rel s ids' (St (bufs st ++ [Buf (c_shape c) (c_vals c)]) (atts st ++ [c_attrs c]) (roots st) (hands st)) a1).
  { apply (rel_new_cell s ids st a a1 kn c (roots st) R N C O); auto.
    intros r l E n. pose proof (rel_base _ _ _ _ R _ _ E n) as B. destruct (dget n l) as [d0|].
    - destruct B as (X & Y & Z). repeat split; auto. apply (good_more _ _ _ _ _ _ _ _ _ N O C Z).
    - rewrite O; auto. intros E0. discriminate. }
  apply (rel_add_hand s ids' _ a1 _ kn R1).
  - exists c. cbn [d_data d_attrs a_buf a_axis]. rewrite C. split; auto. split.
    + unfold ids', more_ids. destruct (key_dec kn kn); [reflexivity|contradiction].
    + auto.
  - intros r _. exact I.
Qed.

Lemma sim_new : forall s csize ids st a r n shape vals axis t, Rel s ids st a -> cell_of a (KName r n) = None ->
  SimStep s csize st a (New r n shape vals axis t).
Proof.
  intros s csize ids st a r n shape vals axis t R N. unf.
  destruct (nth_error (roots st) r) as [l|] eqn:E.
  2: { apply nth_error_None in E. rewrite (rel_len _ _ _ _ R) in E. apply nth_error_None in E. rewrite E. cbn. eauto. }
  assert (L : r < length (names a)) by (rewrite <- (rel_len _ _ _ _ R); apply (nth_some_lt _ _ _ _ E)).
  destruct (nth_error (names a) r) as [al|] eqn:E'; [|apply nth_error_None in E'; lia].
  destruct (axis_ok shape axis) eqn:Ax; cbn [negb fst snd]; [|eauto]. split; auto.
  set (c := Cell shape vals [] axis). set (kn := KName r n).
  set (a1 := ASt (lset r (dput n c al) (names a)) (owns a) (akeys a)).
  assert (C : cell_of a1 kn = Some c).
  { cbn. rewrite lset_same by exact L. apply dget_dput_same. }
  assert (O : forall k', kn <> k' -> cell_of a1 k' = cell_of a k').
  { intros [r' n'|j] Hn; cbn; auto. destruct (Nat.eq_dec r r') as [<-|Nr].
    - rewrite lset_same by exact L. rewrite E'. apply dget_dput_other. intros ->. apply Hn. reflexivity.
    - rewrite lset_other by auto. reflexivity. }
  exists (more_ids ids kn (length (bufs st), length (atts st))).
  apply (rel_new_cell s ids st a a1 kn c _ R N C O).
  - cbn. apply lset_length.
  - reflexivity.
  - apply lset_length.
  - intros r' l' Er n'. destruct (Nat.eq_dec r r') as [<-|Nr].
    + rewrite lset_same in Er by (exact (nth_some_lt _ _ _ _ E)). injection Er; intros <-.
      destruct (str_eq_dec n n') as [<-|Nn].
      * rewrite dget_dput_same. cbn [d_root d_name]. repeat split; auto. exists c. cbn [d_data d_attrs a_buf a_axis].
        split; [exact C|]. split; [unfold more_ids; destruct (key_dec kn (KName r n)); [reflexivity|exfalso; auto]|].
        cbn. auto.
      * rewrite dget_dput_other by auto. pose proof (rel_base _ _ _ _ R _ _ E n') as B. destruct (dget n' l) as [d0|].
        -- destruct B as (X & Y & Z). repeat split; auto. apply (good_more _ _ _ _ _ _ _ _ _ N O C Z).
        -- rewrite O; auto. unfold kn. congruence.
    + rewrite lset_other in Er by auto. pose proof (rel_base _ _ _ _ R _ _ Er n') as B. destruct (dget n' l') as [d0|].
      * destruct B as (X & Y & Z). repeat split; auto. apply (good_more _ _ _ _ _ _ _ _ _ N O C Z).
      * rewrite O; auto. unfold kn. congruence.
Qed.

(** Changing an object in place. *)
Lemma assign_bufs : forall st x d, bufs (assign st x d) = bufs st /\ atts (assign st x d) = atts st.
Proof. intros st [r n|i] d; cbn; auto. destruct (nth_error (roots st) r); auto. Qed.
Lemma assign_eta : forall st x d, assign st x d = St (bufs st) (atts st) (roots (assign st x d)) (hands (assign st x d)).
Proof. intros [b t rs hs] [r n|i] d; cbn; auto. destruct (nth_error rs r); auto. Qed.
Lemma assign_roots_len : forall st x d, length (roots (assign st x d)) = length (roots st).
Proof. intros st [r n|i] d; cbn; auto. destruct (nth_error (roots st) r); cbn; auto. apply lset_length. Qed.
Lemma assign_hands_len : forall st x d, length (hands (assign st x d)) = length (hands st).
Proof. intros st [r n|i] d; cbn; [|apply lset_length]. destruct (nth_error (roots st) r); cbn; auto. Qed.
Lemma assign_roots : forall s t sh st x d0 d r l l' n, deref st x = Ok d0 -> alike s t sh d0 d ->
  nth_error (roots st) r = Some l -> nth_error (roots (assign st x d)) r = Some l' -> oalike s t sh (dget n l) (dget n l').
Proof.
  intros s t sh st [r0 n0|i] d0 d r l l' n H A E E'; cbn in *.
  2: { rewrite E in E'. injection E'; intros <-. apply oalike_refl. }
  destruct (nth_error (roots st) r0) as [l0|] eqn:E0; [|discriminate].
  destruct (dget n0 l0) as [d1|] eqn:G; [|discriminate]. injection H; intros ->. cbn in E'.
  destruct (Nat.eq_dec r0 r) as [<-|N].
  - rewrite E0 in E. injection E; intros <-. rewrite lset_same in E' by (apply (nth_some_lt _ _ _ _ E0)).
    injection E'; intros <-. destruct (str_eq_dec n0 n) as [<-|Nn].
    + rewrite G, dget_dput_same. exact A.
    + rewrite dget_dput_other by auto. apply oalike_refl.
  - rewrite lset_other in E' by auto. rewrite E in E'. injection E'; intros <-. apply oalike_refl.
Qed.
Lemma assign_hands : forall s t sh st x d0 d i e e', deref st x = Ok d0 -> alike s t sh d0 d ->
  nth_error (hands st) i = Some e -> nth_error (hands (assign st x d)) i = Some e' -> alike s t sh e e'.
Proof.
  intros s t sh st [r0 n0|i0] d0 d i e e' H A E E'; cbn in *.
  - destruct (nth_error (roots st) r0) as [l0|] eqn:E0; [|discriminate]. cbn in E'. rewrite E in E'. injection E'; intros <-. apply alike_refl.
  - destruct (nth_error (hands st) i0) as [d1|] eqn:E0; [|discriminate]. injection H; intros ->.
    destruct (Nat.eq_dec i0 i) as [<-|N].
    + rewrite lset_same in E' by (apply (nth_some_lt _ _ _ _ E0)). rewrite E0 in E. injection E; intros <-. injection E'; intros <-. exact A.
    + rewrite lset_other in E' by auto. rewrite E in E'. injection E'; intros <-. apply alike_refl.
Qed.

Lemma rel_assign : forall s ids st a x d0 d k c c' b t, Rel s ids st a -> deref st x = Ok d0 ->
  cell_of a k = Some c -> ids k = Some (b, t) -> alike s t (c_shape c) d0 d ->
  c_shape c' = c_shape c -> c_vals c' = c_vals c -> c_attrs c' = c_attrs c -> some (c_axis c') = some (c_axis c) ->
  (s = true -> c_axis c' = c_axis c) ->
  Rel s ids (assign st x d) (put_cell a k c').
Proof.
  intros s ids st a x d0 d k c c' b t R H C I A E1 E2 E3 E4 E5. rewrite assign_eta.
  destruct (rel_cells _ _ _ _ R _ _ C) as (b' & t' & I' & B & T). rewrite I in I'. injection I'; intros <- <-.
  apply (rel_update s ids st a k c c' b t); auto.
  - rewrite E1, E2. exact B.
  - rewrite E3. exact T.
  - apply assign_roots_len.
  - intros r l l' E E' n. apply (assign_roots _ _ _ _ _ _ _ _ _ _ n H A E E').
  - apply assign_hands_len.
  - intros i e e' E E'. apply (assign_hands _ _ _ _ _ _ _ _ _ _ H A E E').
Qed.

Lemma sim_seton : forall s csize ids st a x k, Rel s ids st a -> SimStep s csize st a (SetOn x k).
Proof.
  intros s csize ids st a x key0 R. unf. unfold set_on. look R x H; cbn [rbind].
  2: { rewrite D. cbn. eauto. }
  rewrite Hk. cbn [rbind]. rewrite Hc. unfold shape_of. rewrite Hb. cbn [b_shape].
  assert (Q : forall sx, exists ids', Rel s ids' (assign st x (set_settings d sx)) a).
  { intros sx. exists ids. apply (rel_ext _ _ _ (put_cell a k c)).
    - apply (rel_assign _ _ _ _ _ d _ _ c _ _ _ R H Hc Hi); auto. unfold alike, set_settings; cbn; auto 10.
    - intros k'. symmetry. apply put_same_cell. exact Hc.
    - symmetry. apply put_names_length.
    - symmetry. apply put_akeys. }
  destruct key0 as [[v|]|cc|oo|]; cbn [put_setting rbind fst snd].
  - assert (M : forall (b : bool), (if b then chunks_distributed else chunks_common) (Some v) (c_shape c)
        = if length v =? length (c_shape c) then
            (if b then chunks_distributed else chunks_common) (Some v) (c_shape c) else Err ValueError).
    { intros [|]; cbn; destruct (length v =? length (c_shape c)); reflexivity. }
    rewrite M. destruct (length v =? length (c_shape c)) eqn:El; [|cbn; eauto].
    destruct (is_dist d); cbn; rewrite El; cbn; split; auto.
  - destruct (is_dist d); cbn; split; auto.
  - split; auto.
  - split; auto.
  - split; auto.
Qed.

(** Redistribution with a single process. *)
Lemma some_axis : forall o, some o = true -> exists x, o = Some x.
Proof. intros [x|]; cbn; eauto; discriminate. Qed.

Lemma sim_redist : forall ids st a x axis, Rel false ids st a ->
  (forall j, key_of a x <> Ok (KOwn j)) -> SimStep false 1 st a (Redist x axis).
Proof.
  intros ids st a x axis R NO. unf. unfold redistribute. look R x H; cbn [rbind].
  2: { rewrite D. cbn. eauto. }
  rewrite Hk. cbn [rbind]. rewrite Hc.
  destruct k as [r n|j]; [|exfalso; apply (NO j Hk)].
  destruct (a_axis (d_data d)) as [ax|] eqn:Ea.
  2: { cbn in Hs. destruct (c_axis c); [discriminate|]. cbn. eauto. }
  cbn in Hs. destruct (c_axis c) as [cx|] eqn:Ec; [|discriminate].
  assert (U : forall (c' : cell) y (d1 : dset), c' = Cell (c_shape c) (c_vals c) (c_attrs c) (Some axis) -> axis < length (c_shape c) ->
     deref st y = Ok d1 -> d_attrs d1 = d_attrs d -> (exists q, a_axis (d_data d1) = Some q) ->
     Rel false ids (assign st y (set_data d1 (Arr (a_buf (d_data d1)) (Some axis)))) (put_cell a (KName r n) c')).
  { intros c' y d1 -> La Hy Ey (q & Eq). eapply rel_assign; eauto; try reflexivity.
    - unfold alike, set_data. cbn. rewrite Eq. repeat split; auto. right. repeat split; auto. apply Nat.ltb_lt. exact La.
    - rewrite Ec. reflexivity.
    - discriminate. }
  assert (AR : forall d1, nth_error (bufs st) (a_buf (d_data d1)) = Some (Buf (c_shape c) (c_vals c)) ->
     (exists q, a_axis (d_data d1) = Some q) -> axis_ok (c_shape c) (a_axis (d_data d1)) = true ->
     arr_redist 1 (bufs st) (d_data d1) axis
     = if axis <? length (c_shape c) then Ok (bufs st, Arr (a_buf (d_data d1)) (Some axis)) else Err AxisException).
  { intros d1 B (q & Eq) Ok1. unfold arr_redist. rewrite Eq, B. cbn [Nat.eqb b_shape].
    rewrite Eq in Ok1. cbn [axis_ok] in Ok1. destruct (q =? axis) eqn:Q; auto. apply Nat.eqb_eq in Q. subst q. rewrite Ok1.
    destruct (d_data d1) as [b' x']. cbn in *. congruence. }
  destruct (d_root d) as [r'|] eqn:Er.
  - destruct (Hh r' Er) as (-> & Hn). rewrite Hn.
    pose proof (deref_rel _ _ _ _ (Base r n) R) as D2. destruct (deref st (Base r n)) as [base|e2] eqn:Hbase.
    2: { exfalso. cbn in D2, Hc. destruct (nth_error (names a) r); [|discriminate]. rewrite Hc in D2. discriminate. }
    destruct D2 as (k2 & Hk2 & Hg2 & Hh2).
    assert (k2 = KName r n).
    { cbn in Hk2. destruct (nth_error (names a) r); [|discriminate]. destruct (dget n l); [|discriminate]. injection Hk2; auto. }
    subst k2. destruct Hg2 as (c2 & Hc2 & Hi2 & _ & Hs2 & Ho2). rewrite Hc in Hc2. injection Hc2; intros <-.
    rewrite Hi in Hi2. injection Hi2; intros Et Eb. rewrite Ec in Hs2. cbn in Hs2. apply some_axis in Hs2.
    cbn [rbind]. rewrite (AR base) by (auto; rewrite <- Eb; exact Hb).
    destruct (axis <? length (c_shape c)) eqn:La; cbn [rbind fst snd]; [|eauto]. apply Nat.ltb_lt in La. split; auto. exists ids.
    assert (Eta : St (bufs st) (atts st) (roots st) (hands st) = st) by (destruct st; reflexivity). rewrite Eta.
    set (st1 := assign st (Base r n) (set_data base (Arr (a_buf (d_data base)) (Some axis)))).
    set (c' := Cell (c_shape c) (c_vals c) (c_attrs c) (Some axis)).
    assert (R1 : Rel false ids st1 (put_cell a (KName r n) c')) by (apply U; auto; congruence).
    apply (rel_ext _ _ _ (put_cell (put_cell a (KName r n) c') (KName r n) c')).
    + (* the handle itself, or the dataset of the storage once more *)
      assert (Hd : exists d1, deref st1 x = Ok d1 /\ d_name d1 = d_name d /\ d_root d1 = d_root d /\ a_buf (d_data d1) = a_buf (d_data d)
                   /\ d_attrs d1 = d_attrs d /\ some (a_axis (d_data d1)) = true).
      { destruct x as [rx nx|i].
        - exfalso. cbn in H. destruct (nth_error (roots st) rx) as [lx|] eqn:Ex; [|discriminate].
          pose proof (rel_base _ _ _ _ R _ _ Ex nx) as B. destruct (dget nx lx); [|discriminate]. injection H; intros ->.
          destruct B as (B & _). congruence.
        - exists d. cbn in H |- *. unfold st1, assign. destruct (nth_error (roots st) r); cbn [hands]; rewrite ?H, ?Ea; auto 10. }
      destruct Hd as (d1 & Hd1 & En & Ero & Eb1 & Et1 & Es1).
      eapply rel_assign with (d0 := d1) (c := c'); eauto; try reflexivity.
      * apply (cell_put_same _ _ _ _ Hc).
      * unfold alike, set_data. cbn. rewrite Es1. repeat split; auto; try congruence.
        right. repeat split; auto. apply Nat.ltb_lt. exact La.
    + intros k'. symmetry. apply put_same_cell. apply (cell_put_same _ _ _ _ Hc).
    + symmetry. apply put_names_length.
    + symmetry. apply put_akeys.
  - assert (Oa : axis_ok (c_shape c) (a_axis (d_data d)) = true) by (rewrite Ea; exact Ho).
    rewrite (AR d Hb (ex_intro _ ax Ea) Oa).
    destruct (axis <? length (c_shape c)) eqn:La; cbn [rbind fst snd]; [|eauto]. apply Nat.ltb_lt in La. split; auto. exists ids.
    assert (Eta : St (bufs st) (atts st) (roots st) (hands st) = st) by (destruct st; reflexivity). rewrite Eta.
    apply U; eauto.
Qed.

(** * Whole programs *)
Definition Named (done : list (nat * str)) (a : astate) : Prop := forall r n, cell_of a (KName r n) <> None -> In (r, n) done.
Lemma named_step : forall csize a o done, Named done a -> Named (done ++ created o) (fst (astep csize a o)).
Proof.
  intros csize a o done H r n Q. apply in_or_app.
  assert (P : forall k c c0, cell_of a k = Some c0 -> cell_of (put_cell a k c) (KName r n) <> None -> cell_of a (KName r n) <> None).
  { intros k c c0 E. destruct (key_dec k (KName r n)) as [->|N]; [congruence|]. rewrite cell_put_other; auto. }
  unfold astep in Q.
  assert (W : forall x (f : key -> cell -> res (astate * out)),
    (forall k c p, cell_of a k = Some c -> f k c = Ok p -> cell_of (fst p) (KName r n) <> None -> cell_of a (KName r n) <> None) ->
    cell_of (fst (match with_cell a x f with Ok p => p | Err e => (a, Raised e) end)) (KName r n) <> None -> cell_of a (KName r n) <> None).
  { intros x f F. unfold with_cell. destruct (key_of a x); cbn [rbind]; auto. destruct (cell_of a a0) eqn:E; auto.
    destruct (f a0 c) eqn:E2; auto. apply (F _ _ _ E E2). }
  destruct o; cbn [aexec created] in Q |- *;
    try match goal with |- _ \/ In _ [] => left; apply H end; try (revert Q; apply W; intros k0 c0 p0 E0 F0);
    try (injection F0; intros <-; cbn [fst]).
  - destruct (nth_error (names a) r0) as [l|] eqn:E; [|left; apply H; exact Q].
    destruct (axis_ok shape axis); cbn [negb fst] in Q; [|left; apply H; exact Q].
    destruct (Nat.eq_dec r0 r) as [<-|N1]; [destruct (str_eq_dec n0 n) as [<-|N2]; [right; left; auto|]|].
    + left. apply H. cbn in Q |- *. rewrite lset_same in Q by (apply (nth_some_lt _ _ _ _ E)). rewrite E.
      rewrite dget_dput_other in Q by auto. exact Q.
    + left. apply H. cbn in Q |- *. rewrite lset_other in Q by auto. exact Q.
  - destruct (nth_error (names a) r0) as [l|] eqn:E; [|exact Q]. destruct (dget n0 l) eqn:G; [|exact Q]. cbn [fst] in Q.
    cbn in Q |- *. destruct (Nat.eq_dec r0 r) as [<-|N1].
    + rewrite lset_same in Q by (apply (nth_some_lt _ _ _ _ E)). rewrite E. destruct (str_eq_dec n0 n) as [<-|N2]; [congruence|].
      rewrite dget_ddel_other in Q by auto. exact Q.
    + rewrite lset_other in Q by auto. exact Q.
  - destruct (key_of a (Base r0 n0)); exact Q.
  - destruct x as [r1 n1|i]; [destruct (key_of a (Base r1 n1))|destruct (key_of a (Hand i))]; exact Q.
  - auto.
  - destruct (i <? length (c_vals c0)); [|discriminate]. injection F0; intros <-. cbn [fst]. apply (P _ _ _ E0).
  - destruct (nth_error (c_vals c0) i); [|discriminate]. injection F0; intros <-. auto.
  - apply (P _ _ _ E0).
  - destruct (dget k (c_attrs c0)); [|discriminate]. injection F0; intros <-. auto.
  - auto.
  - destruct (c_axis c0); [|discriminate]. destruct (axis <? length (c_shape c0)); [|discriminate]. injection F0; intros <-.
    cbn [fst]. apply (P _ _ _ E0).
  - destruct k as [[v|]|cc|oo|]; try (injection F0; intros <-; auto). destruct (length v =? length (c_shape c0)); [|discriminate].
    injection F0; intros <-. auto.
Qed.

Lemma sim_step_plain : forall csize ids st a o done, Rel true ids st a -> Named done a ->
  (forall p, In p (created o) -> ~ In p done) -> is_delete o = false -> is_redist o = false -> SimStep true csize st a o.
Proof.
  intros csize ids st a o done R N F D E.
  destruct o; try discriminate;
    eauto using sim_read, sim_getattr, sim_getaxis, sim_write, sim_setattr, sim_lookup, sim_view, sim_copy, sim_seton.
  eapply sim_new; eauto. destruct (cell_of a (KName r n)) eqn:C; auto. exfalso. apply (F (r, n)); [left; auto|].
  apply N. congruence.
Qed.
Lemma sim_step_single : forall ids st a o done, Rel false ids st a -> Named done a ->
  (forall p, In p (created o) -> ~ In p done) -> is_delete o = false -> is_getaxis o = false ->
  match o with Redist x _ => match key_of a x with Ok (KOwn _) => False | _ => True end | _ => True end ->
  SimStep false 1 st a o.
Proof.
  intros ids st a o done R N F D E G.
  destruct o; try discriminate;
    eauto using sim_read, sim_getattr, sim_write, sim_setattr, sim_lookup, sim_view, sim_copy, sim_seton.
  - eapply sim_new; eauto. destruct (cell_of a (KName r n)) eqn:C; auto. exfalso. apply (F (r, n)); [left; auto|].
    apply N. congruence.
  - eapply sim_redist; eauto. intros j Q. rewrite Q in G. exact G.
Qed.

Lemma nodup_app_not : forall A (l l' : list A) x, NoDup (l ++ l') -> In x l -> ~ In x l'.
Proof.
  intros A l l' x H I J. induction l as [|y l IH]; [destruct I|]. cbn in H. apply NoDup_cons_iff in H. destruct H as (Ny & H).
  destruct I as [->|I]; [apply Ny; apply in_or_app; auto|auto].
Qed.
Lemma nodup_app_l : forall A (l l' : list A), NoDup (l ++ l') -> NoDup l.
Proof.
  intros A l l' H. induction l as [|y l IH]; [constructor|]. cbn in H. apply NoDup_cons_iff in H. destruct H as (Ny & H).
  constructor; auto. intros I. apply Ny. apply in_or_app. auto.
Qed.

Lemma run_cons : forall csize st o os, run csize st (o :: os)
  = (fst (run csize (fst (step csize st o)) os), snd (step csize st o) :: snd (run csize (fst (step csize st o)) os)).
Proof. intros. cbn. destruct (step csize st o) as [st1 x]. cbn. destruct (run csize st1 os). reflexivity. Qed.
Lemma arun_cons : forall csize st o os, arun csize st (o :: os)
  = (fst (arun csize (fst (astep csize st o)) os), snd (astep csize st o) :: snd (arun csize (fst (astep csize st o)) os)).
Proof. intros. cbn. destruct (astep csize st o) as [st1 x]. cbn. destruct (arun csize st1 os). reflexivity. Qed.

Lemma sim_run_plain : forall csize os ids st a done, Rel true ids st a -> Named done a ->
  NoDup (done ++ flat_map created os) -> never is_delete os -> never is_redist os ->
  snd (run csize st os) = snd (arun csize a os).
Proof.
  intros csize os. induction os as [|o os IH]; intros ids st a done R N ND D E; auto.
  rewrite run_cons, arun_cons. cbn [snd].
  cbn [flat_map] in ND. rewrite app_assoc in ND.
  assert (F : forall p, In p (created o) -> ~ In p done).
  { intros p I J. apply nodup_app_l in ND. apply (nodup_app_not _ _ _ p ND J I). }
  destruct (sim_step_plain csize ids st a o done R N F (D o (or_introl eq_refl)) (E o (or_introl eq_refl))) as (O & ids' & R').
  f_equal; auto. apply (IH ids' _ _ (done ++ created o) R').
  - apply named_step. exact N.
  - exact ND.
  - intros q I. apply D. right. exact I.
  - intros q I. apply E. right. exact I.
Qed.
Lemma sim_run_single : forall os ids st a done, Rel false ids st a -> Named done a ->
  NoDup (done ++ flat_map created os) -> never is_delete os -> never is_getaxis os -> names_redistributed 1 a os ->
  snd (run 1 st os) = snd (arun 1 a os).
Proof.
  intros os. induction os as [|o os IH]; intros ids st a done R N ND D E G; auto.
  rewrite run_cons, arun_cons. cbn [snd].
  cbn [flat_map] in ND. rewrite app_assoc in ND. destruct G as (G & G').
  assert (F : forall p, In p (created o) -> ~ In p done).
  { intros p I J. apply nodup_app_l in ND. apply (nodup_app_not _ _ _ p ND J I). }
  destruct (sim_step_single ids st a o done R N F (D o (or_introl eq_refl)) (E o (or_introl eq_refl)) G) as (O & ids' & R').
  f_equal; auto. apply (IH ids' _ _ (done ++ created o) R').
  - apply named_step. exact N.
  - exact ND.
  - intros q I. apply D. right. exact I.
  - intros q I. apply E. right. exact I.
  - exact G'.
Qed.
Lemma nth_repeat_nil : forall A n r (l : list A), nth_error (repeat [] n) r = Some l -> l = [].
Proof. intros A n. induction n as [|n IH]; intros [|r] l H; cbn in H; try discriminate; [injection H; auto|apply (IH r l H)]. Qed.
Lemma rel_start : forall s nr, Rel s (fun _ => None) (start nr) (astart nr).
Proof.
  intros s nr.
  assert (Z : forall k, cell_of (astart nr) k = None).
  { intros [r n|j]; cbn; [|destruct j; reflexivity]. destruct (nth_error (repeat [] nr) r) eqn:E; auto.
    apply nth_repeat_nil in E. subst l. reflexivity. }
  constructor; cbn.
  - rewrite !repeat_length. reflexivity.
  - intros k c H. rewrite Z in H. discriminate.
  - discriminate.
  - discriminate.
  - intros r l E n. apply nth_repeat_nil in E. subst l. cbn. apply (Z (KName r n)).
  - reflexivity.
  - intros [|i] d k H; discriminate.
Qed.
Lemma named_start : forall nr, Named [] (astart nr).
Proof.
  intros nr r n H. exfalso. apply H. cbn. destruct (nth_error (repeat [] nr) r) eqn:E; auto. apply nth_repeat_nil in E. subst l. reflexivity.
Qed.
