From Coq Require Import String.
From Coq Require Import List Ascii Bool Arith ZArith Lia.
From Verif Require Import PyBase PyStr MemModel MemProofs2 FmtModel DhModel DhSpec DhProofs DhProofs2.
Import ListNotations.
Open Scope list_scope.
Open Scope nat_scope.

Lemma seqb_no : forall a b, a <> b -> seqb a b = false.
Proof. intros a b. apply seqb_neq. Qed.

(** * Chunks *)
Lemma chunks_dist_spec : forall v shape, length v = length shape -> exists c,
  chunks_distributed (Some v) shape = Ok (Some c) /\ ChunksOf v shape c.
Proof.
  intros v shape L. cbn. rewrite L, Nat.eqb_refl. cbn. eexists. split; [reflexivity|]. split.
  - rewrite map_length, combine_length. lia.
  - intros i H. rewrite (nth_indep _ 0 ((fun '(a, b) => Nat.min a b) (0, 0))) by (rewrite map_length, combine_length; lia).
    rewrite (map_nth (fun '(a, b) => Nat.min a b) (combine v shape) (0, 0)), combine_nth by exact L. reflexivity.
Qed.
Lemma nth_ext_nat : forall l l' : list nat, length l = length l' -> (forall i, i < length l -> nth i l 0 = nth i l' 0) -> l = l'.
Proof. intros l l' L H. apply (nth_ext l l' 0 0 L). exact H. Qed.
Lemma chunks_of_unique : forall v sh c c', ChunksOf v sh c -> ChunksOf v sh c' -> c = c'.
Proof.
  intros v sh c c' (L & H) (L' & H'). apply nth_ext_nat; [lia|]. intros i I. rewrite H, H' by lia. reflexivity.
Qed.
Lemma chunks_common_spec : forall v shape, length v = length shape -> exists c,
  chunks_common (Some v) shape = Ok (Some c) /\ ChunksOf v shape c.
Proof.
  intros v shape L. cbn. rewrite L, Nat.eqb_refl. cbn. eexists. split; [reflexivity|]. split.
  - rewrite map_length, combine_length, seq_length. lia.
  - intros i H. rewrite (nth_indep _ 0 ((fun '(i, l) => Nat.min (nth i v 0) l) (0, 0))) by (rewrite map_length, combine_length, seq_length; lia).
    rewrite (map_nth (fun '(i, l) => Nat.min (nth i v 0) l) (combine (seq 0 (length shape)) shape) (0, 0)), combine_nth by apply seq_length.
    rewrite seq_nth by exact H. reflexivity.
Qed.
Lemma chunks_agree : forall c shape, chunks_common c shape = chunks_distributed c shape.
Proof.
  intros [v|] shape; auto. destruct (Nat.eq_dec (length v) (length shape)) as [E|N].
  - destruct (chunks_common_spec v shape E) as (c & -> & H). destruct (chunks_dist_spec v shape E) as (c' & -> & H').
    rewrite (chunks_of_unique _ _ _ _ H H'). reflexivity.
  - cbn. apply Nat.eqb_neq in N. rewrite N. reflexivity.
Qed.
Lemma put_item_chunks : forall v it, length v = length (i_shape it) -> exists c,
  put_item (SChunks (Some v)) it = Ok (Item (i_shape it) (i_dist it) (Sets (Some c) (s_comp (i_set it)) (s_opts (i_set it))))
  /\ ChunksOf v (i_shape it) c.
Proof.
  intros v it L. destruct (chunks_dist_spec v _ L) as (c & E & H). exists c. split; auto.
  unfold put_item, put_setting. destruct (i_dist it); [|rewrite chunks_agree]; rewrite E; reflexivity.
Qed.

Lemma spec_chunks_ok : forall shape spec i, i + length shape <= length spec -> exists c,
  spec_chunks i spec shape = Ok c /\ length c = length shape
  /\ forall j, j < length shape -> nth j c 0 = Nat.min (nth (i + j) spec 0) (nth j shape 0).
Proof.
  induction shape as [|l shape IH]; intros spec i H; cbn in *.
  - exists []. repeat split; auto. intros j J. lia.
  - destruct (nth_error spec i) as [c0|] eqn:E; [|apply nth_error_None in E; lia].
    destruct (IH spec (S i) ltac:(lia)) as (c & -> & L & N). cbn. exists (Nat.min c0 l :: c). cbn. repeat split; auto.
    intros [|j] J.
    + rewrite Nat.add_0_r. rewrite (nth_error_nth _ _ 0 E). reflexivity.
    + rewrite N by lia. replace (i + S j) with (S i + j) by lia. reflexivity.
Qed.
Lemma spec_chunks_short : forall shape spec i, length spec < i + length shape -> i <= length spec -> spec_chunks i spec shape = Err IndexError.
Proof.
  induction shape as [|l shape IH]; intros spec i H G; cbn in *; [lia|].
  destruct (nth_error spec i) as [c0|] eqn:E; auto. pose proof (nth_some_lt _ _ _ _ E). rewrite IH by lia. reflexivity.
Qed.

Lemma ensure_rest : forall p it, exists it', 
  rbind (match p_comp p, s_comp (i_set it) with Some c, ANone => put_item (SComp c) it | _, _ => Ok it end) (fun it =>
  match p_opts p, s_opts (i_set it) with Some o, ONone => put_item (SOpts o) it | _, _ => Ok it end) = Ok it'
  /\ i_shape it' = i_shape it /\ i_dist it' = i_dist it /\ s_chunks (i_set it') = s_chunks (i_set it)
  /\ s_comp (i_set it') = match s_comp (i_set it), p_comp p with ANone, Some c => c | old, _ => old end
  /\ s_opts (i_set it') = match s_opts (i_set it), p_opts p with ONone, Some o => o | old, _ => old end.
Proof.
  intros [pc [pm|] [po|]] [sh di [ch [|z|cs] [|ol|oa]]]; cbn; eexists; repeat split; reflexivity.
Qed.
Lemma ensure_one_ok : forall p it, ~ TooShort p it -> exists it', ensure_one p it = Ok it' /\ Ensured p it it'.
Proof.
  intros p it NT. unfold ensure_one.
  destruct (p_chunks p) as [given|] eqn:Ep; destruct (s_chunks (i_set it)) as [old|] eqn:Es.
  1,3,4: cbn [rbind]; destruct (ensure_rest p it) as (it' & E & A1 & A2 & A3 & A4 & A5); exists it'; split; [exact E|];
    constructor; auto; rewrite A3, ?Es, ?Ep; reflexivity.
  assert (L : length (i_shape it) <= length given).
  { destruct (le_lt_dec (length (i_shape it)) (length given)); auto. exfalso. apply NT. split; eauto. }
  destruct (spec_chunks_ok (i_shape it) given 0 L) as (c & E & Lc & N). rewrite E. cbn [rbind].
  destruct (put_item_chunks c it Lc) as (c' & E' & H). rewrite E'. cbn [rbind].
  destruct (ensure_rest p (Item (i_shape it) (i_dist it) (Sets (Some c') (s_comp (i_set it)) (s_opts (i_set it))))) as (it' & F & A1 & A2 & A3 & A4 & A5).
  exists it'. split; [exact F|]. cbn in A1, A2, A3, A4, A5. constructor; auto. rewrite Es, Ep. exists c'. split; auto.
  destruct H as (Hl & Hn). split; auto. intros i I. rewrite Hn by exact I. rewrite N by exact I. cbn [Nat.add]. lia.
Qed.
Lemma ensure_one_short : forall p it, TooShort p it -> ensure_one p it = Err IndexError.
Proof.
  intros p it (Hs & given & Hp & L). unfold ensure_one. rewrite Hp, Hs. rewrite spec_chunks_short by lia. reflexivity.
Qed.
Lemma dget_not_in : forall V n (l : list (str * V)), ~ In n (map fst l) -> dget n l = None.
Proof.
  intros V n l. induction l as [|[k v] l IH]; intros H; cbn in *; auto.
  rewrite seqb_no by (intros ->; apply H; auto). apply IH. tauto.
Qed.
Definition Ensured_all (spec : list (str * dspec)) (its its' : items) : Prop :=
  forall n, match dget n its with
            | None => dget n its' = None
            | Some it => exists it', dget n its' = Some it' /\ match dget n spec with Some p => Ensured p it it' | None => it' = it end
            end.
Lemma ensure_chunked_ok : forall spec its, NoDup (map fst spec) ->
  (forall n p it, In (n, p) spec -> dget n its = Some it -> ~ TooShort p it) ->
  exists its', ensure_chunked spec its = Ok its' /\ Ensured_all spec its its'.
Proof.
  induction spec as [|[n p] spec IH]; intros its ND NT.
  - exists its. split; auto. intros n. cbn. destruct (dget n its); eauto.
  - cbn [map fst] in ND. apply NoDup_cons_iff in ND. destruct ND as (Nn & ND). cbn [ensure_chunked].
    destruct (dget n its) as [it|] eqn:G.
    + destruct (ensure_one_ok p it (NT n p it (or_introl eq_refl) G)) as (it1 & E & En). rewrite E. cbn [rbind].
      destruct (IH (dput n it1 its) ND) as (its' & E' & A).
      { intros n0 p0 it0 I0 G0. assert (n0 <> n) by (intros ->; apply Nn; apply in_map_iff; exists (n, p0); auto).
        rewrite dget_dput_other in G0 by auto. apply (NT n0); auto. right. auto. }
      exists its'. split; auto. intros n0. specialize (A n0). cbn [dget]. destruct (str_eq_dec n0 n) as [->|N0].
      * rewrite seqb_refl, G. rewrite dget_dput_same in A. destruct A as (it' & G' & A). rewrite (dget_not_in _ _ _ Nn) in A. subst it'. eauto.
      * rewrite seqb_no by exact N0. rewrite dget_dput_other in A by auto. exact A.
    + destruct (IH its ND) as (its' & E' & A).
      { intros n0 p0 it0 I0 G0. apply (NT n0); auto. right. auto. }
      exists its'. split; auto. intros n0. specialize (A n0). cbn [dget]. destruct (str_eq_dec n0 n) as [->|N0].
      * rewrite G in *. exact A.
      * rewrite seqb_no by exact N0. exact A.
Qed.
Lemma ensure_chunked_short : forall spec its, NoDup (map fst spec) ->
  (exists n p it, In (n, p) spec /\ dget n its = Some it /\ TooShort p it) -> ensure_chunked spec its = Err IndexError.
Proof.
  induction spec as [|[n p] spec IH]; intros its ND (n0 & p0 & it0 & I0 & G0 & T0); [destruct I0|].
  cbn [map fst] in ND. apply NoDup_cons_iff in ND. destruct ND as (Nn & ND). cbn [ensure_chunked].
  destruct I0 as [I0|I0].
  - injection I0; intros -> ->. rewrite G0, (ensure_one_short _ _ T0). reflexivity.
  - assert (n0 <> n) by (intros ->; apply Nn; apply in_map_iff; exists (n, p0); auto).
    destruct (dget n its) as [it|] eqn:G; [|apply IH; eauto 10].
    assert (D : TooShort p it \/ ~ TooShort p it).
    { unfold TooShort. destruct (s_chunks (i_set it)); [right; intros (? & _); discriminate|].
      destruct (p_chunks p) as [g|]; [|right; intros (_ & g & ? & _); discriminate].
      destruct (lt_dec (length g) (length (i_shape it))); [left; eauto|right; intros (_ & g' & E & ?); injection E; intros ->; lia]. }
    destruct D as [D|D]; [rewrite (ensure_one_short _ _ D); reflexivity|].
    destruct (ensure_one_ok p it D) as (it1 & E & _). rewrite E. cbn [rbind]. apply IH; auto.
    exists n0, p0, it0. rewrite dget_dput_other by auto. auto.
Qed.

(** * Settings of a task's output *)
Lemma put_all_ok : forall ks it, (forall k, In k ks -> fitting (i_shape it) k) -> exists it',
  put_all ks it = Ok it' /\ i_shape it' = i_shape it /\ i_dist it' = i_dist it
  /\ s_comp (i_set it') = last_comp ks (s_comp (i_set it)) /\ s_opts (i_set it') = last_opts ks (s_opts (i_set it))
  /\ match last_chunks ks None with
     | Some v => exists c, s_chunks (i_set it') = Some c /\ ChunksOf v (i_shape it) c
     | None => s_chunks (i_set it') = last_chunks ks (s_chunks (i_set it))
     end.
Proof.
  induction ks as [|k ks IH] using rev_ind; intros it F.
  - exists it. cbn. auto 10.
  - assert (PA : forall ks1 ks2 it0, put_all (ks1 ++ ks2) it0 = rbind (put_all ks1 it0) (put_all ks2)).
    { induction ks1 as [|q ks1 I]; intros ks2 it0; cbn; auto. destruct (put_item q it0); cbn; auto. }
    destruct (IH it) as (it1 & E & A1 & A2 & A3 & A4 & A5); [intros q Q; apply F; apply in_or_app; auto|].
    rewrite PA, E. cbn [rbind put_all]. unfold last_comp, last_opts, last_chunks in *. rewrite !fold_left_app. cbn [fold_left].
    assert (Fk : fitting (i_shape it) k) by (apply F; apply in_or_app; right; left; auto).
    destruct k as [[v|]|c|o|].
    + rewrite <- A1 in Fk. destruct (put_item_chunks v it1 Fk) as (c & Ec & Hc). rewrite Ec. cbn [rbind].
      eexists. split; [reflexivity|]. cbn. rewrite A1 in Hc. repeat split; auto. exists c. split; auto.
    + unfold put_item, put_setting.
      destruct (i_dist it1) eqn:Di; cbn [rbind chunks_distributed chunks_common]; eexists; (split; [reflexivity|]); cbn; rewrite ?Di in *; auto 10.
    + eexists. split; [reflexivity|]. cbn. auto 10.
    + eexists. split; [reflexivity|]. cbn. auto 10.
    + eexists. split; [reflexivity|]. cbn. destruct it1 as [a b c0]; cbn in *. auto 10.
Qed.
Lemma in_root_ok : forall n (its : items) it, in_group n = false -> dget n its = Some it -> in_root n its = Ok it.
Proof. intros n its it H G. unfold in_root. unfold in_group in H. rewrite H, G. reflexivity. Qed.

Lemma put_clear : forall it, put_all [SChunks None; SComp ANone; SOpts ONone] it = Ok (Item (i_shape it) (i_dist it) no_settings).
Proof. intros [sh di s]. unfold put_all, put_item, put_setting. cbn. destruct di; reflexivity. Qed.
Lemma disable_ok : forall names its, (forall n, In n names -> in_group n = false /\ exists it, dget n its = Some it) ->
  exists its', disable_all names its = Ok its' /\ forall n, dget n its' =
    match dget n its with
    | None => None
    | Some it => if existsb (seqb n) names then Some (Item (i_shape it) (i_dist it) no_settings) else Some it
    end.
Proof.
  induction names as [|n names IH]; intros its H.
  - exists its. split; auto. intros n. cbn. destruct (dget n its); reflexivity.
  - destruct (H n (or_introl eq_refl)) as (Ng & it & G). cbn [disable_all]. rewrite (in_root_ok _ _ _ Ng G). cbn [rbind].
    rewrite put_clear. cbn [rbind].
    destruct (IH (dput n (Item (i_shape it) (i_dist it) no_settings) its)) as (its' & E & A).
    { intros n0 I0. destruct (H n0 (or_intror I0)) as (Ng0 & it0 & G0). split; auto.
      destruct (str_eq_dec n0 n) as [->|N]; [rewrite dget_dput_same; eauto|rewrite dget_dput_other by auto; eauto]. }
    exists its'. split; auto. intros n0. rewrite A. cbn [existsb]. destruct (str_eq_dec n0 n) as [->|N].
    + rewrite dget_dput_same, G, seqb_refl. cbn. destruct (existsb (seqb n) names); reflexivity.
    + rewrite dget_dput_other by auto. rewrite seqb_no by auto. reflexivity.
Qed.
Lemma disable_group : forall names its, (forall n, In n names -> exists it, dget n its = Some it) ->
  (exists n, In n names /\ in_group n = true) -> disable_all names its = Err ValueError.
Proof.
  induction names as [|n names IH]; intros its H (n0 & I0 & G0); [destruct I0|]. cbn [disable_all].
  destruct (in_group n) eqn:Gn.
  - unfold in_root. unfold in_group in Gn. rewrite Gn. reflexivity.
  - destruct (H n (or_introl eq_refl)) as (it & G). rewrite (in_root_ok _ _ _ Gn G). cbn [rbind]. rewrite put_clear. cbn [rbind].
    apply IH.
    + intros n1 I1. destruct (H n1 (or_intror I1)) as (it1 & G1).
      destruct (str_eq_dec n1 n) as [->|N]; [rewrite dget_dput_same; eauto|rewrite dget_dput_other by auto; eauto].
    + destruct I0 as [->|I0]; [congruence|eauto].
Qed.

Lemma override_one_ok : forall ks it, (forall k, In k ks -> fitting (i_shape it) k) ->
  exists it', override_one ks it = Ok it' /\ Overridden ks it it'.
Proof.
  intros ks it F. destruct (put_all_ok ks it F) as (it1 & E & A1 & A2 & A3 & A4 & A5). unfold override_one. rewrite E. cbn [rbind].
  rewrite A3, A4. unfold Overridden.
  destruct (is_shorthand (last_comp ks (s_comp (i_set it)))) eqn:Sh; destruct (last_opts ks (s_opts (i_set it))) eqn:Op;
    try (exists it1; split; [reflexivity|]; rewrite A1, A2, A3, A4; auto 10).
  eexists. split; [reflexivity|]. cbn. rewrite A1, A2, A3. auto 10.
Qed.
Lemma override_ok : forall conf its, NoDup (map fst conf) -> (forall n ks, In (n, ks) conf -> in_group n = false) ->
  (forall n ks it k, In (n, ks) conf -> dget n its = Some it -> In k ks -> fitting (i_shape it) k) ->
  exists its', override conf its = Ok its' /\ forall n,
    match dget n its with
    | None => dget n its' = None
    | Some it => exists it', dget n its' = Some it' /\ match dget n conf with Some ks => Overridden ks it it' | None => it' = it end
    end.
Proof.
  induction conf as [|[n ks] conf IH]; intros its ND NG F.
  - exists its. split; auto. intros n. cbn. destruct (dget n its); eauto.
  - cbn [map fst] in ND. apply NoDup_cons_iff in ND. destruct ND as (Nn & ND). cbn [override].
    pose proof (NG n ks (or_introl eq_refl)) as Gn.
    destruct (dget n its) as [it|] eqn:G.
    + destruct (override_one_ok ks it) as (it1 & E & Ov). { intros k K. apply (F n ks it k); auto. left; auto. }
      assert (Z : match ks, existsb (ceqb slash) n with
          | [], true => if is_shorthand (s_comp (i_set it)) then match s_opts (i_set it) with ONone => Err ValueError | _ => override conf its end else override conf its
          | _, _ => rbind (in_root n its) (fun it => rbind (override_one ks it) (fun it => override conf (dput n it its)))
          end = override conf (dput n it1 its)).
      { unfold in_group in Gn. rewrite Gn. rewrite (in_root_ok _ _ _ Gn G). cbn [rbind]. rewrite E. cbn [rbind]. destruct ks; reflexivity. }
      rewrite Z. destruct (IH (dput n it1 its) ND) as (its' & E' & A).
      { intros n0 k0 I0. apply (NG n0 k0). right; auto. }
      { intros n0 k0 it0 q I0 G0 Q. assert (n0 <> n) by (intros ->; apply Nn; apply in_map_iff; exists (n, k0); auto).
        rewrite dget_dput_other in G0 by auto. apply (F n0 k0 it0 q); auto. right; auto. }
      exists its'. split; auto. intros n0. specialize (A n0). cbn [dget]. destruct (str_eq_dec n0 n) as [->|N0].
      * rewrite seqb_refl, G. rewrite dget_dput_same in A. destruct A as (it' & G' & A). rewrite (dget_not_in _ _ _ Nn) in A. subst it'. eauto.
      * rewrite seqb_no by exact N0. rewrite dget_dput_other in A by auto. exact A.
    + destruct (IH its ND) as (its' & E' & A).
      { intros n0 k0 I0. apply (NG n0 k0). right; auto. }
      { intros n0 k0 it0 q I0 G0 Q. apply (F n0 k0 it0 q); auto. right; auto. }
      exists its'. split; auto. intros n0. specialize (A n0). cbn [dget]. destruct (str_eq_dec n0 n) as [->|N0].
      * rewrite G in *. exact A.
      * rewrite seqb_no by exact N0. exact A.
Qed.

(** * Settings of the datasets in the storage *)
Definition base_set (st : state) (r : nat) (n : str) (s : settings) : Prop :=
  exists d, deref st (Base r n) = Ok d /\ d_set d = s.
Lemma base_set_roots : forall st st' r n s, roots st' = roots st -> base_set st r n s -> base_set st' r n s.
Proof. intros st st' r n s E (d & H & K). exists d. cbn in *. rewrite E. auto. Qed.
Lemma base_set_assign : forall st x d r n s, base_set st r n s ->
  (x = Base r n -> d_set d = s) -> base_set (assign st x d) r n s.
Proof.
  intros st [r0 n0|i] d r n s (d1 & H & K) Q; [|exists d1; auto].
  destruct (nth_error (roots st) r0) as [l0|] eqn:E0.
  2: { exists d1. unfold assign. rewrite E0. auto. }
  unfold assign. rewrite E0. cbn in H. destruct (Nat.eq_dec r0 r) as [->|N].
  - rewrite E0 in H. destruct (str_eq_dec n0 n) as [->|Nn].
    + destruct (dget n l0) as [d2|] eqn:G; [|discriminate]. injection H; intros ->. exists d. cbn [deref roots].
      rewrite lset_same by (apply (nth_some_lt _ _ _ _ E0)). rewrite dget_dput_same. split; auto.
    + exists d1. cbn [deref roots]. rewrite lset_same by (apply (nth_some_lt _ _ _ _ E0)). rewrite dget_dput_other by auto. auto.
  - exists d1. cbn [deref roots]. rewrite lset_other by auto. auto.
Qed.
Lemma step_settings : forall csize st o r n s, touches r n o = false -> base_set st r n s -> base_set (fst (step csize st o)) r n s.
Proof.
  intros csize st o r n s T B. unfold step. destruct (exec csize st o) as [[st' x]|e] eqn:E; auto. cbn [fst].
  destruct o; cbn [exec] in E; cbn [touches] in T.
  - destruct (nth_error (roots st) r0) as [l|] eqn:E0; [|discriminate]. destruct (negb (axis_ok shape axis)); [discriminate|].
    injection E; intros _ <-. destruct B as (d & H & K). exists d. split; auto. cbn in H |- *.
    destruct (Nat.eq_dec r0 r) as [->|N].
    + rewrite lset_same by (apply (nth_some_lt _ _ _ _ E0)). rewrite E0 in H. rewrite Nat.eqb_refl in T. cbn in T.
      rewrite dget_dput_other; auto. intros <-. rewrite seqb_refl in T. discriminate.
    + rewrite lset_other by auto. exact H.
  - destruct (deref st (Base r0 n0)) eqn:E1; [|discriminate]. cbn [rbind] in E.
    destruct (nth_error (roots st) r0) as [l|] eqn:E0; [|discriminate]. injection E; intros _ <-. destruct B as (d & H & K). exists d. split; auto.
    cbn in H |- *. destruct (Nat.eq_dec r0 r) as [->|N].
    + rewrite lset_same by (apply (nth_some_lt _ _ _ _ E0)). rewrite E0 in H. rewrite Nat.eqb_refl in T. cbn in T.
      rewrite dget_ddel_other; auto. intros <-. rewrite seqb_refl in T. discriminate.
    + rewrite lset_other by auto. exact H.
  - destruct (deref st (Base r0 n0)); [|discriminate]. injection E; intros _ <-. apply (base_set_roots st); auto.
  - destruct (deref st x0); [|discriminate]. injection E; intros _ <-. apply (base_set_roots st); auto.
  - destruct (deref st x0) as [d|]; [|discriminate]. cbn [rbind] in E. unfold deep_copy in E.
    destruct (nth_error (bufs st) (a_buf (d_data d))); [|discriminate]. destruct (nth_error (atts st) (d_attrs d)); [|discriminate].
    injection E; intros _ <-. apply (base_set_roots st); auto.
  - destruct (deref st x0) as [d|]; [|discriminate]. cbn [rbind] in E. destruct (nth_error (bufs st) (a_buf (d_data d))); [|discriminate].
    destruct (i <? length (b_vals b)); [|discriminate]. injection E; intros _ <-. apply (base_set_roots st); auto.
  - destruct (deref st x0) as [d|]; [|discriminate]. cbn [rbind] in E. destruct (nth_error (bufs st) (a_buf (d_data d))); [|discriminate].
    destruct (nth_error (b_vals b) i); [|discriminate]. injection E; intros _ <-. auto.
  - destruct (deref st x0) as [d|]; [|discriminate]. cbn [rbind] in E. destruct (nth_error (atts st) (d_attrs d)); [|discriminate].
    injection E; intros _ <-. apply (base_set_roots st); auto.
  - destruct (deref st x0) as [d|]; [|discriminate]. cbn [rbind] in E. destruct (nth_error (atts st) (d_attrs d)); [|discriminate].
    destruct (dget k l); [|discriminate]. injection E; intros _ <-. auto.
  - destruct (deref st x0) as [d|]; [|discriminate]. injection E; intros _ <-. auto.
  - unfold redistribute in E. destruct (deref st x0) as [d|] eqn:D; [|discriminate]. cbn [rbind] in E.
    destruct (a_axis (d_data d)); [|discriminate]. destruct (d_root d) as [r'|].
    + destruct (deref st (Base r' (d_name d))) as [base|] eqn:D2; [|discriminate]. cbn [rbind] in E.
      destruct (arr_redist csize (bufs st) (d_data base) axis) as [[bs a]|]; [|discriminate]. cbn [rbind] in E. injection E; intros _ <-.
      assert (Is : forall y d0, deref st y = Ok d0 -> y = Base r n -> d_set d0 = s).
      { intros y d0 H0 ->. destruct B as (d1 & H1 & K1). rewrite H1 in H0. injection H0; intros <-. exact K1. }
      assert (G : base_set (assign (assign (St bs (atts st) (roots st) (hands st)) (Base r' (d_name d)) (set_data base a)) x0 (set_data d a)) r n s).
      { apply base_set_assign; [apply base_set_assign; [apply (base_set_roots st); auto|]|].
        - apply (Is _ base D2).
        - apply (Is _ d D). }
      exact G.
    + destruct (arr_redist csize (bufs st) (d_data d) axis) as [[bs a]|]; [|discriminate]. cbn [rbind] in E. injection E; intros _ <-.
      apply base_set_assign; [apply (base_set_roots st); auto|]. intros ->. destruct B as (d1 & H1 & K1). rewrite D in H1. injection H1; intros ->. exact K1.
  - unfold set_on in E. destruct (deref st x0) as [d|] eqn:D; [|discriminate]. cbn [rbind] in E.
    destruct (put_setting (shape_of st d) (is_dist d) (d_set d) k) as [s'|]; [|discriminate]. cbn [rbind] in E. injection E; intros _ <-.
    apply base_set_assign; auto. intros ->. rewrite Nat.eqb_refl, seqb_refl in T. discriminate.
Qed.
Lemma run_settings : forall csize os st r n s, (forall o, In o os -> touches r n o = false) -> base_set st r n s ->
  base_set (fst (run csize st os)) r n s.
Proof.
  intros csize os. induction os as [|o os IH]; intros st r n s T B; auto. rewrite run_cons. cbn [fst].
  apply IH; [intros q Q; apply T; right; auto|]. apply step_settings; auto. apply T. left. auto.
Qed.
