(** Programs of ranks with shared files. *)
From Coq Require Import List Arith Bool Lia Permutation.
From Verif Require Import PyBase ColModel ColSpec ColProofs ColProofs2 CioModel CioSpec.
Import ListNotations.
Open Scope nat_scope.

(** * Invariants *)
Section Inv.
  Context {S V R : Type}.
  Notation proc := (proc S V R). Notation state := (state S V R).
  Definition worldly (n : nat) (p : proc) : Prop := forall g c v k, p = Coll g c v k -> g = world n.
  Lemma upd_family : forall n r (x : proc) P, upd r x (family n P) = family n (fun j => if j =? r then x else P j).
  Proof.
    intros. apply nth_ext'. intros j. rewrite upd_nth, !family_nth. destruct (j =? r), (j <? n); auto.
  Qed.
  Lemma step_family : forall n s P t, 0 < n -> (forall r, r < n -> worldly n (P r)) -> step (s, family n P) t ->
    (exists c v k, (forall r, r < n -> P r = Coll (world n) c (v r) (k r)) /\ t = (s, family n (fun r => k r (map v (seq 0 n)))))
    \/ (exists r a q k s', r < n /\ P r = Act a q k /\ a s = Some s' /\ t = (s', family n (fun j => if j =? r then k (q s) else P j))).
  Proof.
    intros n s P t L W H. inversion H as [s1 ps g c N A E1 E2|s1 s2 ps r a q k E A E1 E2]; subst.
    - left. assert (g = world n).
      { destruct g as [|x g]; [congruence|]. destruct (A x (or_introl eq_refl)) as [v [k E]]. rewrite family_nth in E. destruct (Nat.ltb_spec x n); [|discriminate].
        injection E as E. eapply W; eauto. }
      subst g. set (v := fun r => match P r with Coll _ _ v _ => Some v | _ => None end).
      assert (B : forall r, r < n -> exists v k, P r = Coll (world n) c v k).
      { intros r Lr. destruct (A r) as [v0 [k E]]; [apply world_in; auto|]. rewrite family_nth in E. destruct (Nat.ltb_spec r n); [|lia]. injection E as E. eauto. }
      destruct (B 0 L) as [v0 [k0 _]].
      exists c, (fun r => match P r with Coll _ _ v _ => v | _ => v0 end), (fun r => match P r with Coll _ _ _ k => k | _ => k0 end).
      assert (C : forall r, r < n -> P r = Coll (world n) c (match P r with Coll _ _ v _ => v | _ => v0 end) (match P r with Coll _ _ _ k => k | _ => k0 end)).
      { intros r Lr. destruct (B r Lr) as [v1 [k1 E]]. rewrite E. auto. }
      split; auto. f_equal. apply nth_ext'. intros r. rewrite resume_nth, !family_nth. destruct (Nat.ltb_spec r n) as [Lr|]; simpl; auto. f_equal.
      replace (mem r (world n)) with true; [|symmetry; apply mem_in; apply world_in; auto].
      rewrite (values_family n P c _ _ C). destruct (B r Lr) as [v1 [k1 E]]. rewrite E. simpl. auto.
    - right. rewrite family_nth in E. destruct (Nat.ltb_spec r n); [|discriminate]. injection E as E.
      exists r, a, q, k, s2. repeat split; auto. f_equal. apply upd_family.
  Qed.
  Lemma reach_inv : forall (I : state -> Prop) s, I s -> (forall t u, I t -> step t u -> I u) -> forall t, reach s t -> I t.
  Proof. intros I s H0 H t R0. induction R0; eauto. Qed.
  Lemma always_inv : forall (I Q : state -> Prop) s, I s -> (forall t u, I t -> step t u -> I u) -> (forall t, I t -> stuck t -> Q t) -> always s Q.
  Proof. intros I Q s H0 H HQ. split; [apply never_endless|]. intros t R0 K. apply HQ; auto. eapply reach_inv; eauto. Qed.
  Lemma act_step : forall n s (P : nat -> proc) r a q k s', r < n -> P r = Act a q k -> a s = Some s' -> exists t, step (s, family n P) t.
  Proof. intros. eexists. eapply step_act with (r := r); eauto. rewrite family_nth. destruct (Nat.ltb_spec r n); [|lia]. now rewrite H0. Qed.
  Lemma returned_family : forall n (s : S) (P : nat -> proc) r x, r < n -> P r = Ret x -> returned (R := R) (s, family n P) r x.
  Proof. intros. unfold returned. cbn [snd]. rewrite family_nth. destruct (Nat.ltb_spec r n); [|lia]. now rewrite H0. Qed.
End Inv.

(** The ranks of a list which have reached a place. *)
Definition those (n : nat) (b : nat -> bool) : list nat := filter b (seq 0 n).
Lemma those_add : forall n b r, r < n -> b r = false -> Permutation (those n (fun j => if j =? r then true else b j)) (r :: those n b).
Proof.
  intros n b r L B. unfold those.
  apply NoDup_Permutation.
  - apply NoDup_filter, seq_NoDup.
  - constructor; [|apply NoDup_filter, seq_NoDup]. rewrite filter_In. intros [_ X]. congruence.
  - intros x. simpl. rewrite !filter_In, in_seq. destruct (Nat.eqb_spec x r); subst; intuition; try lia.
Qed.
Lemma those_all : forall n b, (forall r, r < n -> b r = true) -> those n b = seq 0 n.
Proof.
  intros n b H. unfold those. assert (X : forall l, (forall r, In r l -> b r = true) -> filter b l = l).
  { induction l; simpl; intros E; auto. rewrite E by auto. f_equal. auto. }
  apply X. intros r I. apply H. apply in_seq in I. lia.
Qed.
Lemma those_none : forall n b, (forall r, r < n -> b r = false) -> those n b = [].
Proof.
  intros n b H. unfold those. assert (X : forall l, (forall r, In r l -> b r = false) -> filter b l = []).
  { induction l; simpl; intros E; auto. rewrite E by auto. auto. }
  apply X. intros r I. apply H. apply in_seq in I. lia.
Qed.
Lemma those_ext : forall n b c, (forall r, r < n -> b r = c r) -> those n b = those n c.
Proof. intros n b c H. unfold those. apply filter_ext_in. intros r I. apply H. apply in_seq in I. lia. Qed.

(** Either all ranks satisfy a test or one does not. *)
Lemma all_or_not : forall n (b : nat -> bool), (forall r, r < n -> b r = true) \/ exists r, r < n /\ b r = false.
Proof.
  intros n b. destruct (forallb b (seq 0 n)) eqn:E.
  - left. intros r L. rewrite forallb_forall in E. apply E. apply in_seq. lia.
  - right. destruct (forallb_false _ _ _ E) as [r [I H]]. apply in_seq in I. exists r. split; auto. lia.
Qed.
Lemma bool_split : forall b : bool, b = true \/ b = false. Proof. intros []; auto. Qed.
Definition b2 (d : nat -> bool) (r : nat) : nat -> bool := fun j => if j =? r then true else d j.

(** * [to_zarr] *)
Section Zarr.
  Variables (n : nat) (create : bool) (nbytes : nat -> nat) (s0 : zstate).
  Hypothesis n_pos : 0 < n.
  Notation prog := (proc zstate nat (res unit)).
  Definition zat (r pc : nat) : prog :=
    let z8 := Ret (Ok tt) in
    let a7 := act (fun s => mkz (z_store s) (z_dset s) false (z_parts s)) 0 z8 in
    let z7 := if r =? 0 then a7 else z8 in
    let z6 := Coll (world n) CBarrier 0 (fun _ => z7) in
    let z5 := guarded z_dset (fun s => mkz (z_store s) (z_dset s) true (z_parts s ++ [r])) KeyError z6 in
    let z4 := Coll (world n) CBarrier 0 (fun _ => z5) in
    let z3 := if r =? 0 then act (fun s => mkz (z_store s) true (z_sync s) (z_parts s)) 0 z4 else z4 in
    let z2 := Coll (world n) CAllreduce (nbytes r) (fun _ => z3) in
    let z1 := guarded z_store (fun s => s) OtherException z2 in
    let z0 := Coll (world n) CBarrier 0 (fun _ => z1) in
    let zc := if (r =? 0) && create then act (fun s => mkz true (z_dset s) (z_sync s) (z_parts s)) 0 z0 else z0 in
    nth pc [zc; z0; z1; z2; z3; z4; z5; z6; z7; z8] (Ret (Err OtherException)).
  (** [ph]: the phase; [d r]: rank [r] has done the action of the phase. *)
  Definition zpc (ph : nat) (d : nat -> bool) (r : nat) : nat := 2 * ph + of_bool (d r).
  Definition zgood (ph : nat) (d : nat -> bool) (s : zstate) : Prop :=
    match ph with
    | 0 => z_dset s = z_dset s0 /\ z_parts s = z_parts s0 /\ (forall r, 0 < r < n -> d r = true) /\
           (if d 0 then z_store s = z_store s0 || create else create = true /\ z_store s = z_store s0)
    | 1 => z_dset s = z_dset s0 /\ z_parts s = z_parts s0 /\ z_store s = true
    | 2 => z_parts s = z_parts s0 /\ z_store s = true /\ (forall r, 0 < r < n -> d r = true) /\ (d 0 = true -> z_dset s = true)
    | 3 => z_store s = true /\ z_dset s = true /\ Permutation (z_parts s) (z_parts s0 ++ those n d)
    | 4 => z_store s = true /\ z_dset s = true /\ Permutation (z_parts s) (z_parts s0 ++ seq 0 n) /\ (forall r, 0 < r < n -> d r = true) /\ (d 0 = true -> z_sync s = false)
    | _ => False
    end.
  Definition zinv (t : state zstate nat (res unit)) : Prop :=
    exists ph d, t = (fst t, family n (fun r => zat r (zpc ph d r))) /\ zgood ph d (fst t).
  Lemma zstart : z_store s0 || create = true -> zinv (s0, family n (fun r => to_zarr n r create (nbytes r))).
  Proof.
    intros H. exists 0, (fun r => negb ((r =? 0) && create)). split.
    - cbn [fst]. f_equal. apply family_ext. intros r L. unfold zpc. destruct (r =? 0) eqn:E; simpl; [destruct create eqn:C|]; unfold to_zarr, zat; rewrite E, ?C; reflexivity.
    - cbn [fst zgood]. repeat split; auto.
      + intros r L. destruct (Nat.eqb_spec r 0); [lia|]. auto.
      + simpl. destruct create; simpl; auto. rewrite orb_false_r. auto.
  Qed.
  Hypothesis there : z_store s0 || create = true.
  Lemma z_worldly : forall r pc, worldly n (zat r pc).
  Proof.
    intros r pc g c v k. unfold zat. do 10 (destruct pc as [|pc]; [cbn [nth]; destruct (r =? 0), create; cbn [andb]; unfold act, guarded; intros E; inversion E; auto|]).
    destruct pc; discriminate.
  Qed.
  Lemma z_coll : forall ph d r c v k, zat r (zpc ph d r) = Coll (world n) c v k -> ph <= 4 -> d r = true \/ ((r <> 0 \/ create = false) /\ ph = 0) \/ (r <> 0 /\ (ph = 2 \/ ph = 4)).
  Proof.
    intros ph d r c v k E L. destruct (d r) eqn:D; auto. right. unfold zpc in E. rewrite D in E.
    destruct ph as [|[|[|[|[|]]]]]; try lia; unfold zat in E; cbn in E; destruct (Nat.eqb_spec r 0); cbn in E; auto; try discriminate.
    destruct create; cbn in E; auto; discriminate.
  Qed.
  Lemma z_done : forall r c v k, forall ph, ph <= 3 -> zat r (2 * ph + 1) = Coll (world n) c v k -> forall l, k l = zat r (2 * ph + 2).
  Proof.
    intros r c v k ph L E l. destruct ph as [|[|[|[|]]]]; try lia; unfold zat in *; cbn in *; inversion E; subst; auto.
  Qed.
  Lemma zstep : forall t u, zinv t -> step t u -> zinv u.
  Proof.
    intros [s ps] u [ph [d [E G]]] H. cbn [fst] in *. injection E as ->. apply step_family in H; auto; [|intros; apply z_worldly].
    assert (L4 : ph <= 4) by (destruct ph as [|[|[|[|[|]]]]]; simpl in G; try lia; contradiction).
    destruct H as [[c [v [k [A ->]]]]|[r [a [q [k [s' [Lr [A [As ->]]]]]]]]].
    - (* all in a call *)
      assert (D : forall r, r < n -> d r = true).
      { intros r Lr. destruct (z_coll ph d r _ _ _ (A r Lr) L4) as [D|[[C P0]|[N0 P0]]]; auto.
        - subst ph. destruct G as [_ [_ [G1 G2]]]. destruct (Nat.eq_dec r 0) as [->|]; [|apply G1; lia].
          destruct C as [C|C]; [lia|]. destruct (d 0); auto. destruct G2; congruence.
        - destruct P0 as [-> | ->]; simpl in G; apply G; lia. }
      assert (P4 : ph <= 3).
      { destruct (Nat.eq_dec ph 4); [|lia]. subst. specialize (A 0 n_pos). unfold zpc in A. rewrite D in A by auto. unfold zat in A. cbn in A. discriminate. }
      assert (N : forall r, r < n -> k r (map v (seq 0 n)) = zat r (2 * ph + 2)).
      { intros r Lr. specialize (A r Lr). unfold zpc in A. rewrite D in A by auto. eapply z_done; eauto. }
      exists (Datatypes.S ph), (fun r => negb (r =? 0) && ((ph =? 1) || (ph =? 3))). cbn [fst]. split.
      + f_equal. apply family_ext. intros r Lr. rewrite N by auto. unfold zpc. replace (2 * Datatypes.S ph) with (2 * ph + 2) by lia.
        destruct (Nat.eqb_spec r 0); cbn [negb andb of_bool]; [now rewrite Nat.add_0_r|]. destruct ph as [|[|[|[|]]]]; try lia; cbn; auto; unfold zat; cbn; destruct (Nat.eqb_spec r 0); try lia; auto.
      + destruct ph as [|[|[|[|]]]]; try lia; cbn in *.
        * rewrite (D 0) in G by auto. destruct G as [? [? [? G]]]. rewrite there in G. auto.
        * destruct G as [? [? ?]]. repeat split; auto; [|discriminate]. intros r Lr. destruct (Nat.eqb_spec r 0); [lia|auto].
        * destruct G as [? [? [? ?]]]. repeat split; auto. rewrite those_none, app_nil_r; [rewrite H; auto|]. intros. rewrite andb_false_r. auto.
        * destruct G as [? [? ?]]. repeat split; auto; [|intros r Lr; destruct (Nat.eqb_spec r 0); [lia|auto]|discriminate]. rewrite those_all in H1; auto.
    - (* one acts *)
      assert (Dr : d r = false).
      { destruct (d r) eqn:D; auto. unfold zpc in A. rewrite D in A. destruct ph as [|[|[|[|[|]]]]]; try lia; unfold zat in A; cbn in A; discriminate. }
      assert (E1 : forall f, k (q s) = zat r (2 * ph + 1) -> s' = f -> zgood ph (b2 d r) f -> zinv (s', family n (fun j => if j =? r then k (q s) else zat j (zpc ph d j)))).
      { intros f K0 -> G'. exists ph, (b2 d r). cbn [fst]. split; auto. f_equal. apply family_ext. intros j Lj. unfold zpc, b2. destruct (Nat.eqb_spec j r); [|auto]. subst j. exact K0. }
      unfold zpc in A. rewrite Dr in A. destruct ph as [|[|[|[|[|]]]]]; try lia; unfold zat in A; cbn [nth Nat.mul Nat.add of_bool] in A.
      + destruct ((r =? 0) && create) eqn:C; [|discriminate]. apply andb_true_iff in C. destruct C as [C1 C2]. apply Nat.eqb_eq in C1. subst r.
        inversion A; subst a q k; clear A. injection As as <-. eapply E1; [|reflexivity|].
        * reflexivity.
        * cbn in *. rewrite Dr in G. destruct G as [? [? [G1 G2]]]. repeat split; auto. intros j Lj. unfold b2. destruct (Nat.eqb_spec j 0); auto.
      + inversion A; subst a q k; clear A. injection As as <-. cbn in G. destruct G as [G1 [G2 G3]]. eapply E1; [cbv beta; rewrite G3; reflexivity|rewrite G3; reflexivity|]. cbn. auto.
      + destruct (r =? 0) eqn:C; [|discriminate]. apply Nat.eqb_eq in C. subst r. inversion A; subst a q k; clear A. injection As as <-. eapply E1; [reflexivity|reflexivity|].
        cbn in *. destruct G as [? [? [G1 G2]]]. repeat split; auto. intros j Lj. unfold b2. destruct (Nat.eqb_spec j 0); auto.
      + inversion A; subst a q k; clear A. injection As as <-. cbn in G. destruct G as [G1 [G2 G3]]. eapply E1; [cbv beta; rewrite G2; reflexivity|rewrite G2; reflexivity|]. cbn. repeat split; auto.
        unfold b2. rewrite those_add by auto. rewrite G3. rewrite <- app_assoc. apply Permutation_app_head. symmetry. apply Permutation_cons_append.
      + destruct (r =? 0) eqn:C; [|discriminate]. apply Nat.eqb_eq in C. subst r. inversion A; subst a q k; clear A. injection As as <-. eapply E1; [reflexivity|reflexivity|].
        cbn in *. destruct G as [? [? [? [G1 G2]]]]. repeat split; auto. intros j Lj. unfold b2. destruct (Nat.eqb_spec j 0); auto.
  Qed.
  Lemma zprogress : forall t, zinv t -> stuck t -> fst t = fst t /\ exists d, t = (fst t, family n (fun r => zat r (zpc 4 d r))) /\ zgood 4 d (fst t) /\ d 0 = true.
  Proof.
    intros [s ps] [ph [d [E G]]] K. cbn [fst] in *. injection E as ->. split; auto.
    assert (L4 : ph <= 4) by (destruct ph as [|[|[|[|[|]]]]]; simpl in G; try lia; contradiction).
    destruct (all_or_not n d) as [D|[r [Lr Dr]]].
    - destruct (Nat.eq_dec ph 4) as [->|N]; [exists d; auto|]. exfalso.
      assert (X : exists c v k, forall r, r < n -> zat r (zpc ph d r) = Coll (world n) c (v r) (k r)).
      { assert (Y : exists c, forall r, exists v k, zat r (2 * ph + 1) = Coll (world n) c v k).
        { destruct ph as [|[|[|[|]]]]; try lia; eexists; intros r; unfold zat; cbn; do 2 eexists; reflexivity. }
        destruct Y as [c Y]. exists c, (fun r => match zat r (2 * ph + 1) with Coll _ _ v _ => v | _ => 0 end), (fun r => match zat r (2 * ph + 1) with Coll _ _ _ k => k | _ => fun _ => Ret (Ok tt) end).
        intros r Lr. unfold zpc. rewrite D by auto. destruct (Y r) as [v [k E]]. change (of_bool true) with 1. rewrite E. auto. }
      destruct X as [c [v [k X]]]. eapply K. eapply step_world; eauto.
    - exfalso. assert (X : exists a q k s', zat r (zpc ph d r) = Act a q k /\ a s = Some s').
      { unfold zpc. rewrite Dr. destruct ph as [|[|[|[|[|]]]]]; try lia; unfold zat; cbn [nth Nat.mul Nat.add of_bool]; cbn in G.
        - destruct G as [_ [_ [G1 G2]]]. destruct (Nat.eqb_spec r 0) as [->|N]; [|rewrite G1 in Dr by lia; discriminate]. rewrite Dr in G2. destruct G2 as [-> _]. cbn. do 4 eexists. split; reflexivity.
        - do 4 eexists. split; reflexivity.
        - destruct (Nat.eqb_spec r 0) as [->|N]; [do 4 eexists; split; reflexivity|]. destruct G as [_ [_ [G1 _]]]. rewrite G1 in Dr by lia. discriminate.
        - do 4 eexists. split; reflexivity.
        - destruct (Nat.eqb_spec r 0) as [->|N]; [do 4 eexists; split; reflexivity|]. destruct G as [_ [_ [_ [G1 _]]]]. rewrite G1 in Dr by lia. discriminate. }
      destruct X as [a [q [k [s' [X1 X2]]]]]. destruct (act_step n s (fun r => zat r (zpc ph d r)) r a q k s' Lr X1 X2) as [u Hu]. eapply K; eauto.
  Qed.
  Theorem zarr_all : always (s0, family n (fun r => to_zarr n r create (nbytes r))) (fun t =>
    (forall r, r < n -> returned t r (Ok tt)) /\ z_store (fst t) = true /\ z_dset (fst t) = true /\ z_sync (fst t) = false
    /\ Permutation (z_parts (fst t)) (z_parts s0 ++ seq 0 n)).
  Proof.
    apply always_inv with (I := zinv); [apply zstart; auto|apply zstep|]. intros t H K. destruct (zprogress t H K) as [_ [d [E [G D0]]]].
    cbn in G. destruct G as [G1 [G2 [G3 [G4 G5]]]]. split; [|auto 6]. intros r Lr. rewrite E. apply returned_family; auto.
    unfold zpc. replace (d r) with true; [reflexivity|]. destruct (Nat.eq_dec r 0) as [->|]; [auto|symmetry; apply G4; lia].
  Qed.
End Zarr.
