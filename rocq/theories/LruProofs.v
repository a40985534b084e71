(** Lemmas for the LRU cache. *)
From Coq Require Import List Arith Bool Lia Sorting.Sorted.
From Verif Require Import PyBase LruModel LruSpec.
Import ListNotations.

Section P.
  Variable V : Type.
  Variable nbytes : V -> option nat.
  Variable maxsize : nat.
  Notation cache := (cache V).
  Notation step := (step V nbytes maxsize).
  Notation run := (run V nbytes maxsize).
  Notation stored := (stored V nbytes maxsize).
  Notation used_at := (used_at V nbytes maxsize).
  Notation LessRecent := (LessRecent V nbytes maxsize).
  Notation fits := (fits V nbytes maxsize).

  Definition keys (c : cache) := map fst (items V c).
  Definition total (l : list (nat * (V * nat))) := list_sum (map (fun e => snd (snd e)) l).

  Record Inv (h : list (op V)) (c : cache) : Prop := {
    inv_nodup : NoDup (keys c);
    inv_size : Forall (fun e => nbytes (fst (snd e)) = Some (snd (snd e))) (items V c);
    inv_cur : currsize V c = total (items V c);
    inv_max : currsize V c <= maxsize;
    inv_stored : Forall (fun e => stored h (fst e) = Some (fst (snd e))) (items V c);
    inv_order : StronglySorted (fun a b => LessRecent h (fst a) (fst b)) (items V c) }.

  Lemma lookup_in : forall c k v s, lookup V c k = Some (v, s) -> In (k, (v, s)) (items V c).
  Proof.
    unfold lookup. intros c k v s H. destruct (find _ _) as [[k' e]|] eqn:E; [|discriminate].
    apply find_some in E as [E1 E2]. cbn in *. apply Nat.eqb_eq in E2. subst k'.
    injection H as ->. exact E1.
  Qed.

  Lemma lookup_none : forall c k, lookup V c k = None <-> ~ In k (keys c).
  Proof.
    unfold lookup, keys. intros c k. destruct (find _ _) as [[k' e]|] eqn:E.
    - apply find_some in E as [E1 E2]. cbn in *. apply Nat.eqb_eq in E2. subst k'.
      split; [discriminate|]. intros H. exfalso. apply H. apply in_map_iff. exists (k, e). auto.
    - split; auto. intros _ H. apply in_map_iff in H as [[k' e'] [<- H]].
      apply (find_none _ _ E) in H. cbn in H. rewrite Nat.eqb_refl in H. discriminate.
  Qed.

  Lemma in_lookup : forall c k e, NoDup (keys c) -> In (k, e) (items V c) -> lookup V c k = Some e.
  Proof.
    intros c k e N H. destruct (lookup V c k) as [[v s]|] eqn:L.
    - apply lookup_in in L. unfold keys in N. destruct c as [l cur]. cbn in *.
      clear cur. induction l as [|[k1 e1] l IH]; [easy|]. cbn in N. inversion N; subst.
      cbn in H, L. destruct H as [H|H], L as [L|L].
      + congruence.
      + injection H as -> ->. exfalso. apply H2. apply in_map_iff. exists (k, (v, s)). auto.
      + injection L as -> ->. exfalso. apply H2. apply in_map_iff. exists (k, e). auto.
      + auto.
    - exfalso. apply lookup_none in L. apply L. unfold keys. apply in_map_iff. exists (k, e). auto.
  Qed.

  Lemma remove_key_notin : forall k l, ~ In k (map fst l) -> remove_key V k l = l.
  Proof.
    intros k l. induction l as [|[j e] l IH]; intros H; [reflexivity|].
    cbn in *. destruct (Nat.eqb_spec j k).
    - subst. exfalso. tauto.
    - cbn. f_equal. apply IH. tauto.
  Qed.

  Lemma remove_key_in : forall k l e, In e (remove_key V k l) <-> In e l /\ fst e <> k.
  Proof.
    intros k l e. unfold remove_key. rewrite filter_In, negb_true_iff, Nat.eqb_neq. reflexivity.
  Qed.

  Lemma remove_key_keys : forall k l, incl (map fst (remove_key V k l)) (map fst l).
  Proof.
    intros k l x H. apply in_map_iff in H as [e [<- H]]. apply remove_key_in in H.
    apply in_map. tauto.
  Qed.

  Lemma remove_key_nodup : forall k l, NoDup (map fst l) -> NoDup (map fst (remove_key V k l)).
  Proof.
    intros k l. induction l as [|[j e] l IH]; intros H; [constructor|].
    cbn in *. inversion H; subst. destruct (Nat.eqb_spec j k); cbn; auto.
    constructor; auto. intros C. apply remove_key_keys in C. auto.
  Qed.

  Lemma remove_key_sorted : forall R k l, StronglySorted R l -> StronglySorted R (remove_key V k l).
  Proof.
    intros R k l. induction 1; [constructor|]. unfold remove_key in *. cbn [filter].
    destruct (negb _); auto. constructor; auto.
    rewrite Forall_forall in *. intros x Hx. apply filter_In in Hx. apply H0. tauto.
  Qed.

  Lemma total_remove : forall k l e, NoDup (map fst l) -> In (k, e) l ->
    total l = total (remove_key V k l) + snd e.
  Proof.
    intros k l e. induction l as [|[j f] l IH]; intros N H; [easy|].
    cbn in N. inversion N; subst. unfold total in *. cbn [map]. rewrite list_sum_cons.
    cbn in H. destruct H as [H|H].
    - injection H as -> ->. unfold remove_key. cbn [filter fst]. rewrite Nat.eqb_refl. cbn [negb].
      fold (remove_key V k l). rewrite remove_key_notin; auto. cbn [snd]. lia.
    - assert (j <> k). { intros ->. apply H2. apply in_map_iff. exists (k, e). auto. }
      unfold remove_key. cbn [filter fst]. apply Nat.eqb_neq in H0. rewrite H0. cbn [negb map]. rewrite list_sum_cons.
      specialize (IH H3 H). unfold remove_key in IH. cbn [snd] in *. lia.
  Qed.

  Lemma total_app : forall a b, total (a ++ b) = total a + total b.
  Proof. intros. unfold total. now rewrite map_app, list_sum_app. Qed.

  Lemma total_single : forall k v s, total [(k, (v, s))] = s.
  Proof. intros. unfold total. cbn. lia. Qed.

  (** A pop drops the first entry. *)
  Lemma popitem_tail : forall c k e t, NoDup (keys c) -> items V c = (k, e) :: t ->
    popitem V c = Ok (mkc V t (currsize V c - snd e)).
  Proof.
    intros c k e t N H. unfold popitem, delitem. rewrite H.
    rewrite (in_lookup c k e); auto; [|rewrite H; left; reflexivity].
    destruct e as [v s]. f_equal. f_equal. unfold remove_key. cbn. rewrite Nat.eqb_refl. cbn.
    apply remove_key_notin. unfold keys in N. rewrite H in N. cbn in N. now inversion N.
  Qed.

  Lemma evict_spec : forall fuel size c, NoDup (keys c) -> currsize V c = total (items V c) ->
    size <= maxsize -> length (items V c) <= fuel ->
    exists n, evict V maxsize fuel size c
              = Ok (mkc V (skipn n (items V c)) (total (skipn n (items V c))))
      /\ total (skipn n (items V c)) + size <= maxsize
      /\ (forall m, m < n -> maxsize < total (skipn m (items V c)) + size).
  Proof.
    induction fuel as [|fuel IH]; intros size c N C Sz L; cbn [evict].
    - assert (E : items V c = []) by (destruct (items V c); [easy|cbn in L; lia]).
      exists 0. rewrite C, E. cbn. destruct (Nat.leb_spec size maxsize); [|lia].
      split; [|split; [lia|intros; lia]]. f_equal. destruct c. cbn in *. subst. reflexivity.
    - destruct (Nat.leb_spec (currsize V c + size) maxsize) as [Q|Q].
      + exists 0. cbn [skipn]. split; [|split; [lia|intros; lia]]. destruct c; cbn in *; subst; auto.
      + destruct (items V c) as [|[k e] t] eqn:E.
        { rewrite C in Q. cbn in Q. lia. }
        rewrite (popitem_tail c k e t N E). cbn [rbind].
        assert (C' : currsize V c - snd e = total t).
        { rewrite C. unfold total. cbn [map]. rewrite list_sum_cons. cbn. lia. }
        rewrite C'.
        destruct (IH size (mkc V t (total t))) as [n [E1 [E2 E3]]]; auto.
        { unfold keys in *. rewrite E in N. cbn in *. now inversion N. }
        { cbn in *. lia. }
        exists (S n). cbn [skipn items] in *. split; [exact E1|]. split; [exact E2|].
        intros m Hm. destruct m; cbn [skipn].
        * rewrite C in Q. lia.
        * apply E3. lia.
  Qed.

  (** History facts. *)
  Definition uses (o : op V) (k : nat) : Prop :=
    o = Get k \/ exists v, o = Set_ k v /\ fits v = true.

  Lemma used_snoc : forall h o i k, used_at (h ++ [o]) i k <->
    used_at h i k \/ (i = length h /\ uses o k).
  Proof.
    intros h o i k. unfold LruSpec.used_at, uses.
    destruct (Nat.lt_trichotomy i (length h)) as [L|[L|L]].
    - rewrite nth_error_app1 by lia. split; [auto|]. intros [H|[H _]]; [auto|lia].
    - subst i. rewrite nth_error_app2 by lia. rewrite Nat.sub_diag. cbn.
      assert (nth_error h (length h) = None) as -> by (apply nth_error_None; lia).
      split.
      + intros [H|[v [H1 H2]]]; right; split; auto.
        * left. congruence.
        * right. exists v. split; congruence.
      + intros [[H|[v [H _]]]|[_ [H|[v [H1 H2]]]]]; try discriminate.
        * left. now subst.
        * right. exists v. now subst.
    - assert (nth_error h i = None) as -> by (apply nth_error_None; lia).
      assert (nth_error (h ++ [o]) i = None) as ->
        by (apply nth_error_None; rewrite app_length; cbn; lia).
      split.
      + intros [H|[v [H _]]]; discriminate.
      + intros [[H|[v [H _]]]|[H _]]; try discriminate. lia.
  Qed.

  Lemma less_recent_snoc : forall h o a b, ~ uses o a -> LessRecent h a b -> LessRecent (h ++ [o]) a b.
  Proof.
    intros h o a b U [j [H1 H2]]. exists j. split.
    - apply used_snoc. auto.
    - intros i Hi. apply used_snoc in Hi as [Hi|[_ Hi]]; [auto|contradiction].
  Qed.

  Lemma used_lt : forall h i k, used_at h i k -> i < length h.
  Proof.
    intros h i k [H|[v [H _]]]; apply nth_error_Some; rewrite H; discriminate.
  Qed.

  Lemma less_recent_last : forall h o a b, uses o b -> ~ uses o a -> LessRecent (h ++ [o]) a b.
  Proof.
    intros h o a b Ub Ua. exists (length h). split.
    - apply used_snoc. auto.
    - intros i Hi. apply used_snoc in Hi as [Hi|[_ Hi]]; [|contradiction].
      eapply used_lt; eauto.
  Qed.

  Lemma less_recent_asym : forall h a b, LessRecent h a b -> LessRecent h b a -> False.
  Proof.
    intros h a b [j [H1 H2]] [j' [H3 H4]]. pose proof (H2 _ H3). pose proof (H4 _ H1). lia.
  Qed.

  Lemma stored_snoc : forall h o k, stored (h ++ [o]) k =
    match o with
    | Set_ j v => if (j =? k) && fits v then Some v else stored h k
    | Del j => if j =? k then None else stored h k
    | Get _ => stored h k
    end.
  Proof. intros. unfold LruSpec.stored. rewrite fold_left_app. reflexivity. Qed.

  (** Keeping a sublist of the entries, appending the used key. *)
  Lemma order_snoc : forall h o k (l : list (nat * (V * nat))) e, uses o k -> (forall a, uses o a -> a = k) ->
    ~ In k (map fst l) ->
    StronglySorted (fun a b => LessRecent h (fst a) (fst b)) l ->
    StronglySorted (fun a b => LessRecent (h ++ [o]) (fst a) (fst b)) (l ++ [(k, e)]).
  Proof.
    intros h o k l e U Uk N S. induction S as [|a l S IH F]; cbn.
    - constructor; constructor.
    - cbn in N. assert (fst a <> k) by (intros C; apply N; auto).
      constructor; [apply IH; tauto|]. apply Forall_app. split.
      + rewrite Forall_forall in *. intros x Hx. apply less_recent_snoc; auto.
      + constructor; [|constructor]. cbn. apply less_recent_last; auto.
  Qed.

  Lemma order_snoc_none : forall h o (l : list (nat * (V * nat))), (forall a, In a (map fst l) -> ~ uses o a) ->
    StronglySorted (fun a b => LessRecent h (fst a) (fst b)) l ->
    StronglySorted (fun a b => LessRecent (h ++ [o]) (fst a) (fst b)) l.
  Proof.
    intros h o l N S. induction S as [|a l S IH F]; cbn; constructor.
    - apply IH. intros x Hx. apply N. right. exact Hx.
    - rewrite Forall_forall in *. intros x Hx. apply less_recent_snoc; auto.
      apply N. left. reflexivity.
  Qed.

  Lemma sorted_skipn : forall A (R : A -> A -> Prop) n l, StronglySorted R l -> StronglySorted R (skipn n l).
  Proof.
    intros A R n. induction n; intros l H; [exact H|]. destruct l; [constructor|].
    cbn. apply IHn. now inversion H.
  Qed.

  Lemma nodup_skipn : forall A n (l : list A), NoDup l -> NoDup (skipn n l).
  Proof.
    intros A n. induction n; intros l H; [exact H|]. destruct l; [constructor|].
    cbn. apply IHn. now inversion H.
  Qed.

  Lemma in_skipn : forall A n (l : list A) x, In x (skipn n l) -> In x l.
  Proof.
    intros A n l x H. rewrite <- (firstn_skipn n l). apply in_or_app. auto.
  Qed.

  (** What an accepted store does. *)
  Lemma setitem_spec : forall h c k v, Inv h c -> fits v = true ->
    exists n s, nbytes v = Some s
      /\ setitem V nbytes maxsize c k v = Ok (mkc V (remove_key V k (skipn n (items V c)) ++ [(k, (v, s))])
             (total (remove_key V k (skipn n (items V c)) ++ [(k, (v, s))])))
      /\ total (remove_key V k (skipn n (items V c)) ++ [(k, (v, s))]) <= maxsize
      /\ (total (items V c) + s <= maxsize -> n = 0).
  Proof.
    intros h c k v I F. unfold LruSpec.fits in F. destruct (nbytes v) as [s|] eqn:Nv; [|discriminate].
    apply Nat.leb_le in F. unfold setitem. rewrite Nv.
    destruct (Nat.ltb_spec maxsize s); [lia|].
    assert (T : forall l, NoDup (map fst l) -> forall x,
      (match lookup V (mkc V l (total l)) k with
       | Some (_, s0) => total l + s - s0 | None => total l + s end)
      = total (remove_key V k l ++ [(k, (v, s))]) /\
      (total l + s <= maxsize -> x = 0 -> total (remove_key V k l ++ [(k, (v, s))]) <= maxsize)).
    { intros l Nl x. rewrite total_app, total_single.
      destruct (lookup V (mkc V l (total l)) k) as [[v' s']|] eqn:L.
      - apply lookup_in in L. cbn in L. pose proof (total_remove k l (v', s') Nl L) as R. cbn [snd] in R. lia.
      - apply lookup_none in L. unfold keys in L. cbn in L. rewrite remove_key_notin by auto. lia. }
    destruct (lookup V c k) as [[v0 s0]|] eqn:L.
    - destruct (Nat.ltb_spec s0 s).
      + destruct (evict_spec (length (items V c)) s c) as [n [E1 [E2 E3]]]; auto;
          try apply (inv_nodup _ _ I); try apply (inv_cur _ _ I).
        exists n, s. split; auto. rewrite E1. cbn [rbind items currsize].
        destruct (T (skipn n (items V c))) with (x := 0) as [T1 T2].
        { rewrite <- skipn_map. apply nodup_skipn. apply (inv_nodup _ _ I). }
        rewrite T1. split; [reflexivity|]. split; [auto|].
        intros Q. destruct n; auto. specialize (E3 0 ltac:(lia)). cbn [skipn] in E3. lia.
      + cbn [rbind]. rewrite L. exists 0, s. cbn [skipn]. split; auto.
        pose proof (inv_max _ _ I) as M. rewrite (inv_cur _ _ I) in M.
        assert (C : total (items V c) = total (remove_key V k (items V c)) + s0).
        { apply (total_remove k (items V c) (v0, s0)); [apply (inv_nodup _ _ I)|].
          apply lookup_in. exact L. }
        assert (C2 : total (remove_key V k (items V c) ++ [(k, (v, s))])
                     = total (remove_key V k (items V c)) + s).
        { rewrite total_app, total_single. reflexivity. }
        split; [|split; [lia|auto]]. rewrite (inv_cur _ _ I), C2.
        replace (total (items V c) + s - s0) with (total (remove_key V k (items V c)) + s) by lia.
        reflexivity.
    - destruct (evict_spec (length (items V c)) s c) as [n [E1 [E2 E3]]]; auto;
          try apply (inv_nodup _ _ I); try apply (inv_cur _ _ I).
      exists n, s. split; auto. rewrite E1. cbn [rbind items currsize].
      destruct (T (skipn n (items V c))) with (x := 0) as [T1 T2].
      { rewrite <- skipn_map. apply nodup_skipn. apply (inv_nodup _ _ I). }
      rewrite T1. split; [reflexivity|]. split; [auto|].
      intros Q. destruct n; auto. specialize (E3 0 ltac:(lia)). cbn [skipn] in E3. lia.
  Qed.

  Lemma nodup_snoc : forall A (l : list A) k, NoDup l -> ~ In k l -> NoDup (l ++ [k]).
  Proof.
    intros A l k N H. apply (NoDup_Add (a := k) (l := l)); auto.
    rewrite <- (app_nil_r l) at 1. apply Add_app.
  Qed.

  Lemma step_inv : forall h c o, Inv h c -> Inv (h ++ [o]) (step c o).
  Proof.
    intros h c o I. destruct o as [k|k v|k]; cbn [LruModel.step].
    - (* Get *)
      unfold getitem. destruct (lookup V c k) as [[v s]|] eqn:L.
      + pose proof (lookup_in _ _ _ _ L) as Li. destruct I as [I1 I2 I3 I4 I5 I6].
        assert (Nk : ~ In k (map fst (remove_key V k (items V c)))).
        { intros C. apply in_map_iff in C as [e [C1 C2]]. apply remove_key_in in C2. tauto. }
        constructor; unfold keys; cbn [items currsize].
        * rewrite map_app. apply nodup_snoc; auto. apply remove_key_nodup. exact I1.
        * apply Forall_app. split.
          -- rewrite Forall_forall in *. intros e He. apply remove_key_in in He. apply I2. tauto.
          -- constructor; [|constructor]. rewrite Forall_forall in I2. apply (I2 _ Li).
        * rewrite I3, total_app, total_single. exact (total_remove k _ _ I1 Li).
        * exact I4.
        * apply Forall_app. split.
          -- rewrite Forall_forall in *. intros e He. apply remove_key_in in He.
             rewrite stored_snoc. apply I5. tauto.
          -- constructor; [|constructor]. rewrite stored_snoc. rewrite Forall_forall in I5. apply (I5 _ Li).
        * apply order_snoc; auto.
          -- left. reflexivity.
          -- intros a [H|[v' [H _]]]; congruence.
          -- apply remove_key_sorted. exact I6.
      + destruct I as [I1 I2 I3 I4 I5 I6]. constructor; auto.
        * rewrite Forall_forall in *. intros e He. rewrite stored_snoc. auto.
        * apply order_snoc_none; auto. intros a Ha [H|[v' [H _]]]; [|discriminate].
          injection H as ->. apply lookup_none in L. contradiction.
    - (* Set *)
      destruct (fits v) eqn:Fv.
      + destruct (setitem_spec h c k v I Fv) as [n [s [Nv [E [M _]]]]]. rewrite E.
        destruct I as [I1 I2 I3 I4 I5 I6].
        set (l := skipn n (items V c)) in *.
        assert (Nk : ~ In k (map fst (remove_key V k l))).
        { intros C. apply in_map_iff in C as [e [C1 C2]]. apply remove_key_in in C2. tauto. }
        constructor; unfold keys; cbn [items currsize]; auto.
        * rewrite map_app. apply nodup_snoc; auto. apply remove_key_nodup. unfold l.
          rewrite <- skipn_map. apply nodup_skipn. exact I1.
        * apply Forall_app. split; [|constructor; [exact Nv|constructor]].
          rewrite Forall_forall in *. intros e He. apply remove_key_in in He as [He _].
          apply I2. eapply in_skipn. exact He.
        * apply Forall_app. split.
          -- rewrite Forall_forall in *. intros e He. apply remove_key_in in He as [He Hk].
             rewrite stored_snoc. destruct (Nat.eqb_spec k (fst e)); [congruence|]. cbn.
             apply I5. eapply in_skipn. exact He.
          -- constructor; [|constructor]. cbn [fst snd]. rewrite stored_snoc, Nat.eqb_refl, Fv. reflexivity.
        * apply order_snoc; auto.
          -- right. exists v. auto.
          -- intros a [H|[v' [H _]]]; congruence.
          -- apply remove_key_sorted. apply sorted_skipn. exact I6.
      + assert (E : setitem V nbytes maxsize c k v = Err ValueError).
        { unfold setitem, LruSpec.fits in *. destruct (nbytes v); [|reflexivity].
          apply Nat.leb_gt in Fv. apply Nat.ltb_lt in Fv. now rewrite Fv. }
        rewrite E. destruct I as [I1 I2 I3 I4 I5 I6]. constructor; auto.
        * rewrite Forall_forall in *. intros e He. rewrite stored_snoc, Fv, andb_false_r. auto.
        * apply order_snoc_none; auto. intros a Ha [H|[v' [H Hf]]]; [discriminate|].
          injection H as -> ->. congruence.
    - (* Del *)
      unfold delitem. destruct (lookup V c k) as [[v s]|] eqn:L.
      + pose proof (lookup_in _ _ _ _ L) as Li. destruct I as [I1 I2 I3 I4 I5 I6].
        constructor; unfold keys; cbn [items currsize].
        * apply remove_key_nodup. exact I1.
        * rewrite Forall_forall in *. intros e He. apply remove_key_in in He. apply I2. tauto.
        * rewrite I3. pose proof (total_remove k _ _ I1 Li) as R. cbn [snd] in R. lia.
        * lia.
        * rewrite Forall_forall in *. intros e He. apply remove_key_in in He as [He Hk].
          rewrite stored_snoc. destruct (Nat.eqb_spec k (fst e)); [congruence|]. auto.
        * apply order_snoc_none.
          -- intros a Ha [H|[v' [H _]]]; discriminate.
          -- apply remove_key_sorted. exact I6.
      + destruct I as [I1 I2 I3 I4 I5 I6]. constructor; auto.
        * rewrite Forall_forall in *. intros e He. rewrite stored_snoc.
          destruct (Nat.eqb_spec k (fst e)); auto. exfalso. subst k. apply lookup_none in L.
          apply L. apply in_map. exact He.
        * apply order_snoc_none; auto. intros a Ha [H|[v' [H _]]]; discriminate.
  Qed.

  Lemma run_snoc : forall h o, run (h ++ [o]) = step (run h) o.
  Proof. intros. unfold LruModel.run. rewrite fold_left_app. reflexivity. Qed.

  Lemma run_inv : forall h, Inv h (run h).
  Proof.
    intros h. induction h as [|o h IH] using rev_ind.
    - constructor; cbn; try constructor; lia.
    - rewrite run_snoc. apply step_inv. exact IH.
  Qed.

  (** Final forms. *)
  Lemma budget : forall h, list_sum (map (fun e => match nbytes (fst (snd e)) with Some s => s | None => 0 end)
      (items V (run h))) <= maxsize /\ NoDup (map fst (items V (run h))).
  Proof.
    intros h. destruct (run_inv h) as [I1 I2 I3 I4 I5 I6]. split; [|exact I1].
    rewrite I3 in I4. unfold total in I4.
    erewrite map_ext_in; [exact I4|]. intros e He. rewrite Forall_forall in I2.
    rewrite (I2 e He). reflexivity.
  Qed.

  Lemma never_lies : forall h k, match getitem V (run h) k with
    | Ok (v, _) => stored h k = Some v
    | Err e => e = KeyError end.
  Proof.
    intros h k. unfold getitem. destruct (lookup V (run h) k) as [[v s]|] eqn:L; auto.
    apply lookup_in in L. destruct (run_inv h) as [I1 I2 I3 I4 I5 I6].
    rewrite Forall_forall in I5. apply (I5 _ L).
  Qed.

  Definition held (c : cache) (k : nat) : Prop := exists e, lookup V c k = Some e.

  Lemma held_in : forall c k, NoDup (keys c) -> held c k <-> In k (keys c).
  Proof.
    intros c k N. unfold held. destruct (lookup V c k) as [e|] eqn:L.
    - split; [|eauto]. intros _. destruct e. apply lookup_in in L. unfold keys. apply in_map_iff.
      exists (k, (v, n)). auto.
    - split; [intros [e H]; discriminate|]. intros H. apply lookup_none in L. contradiction.
  Qed.

  Lemma sorted_split_order : forall h (l1 l2 : list (nat * (V * nat))) a b,
    StronglySorted (fun a b => LessRecent h (fst a) (fst b)) (l1 ++ l2) ->
    In a (map fst l1) -> In b (map fst l2) -> LessRecent h a b.
  Proof.
    intros h l1 l2 a b S Ha Hb. induction l1 as [|x l1 IH]; [easy|].
    cbn in S. inversion S; subst. cbn in Ha. destruct Ha as [<-|Ha]; [|auto].
    apply in_map_iff in Hb as [y [<- Hb]]. rewrite Forall_forall in H2. apply H2.
    apply in_or_app. auto.
  Qed.

  Lemma evicts_oldest : forall h k v a b, a <> k -> b <> k ->
    held (run h) b -> LessRecent h a b ->
    held (run (h ++ [Set_ k v])) a -> held (run (h ++ [Set_ k v])) b.
  Proof.
    intros h k v a b Ha Hb Hold Hlr Hk. pose proof (run_inv h) as I.
    rewrite run_snoc in *. pose proof (step_inv h (run h) (Set_ k v) I) as I'.
    apply held_in in Hk; [|apply I']. apply held_in; [apply I'|].
    apply held_in in Hold; [|apply I]. cbn [LruModel.step] in *.
    destruct (fits v) eqn:Fv.
    - destruct (setitem_spec h (run h) k v I Fv) as [n [s [Nv [E [M _]]]]].
      rewrite E in *. unfold keys in *. cbn [items] in *.
      rewrite map_app in *. apply in_app_or in Hk as [Hk|[Hk|[]]]; [|cbn in Hk; congruence].
      apply remove_key_keys in Hk. apply in_or_app. left.
      assert (Hb2 : In b (map fst (skipn n (items V (run h))))).
      { rewrite <- (firstn_skipn n (items V (run h))) in Hold. rewrite map_app in Hold.
        apply in_app_or in Hold as [C|C]; [|exact C]. exfalso.
        eapply less_recent_asym; [exact Hlr|].
        apply (sorted_split_order h (firstn n (items V (run h))) (skipn n (items V (run h)))); auto.
        rewrite firstn_skipn. apply I. }
      apply in_map_iff in Hb2 as [e [<- He]]. apply in_map. apply remove_key_in. auto.
    - assert (E : setitem V nbytes maxsize (run h) k v = Err ValueError).
      { unfold setitem, LruSpec.fits in *. destruct (nbytes v); [|reflexivity].
        apply Nat.leb_gt in Fv. apply Nat.ltb_lt in Fv. now rewrite Fv. }
      rewrite E in *. exact Hold.
  Qed.

  Lemma no_needless_eviction : forall h k v s a, nbytes v = Some s ->
    list_sum (map (fun e => match nbytes (fst (snd e)) with Some s => s | None => 0 end)
      (items V (run h))) + s <= maxsize ->
    held (run h) a -> held (run (h ++ [Set_ k v])) a.
  Proof.
    intros h k v s a Nv Q Hold. pose proof (run_inv h) as I.
    rewrite run_snoc in *. pose proof (step_inv h (run h) (Set_ k v) I) as I'.
    apply held_in; [apply I'|]. apply held_in in Hold; [|apply I]. cbn [LruModel.step] in *.
    assert (Q2 : total (items V (run h)) + s <= maxsize).
    { unfold total. erewrite map_ext_in in Q; [exact Q|]. intros e He. cbn.
      pose proof (inv_size _ _ I) as Z. rewrite Forall_forall in Z. rewrite (Z e He). reflexivity. }
    assert (Fv : fits v = true).
    { unfold LruSpec.fits. rewrite Nv. apply Nat.leb_le. lia. }
    destruct (setitem_spec h (run h) k v I Fv) as [n [s' [Nv' [E [M Z]]]]].
    assert (s' = s) by congruence. subst s'. rewrite (Z Q2) in *. rewrite E. unfold keys in *. cbn [items skipn].
    rewrite map_app. apply in_or_app. destruct (Nat.eq_dec a k) as [->|D]; [right; left; reflexivity|].
    left. apply in_map_iff in Hold as [e [<- He]]. apply in_map. apply remove_key_in. auto.
  Qed.

  Lemma store_works : forall h k v s, nbytes v = Some s ->
    (s <= maxsize -> exists c, setitem V nbytes maxsize (run h) k v = Ok c
       /\ lookup V c k = Some (v, s))
    /\ (maxsize < s -> setitem V nbytes maxsize (run h) k v = Err ValueError).
  Proof.
    intros h k v s Nv. split; intros H.
    - assert (Fv : fits v = true).
      { unfold LruSpec.fits. rewrite Nv. now apply Nat.leb_le. }
      pose proof (run_inv h) as I.
      destruct (setitem_spec h (run h) k v I Fv) as [n [s' [Nv' [E _]]]].
      assert (s' = s) by congruence. subst s'.
      eexists. split; [exact E|]. apply in_lookup.
      + pose proof (step_inv h (run h) (Set_ k v) I) as I'. cbn [LruModel.step] in I'.
        rewrite E in I'. apply I'.
      + cbn [items]. apply in_or_app. right. left. reflexivity.
    - unfold setitem. rewrite Nv. apply Nat.ltb_lt in H. now rewrite H.
  Qed.
End P.
