(** Lock files. *)
From Coq Require Import List Arith Bool Lia Permutation.
From Verif Require Import PyBase ColModel ColSpec ColProofs ColProofs2 CioModel CioSpec CioProofs2.
Import ListNotations.
Open Scope nat_scope.

Section Save.
  Variables (n : nat) (fails : nat -> option exn) (s0 : lstate).
  Hypothesis n_pos : 0 < n.
  Notation prog := (proc lstate nat (res unit)).
  Notation state := (state lstate nat (res unit)).
  Definition lbar (r : nat) : prog := Coll (world n) CBarrier 0 (fun _ => lock_exit (r =? 0) (Ok tt)).
  Definition lstart (r : nat) : prog :=
    match fails r with
    | Some e => lock_exit (r =? 0) (Err e)
    | None => Act (fun s => Some (if is_some (l_tmp s) then add s r else s)) (fun s => of_bool (is_some (l_tmp s)))
                (fun v => if v =? 1 then lbar r else lock_exit (r =? 0) (Err FileNotFoundError))
    end.
  Definition lbc (r : nat) : prog := Coll (world n) (CBcast 0) 0 (fun _ => lstart r).
  Definition lleave (x : res unit) : prog := guarded l_lock (fun s => mkl (l_tmp s) (l_final s) false) FileNotFoundError (Ret x).
  Definition lA (y : nat) : prog :=
    let y1 := act (fun s => mkl (Some []) (l_final s) (l_lock s)) 0 (lbc 0) in
    nth y [act (fun s => mkl (l_tmp s) (l_final s) true) 0 y1; y1] (lbc 0).
  (** The same program up to the functions inside. *)
  Inductive same : prog -> prog -> Prop :=
  | same_ret : forall x, same (Ret x) (Ret x)
  | same_coll : forall g c v k k', (forall l, same (k l) (k' l)) -> same (Coll g c v k) (Coll g c v k')
  | same_act : forall a q k k', (forall v, same (k v) (k' v)) -> same (Act a q k) (Act a q k').
  Lemma same_refl : forall p, same p p.
  Proof. induction p; constructor; auto. Qed.
  Definition sames (t u : state) : Prop := fst t = fst u /\ Forall2 same (snd t) (snd u).
  Lemma same_sv : forall r, same (save_distributed n r (fails r)) (if r =? 0 then lA 0 else lbc r).
  Proof.
    intros r. assert (B : same (pbind (match fails r with
              | Some e => Ret (Err e)
              | None => guarded (fun s => is_some (l_tmp s)) (fun s => add s r) FileNotFoundError (Coll (world n) CBarrier 0 (fun _ => Ret (Ok tt)))
              end) (lock_exit (r =? 0))) (lstart r)).
    { unfold lstart. destruct (fails r); [apply same_refl|]. constructor. intros v. destruct (v =? 1); apply same_refl. }
    unfold save_distributed, with_lock. destruct (Nat.eqb_spec r 0).
    - subst. unfold lA, act. cbn [nth pbind]. constructor. intros _. constructor. intros _. constructor. intros _. exact B.
    - constructor. intros _. exact B.
  Qed.
  Lemma F2_nth : forall A B (Q : A -> B -> Prop) l l', Forall2 Q l l' -> forall r, match nth_error l r, nth_error l' r with Some x, Some y => Q x y | None, None => True | _, _ => False end.
  Proof. induction 1; intros [|r]; simpl; auto. apply IHForall2. Qed.
  Lemma nth_F2 : forall A B (Q : A -> B -> Prop) l l', (forall r, match nth_error l r, nth_error l' r with Some x, Some y => Q x y | None, None => True | _, _ => False end) -> Forall2 Q l l'.
  Proof.
    induction l; intros [|b l'] H; auto; try (specialize (H 0); simpl in H; contradiction). constructor; [exact (H 0)|]. apply IHl. intros r. exact (H (Datatypes.S r)).
  Qed.
  Lemma same_values : forall g ps qs, Forall2 same ps qs -> values g ps = values g qs.
  Proof.
    intros g ps qs H. unfold values. induction g as [|r g IH]; simpl; auto. rewrite IH. f_equal. unfold value_at. pose proof (F2_nth _ _ _ _ _ H r) as X.
    destruct (nth_error ps r), (nth_error qs r); try contradiction; auto. destruct X; auto.
  Qed.
  Lemma same_sym : forall p q, same p q -> same q p. Proof. induction 1; constructor; auto. Qed.
  Lemma same_step : forall t u t', sames t u -> step t t' -> exists u', step u u' /\ sames t' u'.
  Proof.
    intros [s ps] [s1 qs] t' [E F] T. cbn in E, F. subst s1. inversion T as [s1 ps1 g c N A E1 E2|s1 s2 ps1 r a q k X A E1 E2]; subst.
    - exists (s, resume g qs). split.
      + apply step_coll with (c := c); auto. intros r I. destruct (A r I) as [v [k X]]. pose proof (F2_nth _ _ _ _ _ F r) as Y. rewrite X in Y.
        destruct (nth_error qs r) as [p|]; [|contradiction]. inversion Y; subst. eauto.
      + split; auto. cbn [snd]. apply nth_F2. intros r. rewrite !resume_nth, (same_values g _ _ F). pose proof (F2_nth _ _ _ _ _ F r) as Y.
        destruct (nth_error ps r) as [p|], (nth_error qs r) as [p'|]; simpl; auto. destruct (mem r g); auto. destruct Y; simpl; auto; constructor; auto.
    - pose proof (F2_nth _ _ _ _ _ F r) as Y. rewrite X in Y. destruct (nth_error qs r) as [p|] eqn:X'; [|contradiction]. inversion Y; subst.
      exists (s2, upd r (k' (q s)) qs). split; [eapply step_act; eauto|]. split; auto. cbn [snd]. apply nth_F2. intros j. rewrite !upd_nth. pose proof (F2_nth _ _ _ _ _ F j) as Z0.
      destruct (j =? r); auto. destruct (nth_error ps j), (nth_error qs j); simpl; auto.
  Qed.
  Lemma sames_sym : forall t u, sames t u -> sames u t.
  Proof. intros t u [E F]. split; auto. clear E. induction F; constructor; auto using same_sym. Qed.
  Lemma same_reach : forall t t', reach t t' -> forall u, sames t u -> exists u', reach u u' /\ sames t' u'.
  Proof.
    induction 1; intros w Hw; [exists w; split; auto; constructor|]. destruct (same_step _ _ _ Hw H) as [u1 [X1 X2]]. destruct (IHreach u1 X2) as [u2 [Y1 Y2]].
    exists u2. split; auto. econstructor; eauto.
  Qed.
  Lemma same_stuck : forall t u, sames t u -> stuck t -> stuck u.
  Proof. intros t u H K v T. destruct (same_step _ _ _ (sames_sym _ _ H) T) as [v' [X _]]. eapply K; eauto. Qed.

  (** After the broadcast. *)
  Definition place (r pos : nat) (p : prog) : Prop :=
    match pos with
    | 0 => p = lstart r
    | 1 => p = lbar r /\ fails r = None
    | 2 => r = 0 /\ exists e, fails 0 = Some e /\ p = lleave (Err e)
    | _ => exists e, p = Ret (Err e) /\ (fails r <> None \/ fails 0 <> None) /\ (r = 0 -> fails 0 = Some e)
    end.
  Definition one (pos : nat -> nat) (r : nat) : bool := pos r =? 1.
  Inductive linv : state -> Prop :=
  | li0 : forall y s P, y <= 2 -> l_final s = l_final s0 -> (0 < y -> l_lock s = true) -> (y = 2 -> l_tmp s = Some []) ->
      (forall r, r < n -> P r = if r =? 0 then lA y else lbc r) -> linv (s, family n P)
  | li1 : forall pos s P, l_final s = l_final s0 -> (pos 0 <= 2 -> l_lock s = true) -> (2 < pos 0 -> l_lock s = false) ->
      (pos 0 <= 1 -> exists l, l_tmp s = Some l /\ Permutation l (those n (one pos))) -> (1 < pos 0 -> l_tmp s = None) ->
      (forall r, r < n -> place r (pos r) (P r)) -> linv (s, family n P)
  | li2 : forall x l s P, x <= 2 -> Permutation l (seq 0 n) -> (forall r, r < n -> fails r = None) ->
      (if x =? 0 then l_final s = l_final s0 /\ l_tmp s = Some l else l_final s = Some l /\ l_tmp s = None) -> l_lock s = (x <? 2) ->
      (forall r, r < n -> P r = if r =? 0 then nth x [lock_exit true (Ok tt); lleave (Ok tt)] (Ret (Ok tt)) else Ret (Ok tt)) -> linv (s, family n P).
  Lemma l_start : linv (s0, family n (fun r => if r =? 0 then lA 0 else lbc r)).
  Proof. apply li0 with (y := 0); auto; try lia. Qed.
  Lemma lA_world : forall y, worldly n (lA y).
  Proof. intros [|[|[|y]]] g c v k E; inversion E; auto. Qed.
  Lemma exit_world : forall m x, worldly n (lock_exit m x).
  Proof. intros [] []; intros g c v k E; inversion E; auto. Qed.
  Lemma place_world : forall r pos p, place r pos p -> worldly n p.
  Proof.
    intros r [|[|[|pos]]] p H g c v k E; simpl in H.
    - subst p. unfold lstart in E. destruct (fails r); [eapply exit_world; eauto|discriminate].
    - destruct H as [H _]. subst. inversion E. auto.
    - destruct H as [_ [e [_ H]]]. subst. discriminate.
    - destruct H as [e [H _]]. subst. discriminate.
  Qed.
  Lemma l_step : forall t u, linv t -> step t u -> linv u.
  Proof.
    intros t u H T. destruct H as [y s P Ly Hf Hl Ht HP|pos s P Hf Hl Hl2 Ht Ht2 HP|x l s P Lx Hp Hn Hs Hl HP].
    - apply step_family in T; auto.
      + destruct T as [[c [v [k [A ->]]]]|[r [a [q [k [s' [Lr [A [As ->]]]]]]]]].
        * assert (y = 2). { specialize (A 0 n_pos). rewrite HP in A by auto. destruct y as [|[|y]]; try discriminate. lia. }
          subst y. apply li1 with (pos := fun _ => 0); auto; try lia.
          -- intros _. exists []. split; auto. rewrite those_none; auto.
          -- intros r L. specialize (A r L). rewrite HP in A by auto. unfold place. destruct (Nat.eqb_spec r 0); [subst; inversion A; auto|inversion A; auto].
        * rewrite HP in A by auto. destruct (Nat.eqb_spec r 0) as [->|]; [|discriminate].
          destruct y as [|[|y]]; [| |unfold lA in A; cbn [nth] in A; destruct y; discriminate]; unfold lA, act in A; cbn [nth] in A; inversion A; subst a q k; clear A; injection As as <-.
          -- apply li0 with (y := 1); auto; try lia; try discriminate. intros r L. destruct (Nat.eqb_spec r 0); [reflexivity|]. rewrite HP by auto. destruct (Nat.eqb_spec r 0); [lia|auto].
          -- apply li0 with (y := 2); auto; try lia. intros r L. destruct (Nat.eqb_spec r 0); [reflexivity|]. rewrite HP by auto. destruct (Nat.eqb_spec r 0); [lia|auto].
      + intros r L. rewrite HP by auto. destruct (r =? 0); [apply lA_world|]. intros g c v k E. inversion E. auto.
    - apply step_family in T; auto; [|intros r L; eapply place_world; eauto].
      destruct T as [[c [v [k [A ->]]]]|[r [a [q [k [s' [Lr [A [As ->]]]]]]]]].
      + assert (B : forall r, r < n -> pos r = 1).
        { intros r L. specialize (A r L). specialize (HP r L). destruct (pos r) as [|[|[|x]]]; auto; simpl in HP.
          - rewrite HP in A. unfold lstart in A. destruct (fails r); [destruct (r =? 0); discriminate|discriminate].
          - destruct HP as [_ [e [_ E]]]. rewrite E in A. discriminate.
          - destruct HP as [e [E _]]. rewrite E in A. discriminate. }
        destruct Ht as [l [E1 E2]]; [rewrite B; auto|]. rewrite those_all in E2 by (intros r L; unfold one; rewrite B by auto; auto).
        apply li2 with (x := 0) (l := l); [lia|auto| | | |].
        * intros r L. specialize (HP r L). rewrite B in HP by auto. destruct HP. auto.
        * cbn. auto.
        * cbn. apply Hl. rewrite B; auto.
        * intros r L. specialize (HP r L). specialize (A r L). rewrite B in HP by auto. destruct HP as [E _]. rewrite E in A. inversion A. destruct (r =? 0); reflexivity.
      + pose proof (HP r Lr) as Hr. destruct (pos r) as [|[|[|x]]] eqn:Ep; simpl in Hr.
        * rewrite Hr in A. unfold lstart in A. destruct (fails r) as [e|] eqn:Ef.
          -- destruct (Nat.eqb_spec r 0) as [->|]; [|discriminate]. unfold lock_exit, guarded in A. inversion A; subst a q k; clear A. destruct Ht as [l [E1 E2]]; [lia|].
             rewrite E1 in As. cbn in As. injection As as <-. apply li1 with (pos := fun j => if j =? 0 then 2 else pos j); cbn; auto; try lia.
             ++ intros _. apply Hl. lia.
             ++ intros j Lj. destruct (Nat.eqb_spec j 0); [|apply HP; auto]. subst j. split; auto. exists e. split; auto. rewrite E1. reflexivity.
          -- inversion A; subst a q k; clear A. destruct (l_tmp s) as [l|] eqn:E1.
             ++ cbn in As. injection As as <-. apply li1 with (pos := fun j => if j =? r then 1 else pos j).
                ** unfold add. cbn. auto.
                ** intros X. cbn. apply Hl. destruct (Nat.eqb_spec 0 r); [subst; lia|auto].
                ** intros X. cbn. apply Hl2. destruct (Nat.eqb_spec 0 r); [subst; lia|auto].
                ** intros X. assert (pos 0 <= 1) by (destruct (Nat.eqb_spec 0 r); [subst; lia|auto]). destruct (Ht H) as [l' [E2 E3]]. injection E2 as ->.
                   exists (l' ++ [r]). unfold add. rewrite E1. cbn. split; auto. rewrite (those_ext n _ (b2 (one pos) r)).
                   --- unfold b2. rewrite those_add by (unfold one; auto; rewrite Ep; auto). rewrite E3. symmetry. apply Permutation_cons_append.
                   --- intros j Lj. unfold one, b2. destruct (Nat.eqb_spec j r); auto.
                ** intros X. exfalso. assert (1 < pos 0) by (destruct (Nat.eqb_spec 0 r); [subst; lia|auto]). apply Ht2 in H. discriminate.
                ** intros j Lj. destruct (Nat.eqb_spec j r); [|apply HP; auto]. subst j. cbn. auto.
             ++ cbn in As. injection As as <-. cbn. assert (P0 : 1 < pos 0). { destruct (le_lt_dec (pos 0) 1); auto. destruct (Ht l) as [? [? _]]. discriminate. }
                assert (Nr : r <> 0) by (intros ->; lia). assert (F0 : fails 0 <> None).
                { specialize (HP 0 n_pos). destruct (pos 0) as [|[|[|x]]] eqn:Ep0; try lia; cbn in HP.
                  - destruct HP as [_ [e [X _]]]. congruence.
                  - destruct HP as [e [_ [_ X]]]. rewrite X by auto. discriminate. }
                apply li1 with (pos := fun j => if j =? r then 3 else pos j); destruct (Nat.eqb_spec 0 r); try (exfalso; lia); auto.
                ** intros X. lia.
                ** intros j Lj. destruct (Nat.eqb_spec j r); [|apply HP; auto]. subst j. cbn. destruct (Nat.eqb_spec r 0); [lia|]. exists FileNotFoundError. repeat split; auto. intros; lia.
        * destruct Hr as [E _]. rewrite E in A. discriminate.
        * destruct Hr as [-> [e [Ef E]]]. rewrite E in A. unfold lleave, guarded in A. inversion A; subst a q k; clear A. rewrite Hl in As by lia. injection As as <-. rewrite Hl by lia.
          apply li1 with (pos := fun j => if j =? 0 then 3 else pos j); cbn; auto; try lia.
          -- intros _. apply Ht2. lia.
          -- intros j Lj. destruct (Nat.eqb_spec j 0); [|apply HP; auto]. subst j. exists e. repeat split; auto. left. congruence.
        * destruct Hr as [e [E _]]. rewrite E in A. discriminate.
    - apply step_family in T; auto.
      + destruct T as [[c [v [k [A ->]]]]|[r [a [q [k [s' [Lr [A [As ->]]]]]]]]].
        * specialize (A 0 n_pos). rewrite HP in A by auto. destruct x as [|[|[|x]]]; discriminate.
        * rewrite HP in A by auto. destruct (Nat.eqb_spec r 0) as [->|]; [|discriminate]. destruct x as [|[|x]]; [| |cbn [nth] in A; destruct x; discriminate]; cbn [nth Nat.eqb] in *.
          -- destruct Hs as [Hf Ht]. unfold lock_exit, guarded in A. inversion A; subst a q k; clear A. rewrite Ht in As. cbn in As. injection As as <-.
             apply li2 with (x := 1) (l := l); cbn; auto. intros j Lj. destruct (Nat.eqb_spec j 0); [subst; rewrite Ht; reflexivity|]. rewrite HP by auto. destruct (Nat.eqb_spec j 0); [lia|auto].
          -- destruct Hs as [Hf Ht]. unfold lleave, guarded in A. inversion A; subst a q k; clear A. change (1 <? 2) with true in Hl. rewrite Hl in As. injection As as <-. rewrite Hl.
             apply li2 with (x := 2) (l := l); cbn; auto. intros j Lj. destruct (Nat.eqb_spec j 0); [reflexivity|]. rewrite HP by auto. destruct (Nat.eqb_spec j 0); [lia|auto].
      + intros r L. rewrite HP by auto. destruct (r =? 0); [|intros g c v k E; discriminate]. destruct x as [|[|x]]; [apply exit_world|intros g c v k E; discriminate|]. destruct x; intros g c v k E; discriminate.
  Qed.
  Definition waits_or (P : nat -> prog) (r : nat) : Prop := P r = lbar r.
  Lemma l_end : forall t, linv t -> stuck t ->
    (exists s P l, t = (s, family n P) /\ (forall r, r < n -> fails r = None) /\ s = mkl None (Some l) false /\ Permutation l (seq 0 n) /\ forall r, r < n -> P r = Ret (Ok tt))
    \/ (exists s P, t = (s, family n P) /\ l_final s = l_final s0 /\ (exists r, r < n /\ fails r <> None)
        /\ (forall e, fails 0 = Some e -> P 0 = Ret (Err e) /\ l_tmp s = None /\ l_lock s = false)
        /\ (fails 0 = None -> P 0 = lbar 0 /\ l_tmp s <> None /\ l_lock s = true)
        /\ forall r, r < n -> (fails r <> None -> exists e, P r = Ret (Err e)) /\ (fails r = None -> P r = lbar r \/ (fails 0 <> None /\ exists e, P r = Ret (Err e)))).
  Proof.
    intros t H K. destruct H as [y s P Ly Hf Hl Ht HP|pos s P Hf Hl Hl2 Ht Ht2 HP|x l s P Lx Hp Hn Hs Hl HP].
    - exfalso. destruct (Nat.eq_dec y 2) as [->|N].
      + eapply K. eapply step_world with (c := CBcast 0) (v := fun _ => 0) (k := fun r _ => lstart r); auto. intros r L. rewrite HP by auto. destruct (Nat.eqb_spec r 0); subst; reflexivity.
      + assert (Y : exists a q k s', lA y = Act a q k /\ a s = Some s') by (destruct y as [|[|]]; try lia; do 4 eexists; split; reflexivity).
        destruct Y as [a [q [k [s' [Y1 Y2]]]]]. destruct (act_step n s P 0 a q k s' n_pos ltac:(rewrite HP by auto; exact Y1) Y2) as [u Hu]. eapply K; eauto.
    - right. exists s, P. split; auto. split; auto.
      assert (A : forall r, r < n -> (exists e, P r = Ret (Err e) /\ (fails r <> None \/ fails 0 <> None) /\ (r = 0 -> fails 0 = Some e /\ 2 < pos 0)) \/ (P r = lbar r /\ fails r = None /\ pos r = 1)).
      { intros r L. pose proof (HP r L) as Hr. destruct (pos r) as [|[|[|x]]] eqn:Ep; simpl in Hr.
        - unfold lstart in Hr. destruct (fails r) as [e|] eqn:Ef.
          + destruct (Nat.eqb_spec r 0) as [->|N].
            * exfalso. destruct (act_step n s P 0 _ _ _ _ n_pos Hr eq_refl) as [u Hu]. eapply K; eauto.
            * left. exists e. split; auto. split; [left; congruence|intros; lia].
          + exfalso. destruct (act_step n s P r _ _ _ _ L Hr eq_refl) as [u Hu]. eapply K; eauto.
        - destruct Hr. auto.
        - exfalso. destruct Hr as [-> [e [Ef E]]]. destruct (act_step n s P 0 _ _ _ _ n_pos E eq_refl) as [u Hu]. eapply K; eauto.
        - left. destruct Hr as [e [E1 [E2 E3]]]. exists e. split; auto. split; auto. intros ->. split; auto. lia. }
      split.
      { destruct (all_or_not n (fun r => match fails r with None => true | _ => false end)) as [B|[r [L B]]].
        - exfalso. assert (C : forall r, r < n -> P r = lbar r).
          { intros r L. destruct (A r L) as [[e [_ [X _]]]|[X _]]; auto. pose proof (B r L). pose proof (B 0 n_pos). cbv beta in *. destruct X as [X|X]; [destruct (fails r)|destruct (fails 0)]; congruence. }
          eapply K. eapply step_world with (c := CBarrier) (v := fun _ => 0) (k := fun r _ => lock_exit (r =? 0) (Ok tt)); auto.
        - exists r. split; auto. destruct (fails r); congruence. }
      split; [|split].
      + intros e Ef. destruct (A 0 n_pos) as [[e' [X [_ Y]]]|[_ [Y _]]]; [|congruence]. destruct Y as [Y1 Y2]; auto. rewrite Y1 in Ef. injection Ef as <-. repeat split; auto. apply Ht2. lia.
      + intros Ef. destruct (A 0 n_pos) as [[e' [X [_ Y]]]|[X [_ Y]]]; [destruct Y; auto; congruence|]. split; auto. split; [|apply Hl; lia].
        destruct Ht as [l [E _]]; [lia|]. congruence.
      + intros r L. destruct (A r L) as [[e [X [Y Z0]]]|[X [Y Z0]]].
        * split; [eauto|]. intros Ef. right. split; eauto. destruct Y; congruence.
        * split; [congruence|auto].
    - left. destruct (Nat.eq_dec x 2) as [->|N].
      + exists s, P, l. cbn in Hs, Hl. destruct Hs as [Hs1 Hs2]. destruct s as [a b c]; cbn in *. subst. repeat split; auto. intros r L. rewrite HP by auto. destruct (r =? 0); auto.
      + exfalso. assert (Y : exists a q k s', nth x [lock_exit true (Ok tt); lleave (Ok tt)] (Ret (Ok tt)) = Act a q k /\ a s = Some s') by (destruct x as [|[|]]; try lia; do 4 eexists; split; reflexivity).
        destruct Y as [a [q [k [s' [Y1 Y2]]]]]. destruct (act_step n s P 0 a q k s' n_pos ltac:(rewrite HP by auto; exact Y1) Y2) as [u Hu]. eapply K; eauto.
  Qed.

  Notation S0 := (s0, family n (fun r => save_distributed n r (fails r))).
  Lemma S0_same : sames S0 (s0, family n (fun r => if r =? 0 then lA 0 else lbc r)).
  Proof. split; auto. cbn [snd]. apply nth_F2. intros r. rewrite !family_nth. destruct (r <? n); auto. apply same_sv. Qed.
  Lemma S0_inv : forall t, reach S0 t -> exists u, sames t u /\ linv u.
  Proof.
    intros t H. destruct (same_reach _ _ H _ S0_same) as [u [X Y]]. exists u. split; auto. eapply reach_inv; [apply l_start|apply l_step|exact X].
  Qed.
  Lemma same_returned : forall t s P r x, sames t (s, family n P) -> r < n -> P r = Ret x -> returned t r x.
  Proof.
    intros t s P r x [_ F] L E. unfold returned. cbn [snd] in F. pose proof (F2_nth _ _ _ _ _ F r) as X. rewrite family_nth in X. destruct (Nat.ltb_spec r n); [|lia].
    rewrite E in X. destruct (nth_error (snd t) r); [|contradiction]. inversion X. auto.
  Qed.
  Lemma same_waits : forall t s P r, sames t (s, family n P) -> r < n -> P r = lbar r -> waits t r.
  Proof.
    intros t s P r [_ F] L E. unfold waits. cbn [snd] in F. pose proof (F2_nth _ _ _ _ _ F r) as X. rewrite family_nth in X. destruct (Nat.ltb_spec r n); [|lia].
    rewrite E in X. destruct (nth_error (snd t) r); [|contradiction]. inversion X; subst. eauto 6.
  Qed.
  Theorem lock_fine : (forall r, r < n -> fails r = None) -> always S0 (fun t => (forall r, r < n -> returned t r (Ok tt)) /\
    exists l, fst t = mkl None (Some l) false /\ Permutation l (seq 0 n)).
  Proof.
    intros Hn. split; [apply never_endless|]. intros t H K. destruct (S0_inv t H) as [u [Su Iu]].
    destruct (l_end u Iu (same_stuck _ _ Su K)) as [[s [P [l [E [_ [Es [Pl HP]]]]]]]|[s [P [_ [_ [[r [L X]] _]]]]]]; [|exfalso; apply X; auto].
    subst u. split; [intros; eapply same_returned; eauto|]. exists l. destruct Su as [-> _]. auto.
  Qed.
  Theorem lock_failed : (exists r, r < n /\ fails r <> None) -> always S0 (fun t => l_final (fst t) = l_final s0
    /\ (forall r, r < n -> fails r <> None -> exists e, returned t r (Err e))
    /\ (forall r, r < n -> fails r = None -> waits t r \/ (fails 0 <> None /\ exists e, returned t r (Err e)))
    /\ (forall e, fails 0 = Some e -> returned t 0 (Err e) /\ l_tmp (fst t) = None /\ l_lock (fst t) = false)
    /\ (fails 0 = None -> l_tmp (fst t) <> None /\ l_lock (fst t) = true)).
  Proof.
    intros [p [Lp Xp]]. split; [apply never_endless|]. intros t H K. destruct (S0_inv t H) as [u [Su Iu]].
    destruct (l_end u Iu (same_stuck _ _ Su K)) as [[s [P [l [E [X _]]]]]|[s [P [E [Ef [_ [A [B C]]]]]]]]; [exfalso; apply Xp; auto|]. subst u.
    assert (Es : fst t = s) by (destruct Su; auto). rewrite Es. split; auto. split; [|split; [|split]].
    - intros r L X. destruct (proj1 (C r L) X) as [e Y]. exists e. eapply same_returned; eauto.
    - intros r L X. destruct (proj2 (C r L) X) as [Y|[Y [e Z0]]]; [left; eapply same_waits; eauto|]. right. split; auto. exists e. eapply same_returned; eauto.
    - intros e X. destruct (A e X) as [Y1 Y2]. split; auto. eapply same_returned; eauto.
    - intros X. destruct (B X) as [_ Y]. auto.
  Qed.
  Theorem lock_whole : throughout S0 (fun s => l_final s = l_final s0 \/ exists l, l_final s = Some l /\ Permutation l (seq 0 n)).
  Proof.
    intros t H. destruct (S0_inv t H) as [u [[Es _] Iu]]. rewrite Es. destruct Iu as [y s P Ly Hf Hl Ht HP|pos s P Hf Hl Hl2 Ht Ht2 HP|x l s P Lx Hp Hn Hs Hl HP]; cbn [fst]; auto.
    destruct (x =? 0); destruct Hs; eauto.
  Qed.
End Save.

(** Two ranks without a communicator. *)
Definition solo (s : lstate) := (s, family 2 save_local).
Lemma act_at : forall S V R (s s' : S) (ps : list (proc S V R)) r a q k, nth_error ps r = Some (Act a q k) -> a s = Some s' -> step (s, ps) (s', upd r (k (q s)) ps).
Proof. intros. eapply step_act; eauto. Qed.
Lemma solo_clash : forall s, exists t, reach (solo s) t /\ stuck t /\ returned t 0 (Ok tt) /\ returned t 1 (Err FileNotFoundError).
Proof.
  intros s. exists (mkl None (Some [1]) false, [Ret (Ok tt); Ret (Err FileNotFoundError)]). split; [|split; [|split; reflexivity]].
  - unfold solo, family. cbn [seq map].
    do 3 (eapply reach_step; [eapply act_at with (r := 0); reflexivity|]; cbn).
    do 3 (eapply reach_step; [eapply act_at with (r := 1); reflexivity|]; cbn).
    do 2 (eapply reach_step; [eapply act_at with (r := 0); reflexivity|]; cbn).
    eapply reach_step; [eapply act_at with (r := 1); reflexivity|]; cbn. constructor.
  - intros u T. inversion T as [s1 ps g c N A E1 E2|s1 s2 ps r a q k X A E1 E2]; subst.
    + destruct g as [|x g]; [congruence|]. destruct (A x (or_introl eq_refl)) as [v [k X]]. destruct x as [|[|[|x]]]; discriminate.
    + destruct r as [|[|[|r]]]; discriminate.
Qed.
