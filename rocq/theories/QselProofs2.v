(** Proofs about the weighted quickselect: the result. *)
From Coq Require Import List ZArith Bool Arith Permutation Lia.
From Verif Require Import PyBase MedModel MedSpec MedProofs MedProofs2 MedProofs3 QselModel QselProofs.
Import ListNotations.
Open Scope Z_scope.

(** *** Best element of positive weight *)
Section Best.
  Context (better : Z -> Z -> bool) (le : Z -> Z -> Prop).
  Context (Hle_refl : forall x, le x x) (Hle_trans : forall x y z, le x y -> le y z -> le x z).
  (* [le a b]: b is at least as good as a *)
  Context (Hb1 : forall a b, better a b = true -> le b a) (Hb0 : forall a b, better a b = false -> le a b).

  Lemma best_loop_ok : forall l iis cur, (cur < length l)%nat ->
    (forall k, In k iis -> (k < length l)%nat) -> nonneg l ->
    exists c, best_loop better l cur iis = Ok c /\ In c (cur :: iis) /\
      forall k, In k (cur :: iis) -> 0 < snd (get l k) ->
        0 < snd (get l c) /\ le (fst (get l k)) (fst (get l c)).
  Proof.
    intros l iis. induction iis as [|ii iis IH]; intros cur Hc Hi Hn; cbn [best_loop].
    - exists cur. split; [reflexivity|]. split; [now left|].
      intros k [<-|[]] Hk. auto.
    - rewrite !rd_get by (auto; apply Hi; now left). cbn [rbind].
      assert (Hii : (ii < length l)%nat) by (apply Hi; now left).
      assert (Hi' : forall k, In k iis -> (k < length l)%nat) by (intros; apply Hi; now right).
      set (step := if Bool.eqb (0 <? snd (get l cur)) (0 <? snd (get l ii)) then _ else _).
      assert (Hstep : exists nxt, step = best_loop better l nxt iis /\ (nxt < length l)%nat /\
                (nxt = cur \/ nxt = ii) /\
                (forall k, k = cur \/ k = ii -> 0 < snd (get l k) ->
                   0 < snd (get l nxt) /\ le (fst (get l k)) (fst (get l nxt)))).
      { subst step.
        destruct (Z.ltb_spec 0 (snd (get l cur))) as [W1|W1];
        destruct (Z.ltb_spec 0 (snd (get l ii))) as [W2|W2]; cbn [Bool.eqb].
        - destruct (better (fst (get l ii)) (fst (get l cur))) eqn:Eb.
          + exists ii. split; [reflexivity|]. split; [exact Hii|]. split; [now right|].
            intros k [->| ->] Hk; split; auto.
          + exists cur. split; [reflexivity|]. split; [exact Hc|]. split; [now left|].
            intros k [->| ->] Hk; split; auto.
        - exists cur. split; [reflexivity|]. split; [exact Hc|]. split; [now left|].
          intros k [->| ->] Hk; split; auto; lia.
        - exists ii. split; [reflexivity|]. split; [exact Hii|]. split; [now right|].
          intros k [->| ->] Hk; split; auto; lia.
        - destruct (better (fst (get l ii)) (fst (get l cur))).
          + exists ii. split; [reflexivity|]. split; [exact Hii|]. split; [now right|].
            intros k [->| ->] Hk; lia.
          + exists cur. split; [reflexivity|]. split; [exact Hc|]. split; [now left|].
            intros k [->| ->] Hk; lia. }
      destruct Hstep as (nxt & E1 & Hnl & Hnn & Hnb). rewrite E1.
      destruct (IH nxt Hnl Hi' Hn) as (c & E2 & Hin & Hbest).
      exists c. split; [exact E2|]. split.
      + destruct Hin as [<-|Hin]; [|right; now right]. destruct Hnn as [->| ->]; [now left|right; now left].
      + intros k Hk Hw. assert (Hk' : (k = cur \/ k = ii) \/ In k iis) by (destruct Hk as [<-|[<-|Hk]]; auto).
        destruct Hk' as [Hk'|Hk'].
        * destruct (Hnb k Hk' Hw) as [W L1]. destruct (Hbest nxt (or_introl eq_refl) W) as [W' L2].
          split; [exact W'|eapply Hle_trans; eauto].
        * apply Hbest; [now right|exact Hw].
  Qed.
End Best.

Lemma max_non_zero_ok : forall l i j, (i <= j)%nat -> (j < length l)%nat -> nonneg l ->
  exists c, max_non_zero l i j = Ok c /\ (i <= c <= j)%nat /\
    forall k, (i <= k <= j)%nat -> 0 < snd (get l k) ->
      0 < snd (get l c) /\ fst (get l k) <= fst (get l c).
Proof.
  intros l i j Hij Hj Hn. unfold max_non_zero.
  destruct (best_loop_ok (fun a b => b <? a) Z.le Z.le_refl Z.le_trans) with (l := l)
    (iis := seq (i + 1) (j - i)) (cur := i) as (c & E1 & Hin & Hb); auto.
  - intros a b H. apply Z.ltb_lt in H. lia.
  - intros a b H. apply Z.ltb_ge in H. lia.
  - lia.
  - intros k Hk. apply in_seq in Hk. lia.
  - exists c. split; [exact E1|]. split.
    + destruct Hin as [<-|Hin]; [lia|]. apply in_seq in Hin. lia.
    + intros k Hk. apply Hb. destruct (Nat.eq_dec k i); [now left|]. right. apply in_seq. lia.
Qed.
Lemma min_non_zero_ok : forall l i j, (i <= j)%nat -> (j < length l)%nat -> nonneg l ->
  exists c, min_non_zero l i j = Ok c /\ (i <= c <= j)%nat /\
    forall k, (i <= k <= j)%nat -> 0 < snd (get l k) ->
      0 < snd (get l c) /\ fst (get l c) <= fst (get l k).
Proof.
  intros l i j Hij Hj Hn. unfold min_non_zero.
  destruct (best_loop_ok (fun a b => a <? b) Z.ge (fun x => Z.le_ge _ _ (Z.le_refl x))) with (l := l)
    (iis := seq (i + 1) (j - i)) (cur := i) as (c & E1 & Hin & Hb); auto.
  - intros; lia.
  - intros a b H. apply Z.ltb_lt in H. lia.
  - intros a b H. apply Z.ltb_ge in H. lia.
  - lia.
  - intros k Hk. apply in_seq in Hk. lia.
  - exists c. split; [exact E1|]. split.
    + destruct Hin as [<-|Hin]; [lia|]. apply in_seq in Hin. lia.
    + intros k Hk Hw. destruct (Hb k) as [A B]; [|exact Hw|split; [exact A|lia]].
      destruct (Nat.eq_dec k i); [now left|]. right. apply in_seq. lia.
Qed.

(** *** The target on a boundary *)
Lemma sum_zero : forall f l, nonneg l -> (forall x, In x l -> 0 < snd x -> f (fst x) = false) ->
  sum_weights f l = 0.
Proof.
  intros f l H. induction H as [|x l Hx H IH]; intro Hf; cbn [sum_weights]; [reflexivity|].
  rewrite IH by (intros; apply Hf; auto; now right).
  destruct (f (fst x)) eqn:E1; [|lia].
  destruct (Z.eq_dec (snd x) 0); [lia|]. rewrite (Hf x) in E1; [discriminate|now left|lia].
Qed.
Lemma sum_full : forall f l, nonneg l -> (forall x, In x l -> 0 < snd x -> f (fst x) = true) ->
  sum_weights f l = weight_total l.
Proof.
  intros f l H. induction H as [|x l Hx H IH]; intro Hf; cbn [sum_weights]; [reflexivity|].
  rewrite weight_total_cons. rewrite IH by (intros; apply Hf; auto; now right).
  destruct (f (fst x)) eqn:E1; [lia|].
  destruct (Z.eq_dec (snd x) 0); [lia|]. rewrite (Hf x) in E1; [discriminate|now left|lia].
Qed.
Lemma sum_miss : forall f l x, nonneg l -> In x l -> f (fst x) = false ->
  sum_weights f l + snd x <= weight_total l.
Proof.
  intros f l x H. induction H as [|y l Hy H IH]; intros Hin Hf; [destruct Hin|].
  cbn [sum_weights]. rewrite weight_total_cons. pose proof (sum_weights_bounds f l H).
  destruct Hin as [->|Hin].
  - rewrite Hf. lia.
  - specialize (IH Hin Hf). destruct (f (fst y)); lia.
Qed.
Lemma sum_hit : forall f l x, nonneg l -> In x l -> f (fst x) = true -> snd x <= sum_weights f l.
Proof.
  intros f l x H. induction H as [|y l Hy H IH]; intros Hin Hf; [destruct Hin|].
  cbn [sum_weights]. pose proof (sum_weights_bounds f l H).
  destruct Hin as [->|Hin]; [rewrite Hf; lia|]. specialize (IH Hin Hf). destruct (f (fst y)); lia.
Qed.

Section Boundary.
  Context (P S : list datum).
  Context (HPS : forall x y, In x P -> In y S -> fst x <= fst y).
  Context (nP : nonneg P) (nS : nonneg S).
  Let t := weight_total P.

  (** The largest element of positive weight on the left. *)
  Lemma left_best : forall x, In x P -> 0 < snd x ->
    (forall y, In y P -> 0 < snd y -> fst y <= fst x) ->
    quantile_value (P ++ S) t 1 (fst x) /\
    (forall u, u < fst x -> weight_upto (P ++ S) u < t).
  Proof.
    intros x Hx Hw Hmax. split.
    - split; [exists (snd x); split; [apply in_app_iff; left; now destruct x|exact Hw]|].
      unfold weight_below, weight_upto. rewrite !sum_weights_app.
      rewrite (sum_zero (fun u => u <? fst x) S nS).
      2:{ intros y Hy _. apply Z.ltb_ge. now apply HPS. }
      rewrite (sum_full (fun u => u <=? fst x) P nP).
      2:{ intros y Hy Hwy. apply Z.leb_le. now apply Hmax. }
      pose proof (sum_weights_bounds (fun u => u <? fst x) P nP).
      pose proof (sum_weights_bounds (fun u => u <=? fst x) S nS).
      subst t. lia.
    - intros u Hu. unfold weight_upto. rewrite sum_weights_app.
      rewrite (sum_zero (fun v => v <=? u) S nS).
      2:{ intros y Hy _. apply Z.leb_gt. specialize (HPS x y Hx Hy). lia. }
      pose proof (sum_miss (fun v => v <=? u) P x nP Hx) as HM. cbn beta in HM.
      rewrite (proj2 (Z.leb_gt _ _) Hu) in HM. specialize (HM eq_refl). subst t. lia.
  Qed.
  (** The smallest element of positive weight on the right. *)
  Lemma right_best : forall y, In y S -> 0 < snd y ->
    (forall x, In x S -> 0 < snd x -> fst y <= fst x) ->
    quantile_value (P ++ S) t 1 (fst y) /\
    (forall u, fst y < u -> t < weight_below (P ++ S) u).
  Proof.
    intros y Hy Hw Hmin. split.
    - split; [exists (snd y); split; [apply in_app_iff; right; now destruct y|exact Hw]|].
      unfold weight_below, weight_upto. rewrite !sum_weights_app.
      rewrite (sum_zero (fun u => u <? fst y) S nS).
      2:{ intros x Hx Hwx. apply Z.ltb_ge. now apply Hmin. }
      rewrite (sum_full (fun u => u <=? fst y) P nP).
      2:{ intros x Hx Hwx. apply Z.leb_le. now apply HPS. }
      pose proof (sum_weights_bounds (fun u => u <? fst y) P nP).
      pose proof (sum_weights_bounds (fun u => u <=? fst y) S nS).
      subst t. lia.
    - intros u Hu. unfold weight_below. rewrite sum_weights_app.
      rewrite (sum_full (fun v => v <? u) P nP).
      2:{ intros x Hx _. apply Z.ltb_lt. specialize (HPS x y Hx Hy). lia. }
      pose proof (sum_hit (fun v => v <? u) S y nS Hy) as HM. cbn beta in HM.
      rewrite (proj2 (Z.ltb_lt _ _) Hu) in HM. specialize (HM eq_refl). subst t. lia.
  Qed.

  Lemma left_is_lower : forall x, In x P -> 0 < snd x ->
    (forall y, In y P -> 0 < snd y -> fst y <= fst x) -> quantile_lower (P ++ S) t 1 (fst x).
  Proof.
    intros x H1 H2 H3. destruct (left_best x H1 H2 H3) as [A B]. split; [exact A|].
    intros u (_ & _ & Hu). destruct (Z_lt_le_dec u (fst x)) as [Hlt|]; [|assumption].
    specialize (B u Hlt). lia.
  Qed.
  Lemma right_is_higher : forall y, In y S -> 0 < snd y ->
    (forall x, In x S -> 0 < snd x -> fst y <= fst x) -> quantile_higher (P ++ S) t 1 (fst y).
  Proof.
    intros y H1 H2 H3. destruct (right_best y H1 H2 H3) as [A B]. split; [exact A|].
    intros u (_ & Hu & _). destruct (Z_lt_le_dec (fst y) u) as [Hlt|]; [|assumption].
    specialize (B u Hlt). lia.
  Qed.
  Lemma left_is_higher : forall x, In x P -> 0 < snd x ->
    (forall y, In y P -> 0 < snd y -> fst y <= fst x) -> (forall y, In y S -> snd y <= 0) ->
    quantile_higher (P ++ S) t 1 (fst x).
  Proof.
    intros x H1 H2 H3 H4. destruct (left_best x H1 H2 H3) as [A B]. split; [exact A|].
    intros u ((w & Hin & Hw) & _). apply in_app_iff in Hin as [Hin|Hin].
    - exact (H3 _ Hin Hw).
    - specialize (H4 _ Hin). cbn in H4. lia.
  Qed.
  Lemma right_is_lower : forall y, In y S -> 0 < snd y ->
    (forall x, In x S -> 0 < snd x -> fst y <= fst x) -> (forall x, In x P -> snd x <= 0) ->
    quantile_lower (P ++ S) t 1 (fst y).
  Proof.
    intros y H1 H2 H3 H4. destruct (right_best y H1 H2 H3) as [A B]. split; [exact A|].
    intros u ((w & Hin & Hw) & _). apply in_app_iff in Hin as [Hin|Hin].
    - specialize (H4 _ Hin). cbn in H4. lia.
    - exact (H3 _ Hin Hw).
  Qed.
End Boundary.

(** Elements by position. *)
Lemma in_get : forall l a b x, (b <= length l)%nat ->
  In x (lslice a b l) <-> exists k, (a <= k < b)%nat /\ get l k = x.
Proof.
  intros l a b x Hb. rewrite in_lslice_iff. split.
  - intros (k & Hk & E1). exists k. split; [exact Hk|]. rewrite get_error in E1 by lia. congruence.
  - intros (k & Hk & <-). exists k. split; [exact Hk|]. apply get_error. lia.
Qed.

Lemma nonneg_lslice : forall l a b, nonneg l -> nonneg (lslice a b l).
Proof.
  intros l a b H. unfold nonneg in *. rewrite Forall_forall in *. intros x Hx. apply H.
  eapply in_lslice; eauto.
Qed.

Theorem boundary_ok : forall l jj m, (jj + 1 < length l)%nat -> nonneg l -> 0 < weight_total l ->
  (forall k k', (k <= jj)%nat -> (jj < k' < length l)%nat -> fst (get l k) <= fst (get l k')) ->
  exists ans, boundary l jj m = Ok ans /\
    ((m = MLower -> 0 < weight_total (lslice 0 (jj + 1) l)) ->
     quantile_answer l (weight_total (lslice 0 (jj + 1) l)) 1 m ans).
Proof.
  intros l jj m Hjj Hn Hw Hord. unfold boundary.
  destruct (max_non_zero_ok l 0 jj) as (a & E1 & Ra & Ba); [lia|lia|exact Hn|].
  destruct (min_non_zero_ok l (jj + 1) (length l - 1)) as (b & E2 & Rb & Bb); [lia|lia|exact Hn|].
  rewrite E1, E2. cbn [rbind]. rewrite !rd_get by lia. cbn [rbind].
  set (P := lslice 0 (jj + 1) l). set (S := lslice (jj + 1) (length l) l).
  assert (EL : l = P ++ S).
  { subst P S. rewrite lslice_app by lia. unfold lslice. rewrite Nat.sub_0_r. cbn. now rewrite firstn_all. }
  assert (nP : nonneg P) by now apply nonneg_lslice.
  assert (nS : nonneg S) by now apply nonneg_lslice.
  assert (HPS : forall x y, In x P -> In y S -> fst x <= fst y).
  { intros x y Hx Hy. apply in_get in Hx as (k & Hk & <-); [|lia].
    apply in_get in Hy as (k' & Hk' & <-); [|lia]. apply Hord; lia. }
  assert (HaP : In (get l a) P) by (apply in_get; [lia|]; exists a; split; [lia|reflexivity]).
  assert (HbS : In (get l b) S) by (apply in_get; [lia|]; exists b; split; [lia|reflexivity]).
  assert (Bap : forall y, In y P -> 0 < snd y -> 0 < snd (get l a) /\ fst y <= fst (get l a)).
  { intros y Hy Hwy. apply in_get in Hy as (k & Hk & <-); [|lia]. apply Ba; [lia|exact Hwy]. }
  assert (Bbs : forall y, In y S -> 0 < snd y -> 0 < snd (get l b) /\ fst (get l b) <= fst y).
  { intros y Hy Hwy. apply in_get in Hy as (k & Hk & <-); [|lia]. apply Bb; [lia|exact Hwy]. }
  assert (wa : 0 <= snd (get l a)) by (unfold nonneg in nP; rewrite Forall_forall in nP; now apply nP).
  assert (wb : 0 <= snd (get l b)) by (unfold nonneg in nS; rewrite Forall_forall in nS; now apply nS).
  assert (Zp : snd (get l a) = 0 -> forall y, In y P -> snd y <= 0).
  { intros H0 y Hy. destruct (Z_lt_le_dec 0 (snd y)) as [G|]; [|assumption]. destruct (Bap y Hy G). lia. }
  assert (Zs : snd (get l b) = 0 -> forall y, In y S -> snd y <= 0).
  { intros H0 y Hy. destruct (Z_lt_le_dec 0 (snd y)) as [G|]; [|assumption]. destruct (Bbs y Hy G). lia. }
  assert (Tz : forall q, nonneg q -> (forall y, In y q -> snd y <= 0) -> weight_total q = 0).
  { intros q Hq Hz. unfold weight_total. apply sum_zero; [exact Hq|]. intros x Hx Hwx. specialize (Hz x Hx). lia. }
  assert (Tsum : weight_total l = weight_total P + weight_total S) by (rewrite EL at 1; apply weight_total_app).
  set (x := get l a) in *. set (y := get l b) in *.
  set (tgt := weight_total P) in *.
  assert (Hgoal : exists ans,
    (if (snd y =? 0) && (0 <? snd x) || match m with MLower => true | _ => false end
     then Ok (fst x, 1)
     else if (snd x =? 0) && (0 <? snd y) || match m with MHigher => true | _ => false end
     then Ok (fst y, 1) else Ok (fst x + fst y, 2)) = Ok ans /\
    ((m = MLower -> 0 < tgt) -> quantile_answer (P ++ S) tgt 1 m ans)).
  2:{ rewrite <- EL in Hgoal. exact Hgoal. }
  destruct (Z.eqb_spec (snd y) 0) as [Y0|Y0].
  - (* nothing on the right *)
    assert (Hx : 0 < snd x).
    { destruct (Z.eq_dec (snd x) 0) as [X0|]; [|lia]. exfalso.
      subst tgt. rewrite (Tz P nP (Zp X0)), (Tz S nS (Zs Y0)) in Tsum. lia. }
    rewrite (proj2 (Z.ltb_lt 0 (snd x)) Hx). cbn [andb orb].
    exists (fst x, 1). split; [reflexivity|]. intros _.
    assert (Lx : quantile_lower (P ++ S) tgt 1 (fst x)) by (apply left_is_lower; auto; intros z Hz Hwz; now apply Bap).
    assert (Gx : quantile_higher (P ++ S) tgt 1 (fst x)) by (apply left_is_higher; auto; intros z Hz Hwz; now apply Bap).
    split; [lia|]. destruct m.
    + exists (fst x), (fst x). split; [exact Lx|]. split; [exact Gx|lia].
    + exists (fst x). split; [exact Lx|lia].
    + exists (fst x). split; [exact Gx|lia].
  - assert (Hy : 0 < snd y) by lia. cbn [andb orb].
    assert (Gy : quantile_higher (P ++ S) tgt 1 (fst y)) by (apply right_is_higher; auto; intros z Hz Hwz; now apply Bbs).
    destruct (Z.eqb_spec (snd x) 0) as [X0|X0].
    + assert (Hml : (m = MLower -> 0 < tgt) -> m <> MLower).
      { intros Hlow Hm. specialize (Hlow Hm). subst tgt. rewrite (Tz P nP (Zp X0)) in Hlow. lia. }
      rewrite (proj2 (Z.ltb_lt 0 (snd y)) Hy). cbn [andb orb].
      assert (Ly : quantile_lower (P ++ S) tgt 1 (fst y)) by (apply right_is_lower; auto; intros z Hz Hwz; now apply Bbs).
      destruct m; cbn [orb]; (eexists; split; [reflexivity|]); intro Hlow; specialize (Hml Hlow);
        (split; [lia|]); try congruence.
      * exists (fst y), (fst y). split; [exact Ly|]. split; [exact Gy|lia].
      * exists (fst y). split; [exact Gy|lia].
    + assert (Hx : 0 < snd x) by lia. cbn [andb orb].
      assert (Lx : quantile_lower (P ++ S) tgt 1 (fst x)) by (apply left_is_lower; auto; intros z Hz Hwz; now apply Bap).
      destruct m; cbn [orb]; (eexists; split; [reflexivity|]); intros _; (split; [lia|]).
      * exists (fst x), (fst y). split; [exact Lx|]. split; [exact Gy|lia].
      * exists (fst x). split; [exact Lx|lia].
      * exists (fst y). split; [exact Gy|lia].
Qed.

(** *** A single element *)
Lemma single_ok : forall l i t m, (i < length l)%nat -> nonneg l ->
  (forall k k', (k < i)%nat -> (i <= k' < length l)%nat -> fst (get l k) <= fst (get l k')) ->
  (forall k k', (k <= i)%nat -> (i < k' < length l)%nat -> fst (get l k) <= fst (get l k')) ->
  0 <= t <= weight_total l -> 0 < snd (get l i) ->
  (i = 0%nat \/ weight_total (lslice 0 i l) < t) ->
  (i = (length l - 1)%nat \/ t < weight_total (lslice 0 (i + 1) l)) ->
  quantile_answer l t 1 m (fst (get l i), 1).
Proof.
  intros l i t m Hi Hn H1 H2 Ht Hw HL HR.
  set (P := lslice 0 i l). set (S := lslice (i + 1) (length l) l). set (d := get l i) in *.
  assert (EL : l = P ++ d :: S).
  { subst P S d. change (get l i :: lslice (i + 1) (length l) l) with ([get l i] ++ lslice (i + 1) (length l) l).
    rewrite <- lslice_one by assumption. rewrite lslice_app by lia. rewrite lslice_app by lia.
    unfold lslice. rewrite Nat.sub_0_r. cbn. now rewrite firstn_all. }
  assert (nP : nonneg P) by now apply nonneg_lslice.
  assert (nS : nonneg S) by now apply nonneg_lslice.
  assert (HP : Forall (fun x => fst x <= fst d) P).
  { apply Forall_forall. intros x Hx. apply in_get in Hx as (k & Hk & <-); [|lia]. apply H1; lia. }
  assert (HS : Forall (fun x => fst d <= fst x) S).
  { apply Forall_forall. intros x Hx. apply in_get in Hx as (k & Hk & <-); [|lia]. apply H2; lia. }
  assert (HR' : i = (length l - 1)%nat \/ t < weight_total P + snd d).
  { destruct HR as [HR|HR]; [now left|right]. rewrite lslice_step in HR by lia.
    rewrite weight_total_app, weight_total_cons, weight_total_nil in HR. subst P d. lia. }
  assert (HL' : P = [] \/ weight_total P < t).
  { destruct HL as [->|HL]; [left; apply lslice_nil|right; exact HL]. }
  assert (HR2 : S = [] \/ t < weight_total P + snd d).
  { destruct HR' as [->|]; [left|now right]. subst S. unfold lslice.
    replace (length l - (length l - 1 + 1))%nat with 0%nat by lia. reflexivity. }
  clear HL HR HR' H1 H2.
  assert (Tot : weight_total l = weight_total P + snd d + weight_total S) by (rewrite EL at 1; apply pivot_total).
  pose proof (sum_weights_bounds (fun _ => true) P nP) as BP. fold (weight_total P) in BP.
  pose proof (sum_weights_bounds (fun _ => true) S nS) as BS. fold (weight_total S) in BS.
  rewrite EL in Ht, Tot |- *.
  assert (Val : quantile_value (P ++ d :: S) t 1 (fst d)).
  { split; [exists (snd d); split; [apply in_app_iff; right; left; now destruct d|exact Hw]|].
    pose proof (pivot_below P d S HS nP). pose proof (pivot_upto P d S HP nS).
    assert (weight_total P <= t) by (destruct HL' as [->|]; [rewrite weight_total_nil in *|]; lia).
    assert (t <= weight_total P + snd d) by (destruct HR2 as [->|]; [rewrite weight_total_nil in *|]; lia).
    lia. }
  assert (Low : quantile_lower (P ++ d :: S) t 1 (fst d)).
  { split; [exact Val|]. intros u ((w & Hin & Hwu) & _ & Hu).
    destruct (Z_lt_le_dec u (fst d)) as [Hlt|]; [exfalso|assumption].
    destruct HL' as [HP0|HL'].
    - apply in_app_iff in Hin as [Hin|[Hin|Hin]].
      + rewrite HP0 in Hin. destruct Hin.
      + rewrite Hin in Hlt. cbn in Hlt. lia.
      + rewrite Forall_forall in HS. specialize (HS _ Hin). cbn in HS. lia.
    - pose proof (pivot_lower P d S HS nP u Hlt). lia. }
  assert (High : quantile_higher (P ++ d :: S) t 1 (fst d)).
  { split; [exact Val|]. intros u ((w & Hin & Hwu) & Hu & _).
    destruct (Z_lt_le_dec (fst d) u) as [Hlt|]; [exfalso|assumption].
    destruct HR2 as [HS0|HR2].
    - apply in_app_iff in Hin as [Hin|[Hin|Hin]].
      + rewrite Forall_forall in HP. specialize (HP _ Hin). cbn in HP. lia.
      + rewrite Hin in Hlt. cbn in Hlt. lia.
      + rewrite HS0 in Hin. destruct Hin.
    - pose proof (pivot_higher P d S HP nS u Hlt). lia. }
  split; [lia|]. destruct m.
  - exists (fst d), (fst d). split; [exact Low|]. split; [exact High|lia].
  - exists (fst d). split; [exact Low|lia].
  - exists (fst d). split; [exact High|lia].
Qed.

(** *** The selection loop *)
Record sinv (L0 L : list datum) (t : Z) (i j : nat) (qs : Z) : Prop := {
  si_perm : Permutation L L0;
  si_ij : (i < j < length L)%nat;
  si_left : forall k k', (k < i)%nat -> (i <= k' < length L)%nat -> fst (get L k) <= fst (get L k');
  si_right : forall k k', (k <= j)%nat -> (j < k' < length L)%nat -> fst (get L k) <= fst (get L k');
  si_t : t = qs + weight_total (lslice 0 i L);
  si_lo : (i = 0)%nat \/ weight_total (lslice 0 i L) < t;
  si_hi : (j = length L - 1)%nat \/ t < weight_total (lslice 0 (j + 1) L)
}.

Lemma nonneg_perm : forall a b, Permutation a b -> nonneg a -> nonneg b.
Proof. intros a b H Ha. unfold nonneg in *. eapply Permutation_Forall; eauto. Qed.

Theorem select_ok : forall fuel L0 L t i j qs m, sinv L0 L t i j qs -> nonneg L0 ->
  0 <= t <= weight_total L0 -> 0 < weight_total L0 ->
  (j - i < fuel)%nat ->
  exists ans, select fuel L i j qs m = Ok ans /\
    ((m = MLower -> 0 < t \/ positive L0) -> quantile_answer L0 t 1 m ans).
Proof.
  induction fuel as [|fuel IH]; intros L0 L t i j qs m I Hn Ht HW Hf; [lia|].
  destruct I as [Ip Iij Il Ir It Ilo Ihi]. cbn [select].
  assert (nL : nonneg L) by (eapply nonneg_perm; [apply Permutation_sym|]; eauto).
  assert (Hm : (i <= (i + j) / 2 <= j)%nat).
  { split; [apply Nat.div_le_lower_bound|apply Nat.div_le_upper_bound]; lia. }
  rewrite rd_get by lia. cbn [rbind].
  destruct (partition_start L i j) as (L1 & jj & wl & E1 & D); [lia|lia|].
  rewrite E1. cbn [rbind]. clear E1.
  set (p := fst (get L ((i + j) / 2))) in *. clearbody p.
  destruct D as [Dlen Dout Dperm Dleft Dright Dwl Djj Dlast].
  assert (Hjj : (jj < j)%nat) by lia.
  (* the whole array is a permutation *)
  assert (full : forall (l : list datum), l = lslice 0 (length l) l).
  { intro l. unfold lslice. rewrite Nat.sub_0_r. cbn. now rewrite firstn_all. }
  assert (Hlo1 : lslice 0 i L1 = lslice 0 i L) by (apply lslice_ext; intros k Hk; apply Dout; lia).
  assert (Hhi1 : lslice (j + 1) (length L) L1 = lslice (j + 1) (length L) L)
    by (apply lslice_ext; intros k Hk; apply Dout; lia).
  assert (Hpre : Permutation (lslice 0 (j + 1) L1) (lslice 0 (j + 1) L)).
  { rewrite <- (lslice_app _ 0 i (j + 1) L1), <- (lslice_app _ 0 i (j + 1) L) by lia.
    rewrite Hlo1. now apply Permutation_app_head. }
  assert (P1 : Permutation L1 L).
  { rewrite (full L1), (full L), Dlen.
    rewrite <- (lslice_app _ 0 (j + 1) (length L) L1), <- (lslice_app _ 0 (j + 1) (length L) L) by lia.
    rewrite Hhi1. now apply Permutation_app_tail. }
  assert (Hsame : forall k, (k < i \/ j < k)%nat -> (k < length L)%nat -> get L1 k = get L k).
  { intros k Hk Hkl. pose proof (Dout k Hk) as H0. rewrite !get_error in H0 by lia. congruence. }
  assert (Hseg : forall k, (i <= k <= j)%nat -> exists k', (i <= k' <= j)%nat /\ get L1 k = get L k').
  { intros k Hk. assert (Hin : In (get L1 k) (lslice i (j + 1) L1)).
    { apply in_get; [lia|]. exists k. split; [lia|reflexivity]. }
    apply (Permutation_in _ Dperm) in Hin. apply in_get in Hin as (k' & Hk' & E2); [|lia].
    exists k'. split; [lia|congruence]. }
  assert (Il1 : forall k k', (k < i)%nat -> (i <= k' < length L1)%nat -> fst (get L1 k) <= fst (get L1 k')).
  { intros k k' Hk Hk'. rewrite (Hsame k) by lia. destruct (le_lt_dec k' j) as [Hc|Hc].
    - destruct (Hseg k') as (k2 & Hk2 & ->); [lia|]. apply Il; lia.
    - rewrite (Hsame k') by lia. apply Il; lia. }
  assert (Ir1 : forall k k', (k <= j)%nat -> (j < k' < length L1)%nat -> fst (get L1 k) <= fst (get L1 k')).
  { intros k k' Hk Hk'. rewrite (Hsame k') by lia. destruct (le_lt_dec i k) as [Hc|Hc].
    - destruct (Hseg k) as (k2 & Hk2 & ->); [lia|]. apply Ir; lia.
    - rewrite (Hsame k) by lia. apply Ir; lia. }
  assert (Icut : forall k k', (k <= jj)%nat -> (jj < k' < length L1)%nat -> fst (get L1 k) <= fst (get L1 k')).
  { intros k k' Hk Hk'. destruct (le_lt_dec i k) as [Hc|Hc]; [|apply Il1; lia].
    destruct (le_lt_dec k' j) as [Hc'|Hc']; [|apply Ir1; lia].
    pose proof (Dleft k ltac:(lia)). pose proof (Dright k' ltac:(lia)). lia. }
  assert (PL0 : Permutation L1 L0) by (eapply Permutation_trans; eauto).
  assert (nL1 : nonneg L1) by (eapply nonneg_perm; [apply Permutation_sym|]; eauto).
  assert (TW : weight_total L1 = weight_total L0) by (apply sum_weights_perm; exact PL0).
  assert (Tcut : weight_total (lslice 0 (jj + 1) L1) = weight_total (lslice 0 i L) + wl).
  { rewrite <- (lslice_app _ 0 i (jj + 1)) by lia. rewrite weight_total_app, Hlo1, Dwl. reflexivity. }
  assert (Thi : weight_total (lslice 0 (j + 1) L1) = weight_total (lslice 0 (j + 1) L))
    by (apply sum_weights_perm; exact Hpre).
  rewrite Dlen in Il1, Ir1, Icut.
  destruct (Z.eqb_spec qs wl) as [Hq|Hq].
  - destruct (boundary_ok L1 jj m) as (ans & E2 & A2).
    { rewrite Dlen; lia. }
    { exact nL1. }
    { lia. }
    { rewrite Dlen; exact Icut. }
    exists ans. split; [exact E2|]. intro Hml. eapply quantile_answer_perm; [exact PL0|].
    assert (Etw : t = weight_total (lslice 0 (jj + 1) L1)) by lia. rewrite Etw. apply A2.
    intro Hm'. destruct (Hml Hm') as [Hpt|Hpos]; [lia|].
    apply weight_total_pos.
    + assert (Hp1 : positive L1) by (unfold positive in *; eapply Permutation_Forall; [apply Permutation_sym|]; eauto).
      unfold positive in *. rewrite Forall_forall in *. intros x Hx. apply Hp1. eapply in_lslice; eauto.
    + rewrite lslice_step by lia. destruct (lslice 0 jj L1); discriminate.
  - (* a sub-interval *)
    set (nxt := if qs <=? wl then (i, jj, qs) else ((jj + 1)%nat, j, qs - wl)).
    assert (Hn2 : exists i2 j2 qs2, nxt = (i2, j2, qs2) /\ (i2 <= j2 < length L)%nat /\ (j2 - i2 < j - i)%nat /\
      (forall k k', (k < i2)%nat -> (i2 <= k' < length L)%nat -> fst (get L1 k) <= fst (get L1 k')) /\
      (forall k k', (k <= j2)%nat -> (j2 < k' < length L)%nat -> fst (get L1 k) <= fst (get L1 k')) /\
      t = qs2 + weight_total (lslice 0 i2 L1) /\
      (i2 = 0%nat \/ weight_total (lslice 0 i2 L1) < t) /\
      (j2 = (length L - 1)%nat \/ t < weight_total (lslice 0 (j2 + 1) L1))).
    { subst nxt. destruct (Z.leb_spec qs wl) as [Hle|Hgt].
      - exists i, jj, qs. split; [reflexivity|]. repeat (split; [lia|]). split; [exact Il1|].
        split; [exact Icut|]. rewrite Hlo1. split; [exact It|]. split; [exact Ilo|].
        right. lia.
      - exists (jj + 1)%nat, j, (qs - wl). split; [reflexivity|]. repeat (split; [lia|]).
        split; [intros k k' Hk Hk'; apply Icut; lia|]. split; [exact Ir1|].
        split; [lia|]. split; [right; lia|]. rewrite Thi. exact Ihi. }
    destruct Hn2 as (i2 & j2 & qs2 & -> & R1 & R2 & R3 & R4 & R5 & R6 & R7).
    destruct (Nat.eqb_spec i2 j2) as [Heq|Hne].
    + subst j2. rewrite rd_get by lia. cbn [rbind]. exists (fst (get L1 i2), 1). split; [reflexivity|]. intros _.
      eapply quantile_answer_perm; [exact PL0|].
      assert (Hw2 : 0 < snd (get L1 i2)).
      { assert (weight_total (lslice 0 (i2 + 1) L1) = weight_total (lslice 0 i2 L1) + snd (get L1 i2)).
        { rewrite lslice_step by lia. rewrite weight_total_app, weight_total_cons, weight_total_nil. lia. }
        assert (0 <= weight_total (lslice 0 i2 L1)).
        { apply (sum_weights_bounds (fun _ => true)). now apply nonneg_lslice. }
        destruct R7 as [R7|R7].
        - assert (weight_total (lslice 0 (i2 + 1) L1) = weight_total L1).
          { replace (i2 + 1)%nat with (length L1) by lia. now rewrite <- full. }
          destruct R6 as [R6|R6]; [|lia].
          exfalso. lia.
        - destruct R6 as [R6|R6]; [|lia]. subst i2. rewrite lslice_nil, weight_total_nil in *. lia. }
      apply single_ok; rewrite ?Dlen; auto; lia.
    + eapply IH; eauto; [|lia]. constructor; rewrite ?Dlen; auto. lia.
Qed.

Theorem quickselect_ok : forall L t m, (2 <= length L)%nat -> nonneg L ->
  0 <= t <= weight_total L -> 0 < weight_total L ->
  exists ans, quickselect_weight L t m = Ok ans /\
    ((m = MLower -> 0 < t \/ positive L) -> quantile_answer L t 1 m ans).
Proof.
  intros L t m Hl Hn Ht HW. unfold quickselect_weight.
  destruct L as [|x L']; [cbn in Hl; lia|]. set (L := x :: L') in *.
  apply select_ok; auto; [|lia]. constructor; auto; try lia.
  - rewrite lslice_nil, weight_total_nil. lia.
Qed.

(** One element: the answer, or a read outside the array. *)
Lemma quickselect_one : forall v w t m, 0 <= t <= w ->
  quickselect_weight [(v, w)] t m = if t =? w then Err IndexError else Ok (v, 1).
Proof.
  intros v w t m Ht. unfold quickselect_weight. cbn.
  rewrite Z.ltb_irrefl. cbn.
  destruct (Z.eqb_spec t w) as [->|Hne].
  - reflexivity.
  - destruct (Z.leb_spec t w); [|lia]. reflexivity.
Qed.
