(** Proofs about the quickselect with rounded sums: the answer is near the quantile. *)
From Coq Require Import List ZArith Reals Bool Arith Permutation Lia Lra.
From Flocq Require Import Core.Raux.
From Verif Require Import PyBase MedModel MedProofs MedProofs2 MedProofs3 QselModel QselProofs GqModel GqSpec GqProofs GqProofs4.
Import ListNotations.
Open Scope nat_scope.

Section Approx.
Context {D W S : Type} (o : ops D W S).
Notation datum := (D * W)%type.
Context (dv : D -> Z) (wv : W -> R) (good : datum -> Prop).
Context (Has : asymmetric (d_lt o)).
Context (H_lt : forall x y, good x -> good y -> d_lt o (fst x) (fst y) = (dv (fst x) <? dv (fst y))%Z).
Context (H_nonneg : forall x, good x -> (0 <= wv (snd x))%R).
Context (H_pos : forall x, good x -> (0 < wv (snd x))%R -> w_pos o (snd x) = true).

Local Open Scope R_scope.
Definition vals (f : Z -> bool) (l : list datum) : R :=
  fold_right (fun x acc => (if f (dv (fst x)) then wv (snd x) else 0) + acc) 0 l.
Definition total (l : list datum) : R := fold_right (fun x acc => wv (snd x) + acc) 0 l.
Definition below (l : list datum) (v : Z) : R := vals (fun u => (u <? v)%Z) l.
Definition upto (l : list datum) (v : Z) : R := vals (fun u => (u <=? v)%Z) l.

Lemma vals_cons : forall f x l, vals f (x :: l) = (if f (dv (fst x)) then wv (snd x) else 0) + vals f l.
Proof. reflexivity. Qed.
Lemma total_cons : forall x l, total (x :: l) = wv (snd x) + total l.
Proof. reflexivity. Qed.
Lemma vals_app : forall f a b, vals f (a ++ b) = vals f a + vals f b.
Proof.
  intros f a b. induction a as [|x a IH]; [symmetry; apply Rplus_0_l|]. cbn [app]. rewrite !vals_cons, IH. ring.
Qed.
Lemma total_app : forall a b, total (a ++ b) = total a + total b.
Proof.
  intros a b. induction a as [|x a IH]; [symmetry; apply Rplus_0_l|]. cbn [app]. rewrite !total_cons, IH. ring.
Qed.
Lemma vals_perm : forall f a b, Permutation a b -> vals f a = vals f b.
Proof. intros f a b H. induction H; rewrite ?vals_cons; auto; try lra; congruence. Qed.
Lemma total_perm : forall a b, Permutation a b -> total a = total b.
Proof. intros a b H. induction H; rewrite ?total_cons; auto; try lra; congruence. Qed.
Lemma vals_bounds : forall f l, Forall good l -> 0 <= vals f l <= total l.
Proof.
  intros f l H. induction H as [|x l Hx H IH]; [cbn; lra|]. pose proof (H_nonneg x Hx).
  rewrite vals_cons, total_cons. destruct (f _); lra.
Qed.
Lemma total_nonneg : forall l, Forall good l -> 0 <= total l.
Proof. intros l H. pose proof (vals_bounds (fun _ => true) l H). lra. Qed.
Lemma vals_none : forall f l, Forall good l -> (forall x, In x l -> 0 < wv (snd x) -> f (dv (fst x)) = false) -> vals f l = 0.
Proof.
  intros f l H HF. induction H as [|x l Hx H IH]; [reflexivity|]. rewrite vals_cons.
  rewrite IH by (intros y Hy; apply HF; now right).
  destruct (Rle_lt_or_eq_dec 0 _ (H_nonneg x Hx)) as [P|P].
  - rewrite (HF x) by (auto; now left). lra.
  - rewrite <- P. destruct (f _); lra.
Qed.
Lemma vals_all : forall f l, Forall good l -> (forall x, In x l -> 0 < wv (snd x) -> f (dv (fst x)) = true) -> vals f l = total l.
Proof.
  intros f l H HF. induction H as [|x l Hx H IH]; [reflexivity|]. rewrite vals_cons, total_cons.
  rewrite IH by (intros y Hy; apply HF; now right).
  destruct (Rle_lt_or_eq_dec 0 _ (H_nonneg x Hx)) as [P|P].
  - rewrite (HF x) by (auto; now left). lra.
  - rewrite <- P. destruct (f _); lra.
Qed.

(** *** Cuts: nothing before position [k] is above anything after it *)
Definition part (l : list datum) (a b : nat) : list datum := lslice a b l.
Definition cut (l : list datum) (k : nat) : Prop :=
  forall x y, In x (part l 0 k) -> In y (part l k (length l)) -> (dv (fst x) <= dv (fst y))%Z.
Lemma part_split : forall l a b c, (a <= b <= c)%nat -> part l a c = part l a b ++ part l b c.
Proof. intros. unfold part. now rewrite lslice_app by lia. Qed.
Lemma part_all : forall l, part l 0 (length l) = l.
Proof. intro l. unfold part, lslice. rewrite Nat.sub_0_r. cbn [skipn]. apply firstn_all. Qed.
Lemma part_cut : forall l k, (k <= length l)%nat -> l = part l 0 k ++ part l k (length l).
Proof. intros l k H. rewrite <- part_split by lia. now rewrite part_all. Qed.
Lemma vals_cut : forall f l k, (k <= length l)%nat -> vals f l = vals f (part l 0 k) + vals f (part l k (length l)).
Proof. intros f l k H. rewrite <- vals_app. now rewrite <- part_cut. Qed.
Lemma total_cut : forall l k, (k <= length l)%nat -> total l = total (part l 0 k) + total (part l k (length l)).
Proof. intros l k H. rewrite <- total_app. now rewrite <- part_cut. Qed.
Lemma part_in : forall l a b x, In x (part l a b) -> In x l.
Proof. intros l a b x H. apply in_lslice_iff in H as (k & _ & H). now apply nth_error_In in H. Qed.
Lemma part_good : forall l a b, Forall good l -> Forall good (part l a b).
Proof. intros l a b H. apply Forall_forall. intros x Hx. rewrite Forall_forall in H. apply H. now apply part_in in Hx. Qed.
Lemma part_nth : forall l a b k x, (a <= k < b)%nat -> nth_error l k = Some x -> In x (part l a b).
Proof. intros l a b k x H E. apply in_lslice_iff. exists k. auto. Qed.

(** an element left of a cut, with no weight above it on its side *)
Lemma left_of_cut : forall l k x, Forall good l -> (k <= length l)%nat -> cut l k -> In x (part l 0 k) ->
  (forall y, In y (part l 0 k) -> 0 < wv (snd y) -> (dv (fst y) <= dv (fst x))%Z) ->
  below l (dv (fst x)) <= total (part l 0 k) <= upto l (dv (fst x)).
Proof.
  intros l k x Hg Hk Hc Hx Hm.
  pose proof (part_good l 0 k Hg) as G1. pose proof (part_good l k (length l) Hg) as G2.
  unfold below, upto. rewrite !(vals_cut _ l k Hk).
  split.
  - rewrite (vals_none _ (part l k (length l))); auto.
    + pose proof (vals_bounds (fun u => (u <? dv (fst x))%Z) _ G1). lra.
    + intros y Hy _. apply Z.ltb_ge. now apply Hc.
  - rewrite (vals_all _ (part l 0 k)); auto.
    + pose proof (vals_bounds (fun u => (u <=? dv (fst x))%Z) _ G2). lra.
    + intros y Hy P. apply Z.leb_le. now apply Hm.
Qed.
Lemma right_of_cut : forall l k x, Forall good l -> (k <= length l)%nat -> cut l k -> In x (part l k (length l)) ->
  (forall y, In y (part l k (length l)) -> 0 < wv (snd y) -> (dv (fst x) <= dv (fst y))%Z) ->
  below l (dv (fst x)) <= total (part l 0 k) <= upto l (dv (fst x)).
Proof.
  intros l k x Hg Hk Hc Hx Hm.
  pose proof (part_good l 0 k Hg) as G1. pose proof (part_good l k (length l) Hg) as G2.
  unfold below, upto. rewrite !(vals_cut _ l k Hk).
  split.
  - rewrite (vals_none _ (part l k (length l))); auto.
    + pose proof (vals_bounds (fun u => (u <? dv (fst x))%Z) _ G1). lra.
    + intros y Hy P. apply Z.ltb_ge. now apply Hm.
  - rewrite (vals_all _ (part l 0 k)); auto.
    + pose proof (vals_bounds (fun u => (u <=? dv (fst x))%Z) _ G2). lra.
    + intros y Hy P. apply Z.leb_le. now apply Hc.
Qed.
Lemma between_cuts : forall l k x, Forall good l -> nth_error l k = Some x -> cut l k -> cut l (k + 1) ->
  below l (dv (fst x)) <= total (part l 0 k) /\ total (part l 0 (k + 1)) <= upto l (dv (fst x)).
Proof.
  intros l k x Hg Hx Hc Hc'. assert (Hk : (k < length l)%nat) by (apply nth_error_Some; congruence).
  assert (Inx : In x (part l k (length l))) by (apply (part_nth l k (length l) k); auto; lia).
  assert (Inx' : In x (part l 0 (k + 1))) by (apply (part_nth l 0 (k + 1) k); auto; lia).
  pose proof (part_good l 0 k Hg) as G1. pose proof (part_good l k (length l) Hg) as G2.
  pose proof (part_good l 0 (k + 1) Hg) as G1'. pose proof (part_good l (k + 1) (length l) Hg) as G2'.
  split.
  - unfold below. rewrite (vals_cut _ l k) by lia.
    rewrite (vals_none _ (part l k (length l))); auto.
    + pose proof (vals_bounds (fun u => (u <? dv (fst x))%Z) _ G1). lra.
    + intros y Hy P. apply Z.ltb_ge. rewrite (part_split l k (k + 1) (length l)) in Hy by lia.
      apply in_app_or in Hy as [Hy|Hy]; [|now apply Hc'].
      unfold part in Hy. rewrite (slice_snoc l k k x) in Hy by (auto; lia). rewrite lslice_nil in Hy.
      destruct Hy as [->|[]]. lia.
  - unfold upto. rewrite (vals_cut _ l (k + 1)) by lia.
    rewrite (vals_all _ (part l 0 (k + 1))); auto.
    + pose proof (vals_bounds (fun u => (u <=? dv (fst x))%Z) _ G2'). lra.
    + intros y Hy P. apply Z.leb_le. rewrite (part_split l 0 k (k + 1)) in Hy by lia.
      apply in_app_or in Hy as [Hy|Hy]; [now apply Hc|].
      unfold part in Hy. rewrite (slice_snoc l k k x) in Hy by (auto; lia). rewrite lslice_nil in Hy.
      destruct Hy as [->|[]]. lia.
Qed.

(** *** The partition keeps cuts and makes one *)
Lemma pfull_cuts : forall L0 p i j l jj wl pv, Forall good L0 -> pfull o L0 p i j l jj wl -> (j < length L0)%nat ->
  In pv L0 -> p = fst pv -> cut L0 i -> cut L0 (j + 1) ->
  Permutation l L0 /\ Forall good l /\ cut l i /\ cut l (j + 1) /\ cut l (jj + 1) /\ total (part l 0 i) = total (part L0 0 i) /\
  total (part l 0 (j + 1)) = total (part L0 0 (j + 1)).
Proof.
  intros L0 p i j l jj wl pv Hg [Hlen Hout HP Hleft Hright _ Hjj _] Hj Hpv -> Hi Hj1.
  assert (E1 : part l 0 i = part L0 0 i) by (apply lslice_ext; intros k Hk; apply Hout; lia).
  assert (E3 : part l (j + 1) (length l) = part L0 (j + 1) (length L0)).
  { rewrite Hlen. apply lslice_ext. intros k Hk. apply Hout. lia. }
  assert (Q : Permutation l L0).
  { rewrite <- (part_all l), <- (part_all L0).
    rewrite (part_split l 0 i (length l)), (part_split l i (j + 1) (length l)) by lia.
    rewrite (part_split L0 0 i (length L0)), (part_split L0 i (j + 1) (length L0)) by lia.
    rewrite E1, E3. apply Permutation_app_head, Permutation_app_tail. exact HP. }
  assert (Hgl : Forall good l) by (eapply Permutation_Forall; [apply Permutation_sym; exact Q|exact Hg]).
  assert (Inm : forall x, In x (part l i (j + 1)) -> In x (part L0 i (j + 1))) by (intro x; apply Permutation_in; exact HP).
  assert (C1 : cut l i).
  { intros x y Hx Hy. rewrite E1 in Hx. apply Hi; [exact Hx|].
    rewrite (part_split l i (j + 1) (length l)) in Hy by lia.
    rewrite (part_split L0 i (j + 1) (length L0)) by lia.
    apply in_or_app. apply in_app_or in Hy as [Hy|Hy]; [left; now apply Inm|right; now rewrite <- E3]. }
  assert (C2 : cut l (j + 1)).
  { intros x y Hx Hy. rewrite E3 in Hy. apply Hj1; [|exact Hy].
    rewrite (part_split l 0 i (j + 1)) in Hx by lia. rewrite (part_split L0 0 i (j + 1)) by lia.
    apply in_or_app. apply in_app_or in Hx as [Hx|Hx]; [left; now rewrite <- E1|right; now apply Inm]. }
  rewrite Forall_forall in Hg.
  assert (C3 : cut l (jj + 1)).
  { intros x y Hx Hy.
    rewrite (part_split l 0 i (jj + 1)) in Hx by lia. apply in_app_or in Hx as [Hx|Hx].
    { apply C1; [exact Hx|]. rewrite (part_split l i (jj + 1) (length l)) by lia. apply in_or_app. now right. }
    rewrite (part_split l (jj + 1) (j + 1) (length l)) in Hy by lia. apply in_app_or in Hy as [Hy|Hy].
    2:{ apply C2; [|exact Hy]. rewrite (part_split l 0 i (j + 1)) by lia.
        rewrite (part_split l i (jj + 1) (j + 1)) by lia. apply in_or_app. right. apply in_or_app. now left. }
    apply in_lslice_iff in Hx as (a & Ha & Hx). apply in_lslice_iff in Hy as (b & Hb & Hy).
    destruct (Hleft a) as (x' & Ex & Vx); [lia|]. assert (x' = x) by congruence. subst x'.
    destruct (Hright b) as (y' & Ey & Vy); [lia|]. assert (y' = y) by congruence. subst y'.
    assert (Gx : good x) by (rewrite Forall_forall in Hgl; apply Hgl; eapply nth_error_In; exact Hx).
    assert (Gy : good y) by (rewrite Forall_forall in Hgl; apply Hgl; eapply nth_error_In; exact Hy).
    rewrite (H_lt pv x) in Vx by auto. rewrite (H_lt y pv) in Vy by auto.
    apply Z.ltb_ge in Vx, Vy. lia. }
  repeat split; auto.
  - now rewrite E1.
  - rewrite (part_split l 0 i (j + 1)), (part_split L0 0 i (j + 1)) by lia. rewrite !total_app, E1. f_equal.
    apply total_perm. exact HP.
Qed.

(** *** The best of positive weight *)
Lemma gbest_best : forall (key : D -> Z) better l, Forall good l ->
  (forall x y, good x -> good y -> better (fst x) (fst y) = (key (fst y) <? key (fst x))%Z) ->
  forall iis cur k, gbest o better l cur iis = Ok k -> (cur < length l)%nat ->
  (k = cur \/ In k iis) /\
  (forall c x y, c = cur \/ In c iis -> nth_error l c = Some x -> nth_error l k = Some y -> w_pos o (snd x) = true ->
     w_pos o (snd y) = true /\ (key (fst x) <= key (fst y))%Z).
Proof.
  intros key better l Hg Hb. induction iis as [|ii iis IH]; intros cur k E Hc.
  - injection E as <-. split; [now left|]. intros c x y [->|[]] Hx Hy P. assert (x = y) by congruence. subst y. split; [exact P|lia].
  - cbn [gbest] in E. unfold gread in E.
    destruct (nth_error l cur) as [c0|] eqn:Ec; [|discriminate]. cbn [rbind] in E.
    destruct (nth_error l ii) as [x0|] eqn:Ex; [|discriminate]. cbn [rbind] in E.
    rewrite Forall_forall in Hg.
    assert (G1 : good c0) by (apply Hg; eapply nth_error_In; exact Ec).
    assert (G2 : good x0) by (apply Hg; eapply nth_error_In; exact Ex).
    assert (Hii : (ii < length l)%nat) by (apply nth_error_Some; congruence).
    rewrite Hb in E by auto.
    assert (K : exists cur', gbest o better l cur' iis = Ok k /\ (cur' < length l)%nat /\ (cur' = cur \/ cur' = ii) /\
      forall c x y, c = cur \/ c = ii -> nth_error l c = Some x -> nth_error l cur' = Some y -> w_pos o (snd x) = true ->
        w_pos o (snd y) = true /\ (key (fst x) <= key (fst y))%Z).
    { destruct (w_pos o (snd c0)) eqn:P1, (w_pos o (snd x0)) eqn:P2; cbn [Bool.eqb] in E.
      - destruct (Z.ltb_spec (key (fst c0)) (key (fst x0))).
        + exists ii. repeat split; auto; intros; destruct H0 as [->| ->]; (assert (y = x0) by congruence); subst y; auto.
          * assert (x = c0) by congruence. subst x. lia.
          * assert (x = x0) by congruence. subst x. lia.
        + exists cur. repeat split; auto; intros; destruct H0 as [->| ->]; (assert (y = c0) by congruence); subst y; auto.
          * assert (x = c0) by congruence. subst x. lia.
          * assert (x = x0) by congruence. subst x. lia.
      - exists cur. repeat split; auto; intros; destruct H as [->| ->]; (assert (y = c0) by congruence); subst y; auto.
        * assert (x = c0) by congruence. subst x. lia.
        * assert (x = x0) by congruence. subst x. congruence.
      - exists ii. repeat split; auto; intros; destruct H as [->| ->]; (assert (y = x0) by congruence); subst y; auto.
        * assert (x = c0) by congruence. subst x. congruence.
        * assert (x = x0) by congruence. subst x. lia.
      - destruct (Z.ltb_spec (key (fst c0)) (key (fst x0))).
        + exists ii. repeat split; auto; intros; destruct H0 as [->| ->]; congruence.
        + exists cur. repeat split; auto; intros; destruct H0 as [->| ->]; congruence. }
    destruct K as (cur' & E' & Hc' & Hwhich & HK). destruct (IH cur' k E' Hc') as [A B].
    split.
    + destruct A as [->|A]; [|right; now right]. destruct Hwhich as [->| ->]; [now left|right; now left].
    + intros c x y Hin Hx Hy P. destruct Hin as [Hin|[Hin|Hin]].
      * destruct (nth_error l cur') as [z|] eqn:Ez; [|apply nth_error_None in Ez; lia].
        destruct (HK c x z (or_introl Hin) Hx eq_refl P) as [P' L'].
        destruct (B cur' z y (or_introl eq_refl) Ez Hy P') as [P'' L'']. split; [exact P''|lia].
      * destruct (nth_error l cur') as [z|] eqn:Ez; [|apply nth_error_None in Ez; lia].
        destruct (HK c x z (or_intror (eq_sym Hin)) Hx eq_refl P) as [P' L'].
        destruct (B cur' z y (or_introl eq_refl) Ez Hy P') as [P'' L'']. split; [exact P''|lia].
      * apply (B c x y); auto.
Qed.

Definition elements (a : answer D) : list D := match a with One x => [x] | Mean x y => [x; y] end.

Lemma boundary_near : forall l jj m a, Forall good l -> (jj + 1 < length l)%nat -> cut l (jj + 1) ->
  gboundary o l jj m = Ok a -> forall d, In d (elements a) ->
  below l (dv d) <= total (part l 0 (jj + 1)) <= upto l (dv d).
Proof.
  intros l jj m a Hg Hl Hc E. unfold gboundary, gmax, gmin in E.
  destruct (gbest o (fun a b => d_lt o b a) l 0 (seq (0 + 1) (jj - 0))) as [i|] eqn:E1; [|discriminate]. cbn [rbind] in E.
  destruct (gbest o (fun a b => d_lt o a b) l (jj + 1) (seq (jj + 1 + 1) (length l - 1 - (jj + 1)))) as [j|] eqn:E2; [|discriminate].
  cbn [rbind] in E.
  destruct (gbest_best dv _ l Hg (fun x y Gx Gy => H_lt y x Gy Gx) _ _ _ E1) as [A1 B1]; [lia|].
  assert (Hmin : forall x y, good x -> good y -> d_lt o (fst x) (fst y) = (- dv (fst y) <? - dv (fst x))%Z).
  { intros x y Gx Gy. rewrite H_lt by assumption. destruct (Z.ltb_spec (dv (fst x)) (dv (fst y))), (Z.ltb_spec (- dv (fst y)) (- dv (fst x))); lia. }
  destruct (gbest_best (fun d => (- dv d)%Z) _ l Hg Hmin _ _ _ E2) as [A2 B2]; [lia|].
  assert (Hi : (i <= jj)%nat) by (destruct A1 as [->|A1]; [lia|]; apply in_seq in A1; lia).
  assert (Hj : (jj + 1 <= j < length l)%nat) by (destruct A2 as [->|A2]; [lia|]; apply in_seq in A2; lia).
  destruct (gread_ok l j) as (y & Ey & Ny); [lia|]. rewrite Ey in E. cbn [rbind] in E.
  destruct (gread_ok l i) as (x & Ex & Nx); [lia|]. rewrite Ex in E. cbn [rbind] in E.
  pose proof Hg as Hg'. rewrite Forall_forall in Hg'.
  assert (Bx : below l (dv (fst x)) <= total (part l 0 (jj + 1)) <= upto l (dv (fst x))).
  { apply left_of_cut; auto; [lia|apply (part_nth l 0 (jj + 1) i); auto; lia|].
    intros z Hz P. pose proof (Hg' z (part_in _ _ _ _ Hz)) as Gz. apply in_lslice_iff in Hz as (c & Hcc & Nz).
    apply (B1 c z x); auto. destruct c; [now left|right; apply in_seq; lia]. }
  assert (By : below l (dv (fst y)) <= total (part l 0 (jj + 1)) <= upto l (dv (fst y))).
  { apply right_of_cut; auto; [lia|apply (part_nth l (jj + 1) (length l) j); auto; lia|].
    intros z Hz P. pose proof (Hg' z (part_in _ _ _ _ Hz)) as Gz. apply in_lslice_iff in Hz as (c & Hcc & Nz).
    assert (H : w_pos o (snd y) = true /\ (- dv (fst z) <= - dv (fst y))%Z).
    { apply (B2 c z y); auto. destruct (Nat.eq_dec c (jj + 1)); [now left|right; apply in_seq; lia]. }
    lia. }
  intros d Hd. destruct (_ || _); [injection E as <-; destruct Hd as [<-|[]]; exact Bx|].
  destruct (_ || _); injection E as <-; [destruct Hd as [<-|[]]; exact By|].
  destruct Hd as [<-|[<-|[]]]; [exact Bx|exact By].
Qed.

(** *** The search *)
Context (RS : S -> R -> Prop) (u g T : R) (n : nat).
Context (Hu : 0 <= u) (Hg0 : 0 <= g) (HT : 0 <= T).
Context (H_sum : forall l, Forall good l -> (length l <= n)%nat -> total l <= T ->
  exists x, RS (fsum o (map snd l)) x /\ 0 <= x /\ Rabs (x - total l) <= g * total l).
Context (H_eq : forall s x s' x', RS s x -> RS s' x' -> s_eq o s s' = Req_bool x x').
Context (H_le : forall s x s' x', RS s x -> RS s' x' -> s_le o s s' = Rle_bool x x').
Context (H_sub : forall s x s' x', RS s x -> RS s' x' -> 0 <= x' -> x' < x -> x <= 2 * T ->
  exists x'', RS (s_sub o s s') x'' /\ 0 <= x'' <= x /\ Rabs (x'' - (x - x')) <= u * (x - x')).
Context (L0 : list datum) (t e0 : R) (Hn : length L0 = n) (Hgood : Forall good L0) (Htot : total L0 = T).
Context (Ht : 0 <= t <= T) (He0 : 0 <= e0).

Definition err : R := e0 + 2 * g * T + 2 * u * T * INR n.

Theorem select_near : forall fuel l i j qs m x a, Permutation l L0 -> (i < j < n)%nat -> cut l i -> cut l (j + 1) ->
  RS qs x -> 0 <= x <= 2 * T ->
  Rabs (x - (t - total (part l 0 i))) <= e0 + g * total (part l 0 i) + 2 * u * T * INR i ->
  total (part l 0 i) <= t + err -> t <= total (part l 0 (j + 1)) + err ->
  gselect o fuel l i j qs m = Ok a ->
  forall d, In d (elements a) -> below L0 (dv d) <= t + err /\ t <= upto L0 (dv d) + err.
Proof.
  induction fuel as [|fuel IH]; intros l i j qs m x a HP Hij Ci Cj Hq Hx Hex Hlo Hhi E; [discriminate|].
  cbn [gselect] in E. pose proof (Permutation_length HP) as Hlen.
  assert (Hm : ((i + j) / 2 < length l)%nat).
  { apply Nat.le_lt_trans with j; [apply Nat.div_le_upper_bound; lia|lia]. }
  destruct (gread_ok l _ Hm) as (pv & Epv & Npv). rewrite Epv in E. cbn [rbind] in E.
  destruct (gpartition_begin o Has l i j pv) as (l' & jj & wl & E1 & PF); [lia|lia|exact Npv|].
  rewrite E1 in E. cbn [rbind] in E.
  assert (Hgl : Forall good l) by (eapply Permutation_Forall; [apply Permutation_sym; exact HP|exact Hgood]).
  destruct (pfull_cuts l (fst pv) i j l' jj wl pv Hgl PF) as (Q & Hgl' & C1 & C2 & C3 & T1 & T2);
    [lia|eapply nth_error_In; exact Npv|reflexivity|exact Ci|exact Cj|].
  destruct PF as [Plen _ _ _ _ Pwl Pjj Plast].
  assert (HP' : Permutation l' L0) by (eapply perm_trans; [exact Q|exact HP]).
  assert (Tl' : total l' = T) by (rewrite (total_perm _ _ HP'); exact Htot).
  rewrite <- T1 in Hex, Hlo. rewrite <- T2 in Hhi.
  assert (Split : total (part l' 0 (jj + 1)) = total (part l' 0 i) + total (part l' i (jj + 1))).
  { rewrite (part_split l' 0 i (jj + 1)) by lia. apply total_app. }
  pose proof (total_nonneg _ (part_good l' 0 i Hgl')) as N1.
  pose proof (total_nonneg _ (part_good l' i (jj + 1) Hgl')) as N2.
  assert (N3 : total (part l' 0 (jj + 1)) <= T).
  { rewrite <- Tl'. rewrite (total_cut l' (jj + 1)) by lia.
    pose proof (total_nonneg _ (part_good l' (jj + 1) (length l') Hgl')). lra. }
  destruct (H_sum (part l' i (jj + 1))) as (y & Hy & Py & Ey).
  { now apply part_good. }
  { unfold part, lslice. rewrite firstn_length. lia. }
  { lra. }
  change (fsum o (map snd (part l' i (jj + 1)))) with (fsum o (weights l' i (jj + 1))) in Hy. rewrite <- Pwl in Hy.
  rewrite (H_eq _ _ _ _ Hq Hy) in E. rewrite (H_le _ _ _ _ Hq Hy) in E.
  set (A := total (part l' 0 i)) in *. set (B := total (part l' i (jj + 1))) in *.
  assert (Ejj : INR i + 1 <= INR (jj + 1)) by (rewrite <- S_INR; apply le_INR; lia).
  assert (Ejn : INR (jj + 1) <= INR n) by (apply le_INR; lia).
  pose proof (pos_INR i) as Pi.
  assert (Errs : forall k, 0 <= INR k -> INR k <= INR n -> 2 * u * T * INR k <= 2 * u * T * INR n).
  { intros k _ Hk. apply Rmult_le_compat_l; [|exact Hk]. apply Rmult_le_pos; [lra|exact HT]. }
  assert (Ei : 2 * u * T * INR i <= 2 * u * T * INR n) by (apply Errs; [exact Pi|apply le_INR; lia]).
  assert (GA : g * A + g * B <= g * T) by (rewrite <- Rmult_plus_distr_l; apply Rmult_le_compat_l; lra).
  assert (GB : g * B <= g * T) by (apply Rmult_le_compat_l; lra).
  apply Rabs_le_inv in Hex. apply Rabs_le_inv in Ey. subst A B.
  assert (Final : forall i' j' qs' x', (i' <= j' < n)%nat -> cut l' i' -> cut l' (j' + 1) -> RS qs' x' -> 0 <= x' <= 2 * T ->
    Rabs (x' - (t - total (part l' 0 i'))) <= e0 + g * total (part l' 0 i') + 2 * u * T * INR i' ->
    total (part l' 0 i') <= t + err -> t <= total (part l' 0 (j' + 1)) + err ->
    (if (i' =? j')%nat then rbind (gread l' i') (fun x => Ok (One (fst x))) else gselect o fuel l' i' j' qs' m) = Ok a ->
    forall d, In d (elements a) -> below L0 (dv d) <= t + err /\ t <= upto L0 (dv d) + err).
  { intros i' j' qs' x' K1 K2 K3 K4 K5 K6 K7 K8 K9. destruct (Nat.eqb_spec i' j') as [Heq|Hne].
    - subst j'. destruct (gread_ok l' i') as (z & Ez & Nz); [lia|]. rewrite Ez in K9. cbn [rbind] in K9. injection K9 as <-.
      intros d [<-|[]]. destruct (between_cuts l' i' z Hgl' Nz K2 K3) as [S1 S2].
      unfold below, upto in *. rewrite <- (vals_perm _ _ _ HP'), <- (vals_perm _ l' L0 HP'). lra.
    - apply (IH l' i' j' qs' m x'); auto. lia. }
  unfold err in *.
  destruct (Req_bool_spec x y) as [Exy|Nxy].
  - intros d Hd. pose proof (boundary_near l' jj m a Hgl' ltac:(lia) C3 E d Hd) as SS.
    unfold below, upto in *. rewrite <- (vals_perm _ _ _ HP'), <- (vals_perm _ l' L0 HP'). lra.
  - destruct (Rle_bool_spec x y) as [Lxy|Gxy].
    + revert E. apply (Final i jj qs x); auto; try lia.
      * apply Rabs_le. lra.
      * lra.
    + destruct (H_sub _ _ _ _ Hq Hy Py Gxy) as (x'' & K1 & K2 & K3); [lra|].
      assert (Ux : u * (x - y) <= 2 * u * T).
      { replace (2 * u * T) with (u * (2 * T)) by ring. apply Rmult_le_compat_l; lra. }
      assert (Es : 2 * u * T * (INR i + 1) <= 2 * u * T * INR (jj + 1)).
      { apply Rmult_le_compat_l; [apply Rmult_le_pos; [lra|exact HT]|exact Ejj]. }
      apply Rabs_le_inv in K3.
      revert E. apply (Final (jj + 1)%nat j (s_sub o qs wl) x''); auto; try lia.
      * lra.
      * rewrite Split. apply Rabs_le. lra.
      * lra.
Qed.

Theorem quickselect_near : forall qs m x a, (2 <= n)%nat -> RS qs x -> 0 <= x <= 2 * T -> Rabs (x - t) <= e0 ->
  gquickselect o L0 qs m = Ok a ->
  forall d, In d (elements a) -> below L0 (dv d) <= t + err /\ t <= upto L0 (dv d) + err.
Proof.
  intros qs m x a Hn2 Hq Hx Hex E. unfold gquickselect in E. destruct L0 as [|d0 L1] eqn:EL; [discriminate|]. rewrite <- EL in *.
  assert (E0 : part L0 0 0 = []) by reflexivity.
  assert (P : 0 <= err).
  { unfold err. pose proof (pos_INR n). assert (0 <= g * T) by (apply Rmult_le_pos; lra).
    assert (0 <= 2 * u * T * INR n) by (apply Rmult_le_pos; [apply Rmult_le_pos; lra|exact H]). lra. }
  apply (select_near (Datatypes.S (length L0)) L0 0 (length L0 - 1) qs m x a); auto.
  - lia.
  - intros y z Hy. rewrite E0 in Hy. contradiction.
  - intros y z _ Hz. replace (length L0 - 1 + 1)%nat with (length L0) in Hz by lia.
    unfold part in Hz. rewrite lslice_nil in Hz. contradiction.
  - rewrite E0. cbn [total fold_right INR]. rewrite Rminus_0_r. lra.
  - rewrite E0. cbn [total fold_right]. lra.
  - replace (length L0 - 1 + 1)%nat with (length L0) by lia. rewrite part_all. lra.
Qed.
End Approx.
