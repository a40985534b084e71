(** Lemmas about elementwise operations on distributed arrays. *)
From Coq Require Import List Arith ZArith Bool Lia.
From Verif Require Import PyBase PartSpec PartModel PartProofs SliceModel RedModel RedSpec RedProofs AxModel AxSpec AxProofs AxProofs2 DuModel DuSpec DuProofs.
Import ListNotations.
Open Scope nat_scope.

Lemma start_part : forall c n, c_rank c < c_size c -> start c n + part c n <= n.
Proof.
  intros c n H. unfold start, part. rewrite <- start_of_S. rewrite <- (start_of_m n (c_size c)) at 2 by lia.
  apply start_of_mono. lia.
Qed.
Lemma nth_right : forall k j (l : list nat) n, k + S j = length l -> right j l = Some n -> nth k l 0 = n.
Proof. intros k j l n H E. rewrite (right_nth _ _ k) in E by lia. exact (nth_error_nth _ _ 0 E). Qed.
Lemma right_nth_some : forall k j (l : list nat), k + S j = length l -> right j l = Some (nth k l 0).
Proof. intros k j l H. rewrite (right_nth _ _ k) by lia. apply nth_error_nth'. lia. Qed.
Lemma set_nth_back : forall k (l : list nat) x, set_nth k (nth k l 0) (set_nth k x l) = l.
Proof.
  intros k l x. apply nth_error_ext. intros j. rewrite !nth_error_set_nth.
  destruct (nth_error l j) as [y|] eqn:E; cbn [option_map]; [|reflexivity].
  destruct (Nat.eqb_spec j k) as [->|]; [|reflexivity]. f_equal. exact (nth_error_nth _ _ 0 E).
Qed.
Lemma pyaxis_nat : forall n k, k < n -> pyaxis n (Z.of_nat k) = Ok k.
Proof. intros n k H. apply pyaxis_names. split; [exact H|now left]. Qed.
Lemma pynth_nat : forall A (l : list A) k, pynth l (Z.of_nat k) = match nth_error l k with Some x => Ok x | None => Err IndexError end.
Proof.
  intros A l k. unfold pynth. destruct (Nat.lt_ge_cases k (length l)) as [L|L].
  - now rewrite pyaxis_nat.
  - unfold pyaxis. replace ((0 <=? Z.of_nat k)%Z && (Z.of_nat k <? Z.of_nat (length l))%Z) with false
      by (symmetry; apply andb_false_iff; right; apply Z.ltb_ge; lia).
    replace ((- Z.of_nat (length l) <=? Z.of_nat k)%Z && (Z.of_nat k <? 0)%Z) with false
      by (symmetry; apply andb_false_iff; right; apply Z.ltb_ge; lia).
    now rewrite (proj2 (nth_error_None _ _) L).
Qed.
Lemma pyset_nat : forall k x l, k < length l -> pyset (Z.of_nat k) x l = Ok (set_nth k x l).
Proof. intros k x l H. unfold pyset. now rewrite pyaxis_nat. Qed.

Section WithA.
Context {A : Type}.

Lemma share_right : forall c k j (G a : nd A) n i, Share c k G a -> k + S j = length (shp G) ->
  right j (shp G) = Some n -> right i (shp a) = if i =? j then Some (part c n) else right i (shp G).
Proof.
  intros c k j G a n i (_ & E & _) H R. rewrite E, (right_set_nth _ _ j) by lia.
  now rewrite (nth_right _ _ _ _ H R).
Qed.
Lemma share_length : forall c k (G a : nd A), Share c k G a -> length (shp a) = length (shp G).
Proof. intros c k G a (_ & E & _). rewrite E. apply length_set_nth. Qed.

Lemma view_part : forall c k (a : nd A) gsh, k < length gsh ->
  shp a = set_nth k (part c (nth k gsh 0)) gsh ->
  view_from_data_and_params a (Z.of_nat k) (nth k gsh 0) (start c (nth k gsh 0)) (Some c)
  = Ok (mkdarr (Z.of_nat k) gsh (shp a) (set_nth k (start c (nth k gsh 0)) (repeat 0 (length gsh))) (Some c) a).
Proof.
  intros c k a gsh Hk E. unfold view_from_data_and_params. rewrite E.
  rewrite length_set_nth. rewrite pyset_nat by (rewrite length_set_nth; lia).
  cbn [rbind]. rewrite pyset_nat by (rewrite repeat_length; lia). cbn [rbind].
  now rewrite set_nth_back.
Qed.

(** ** The element used of an operand *)
Lemma read_local : forall c j n i (G : nd A) idx i',
  c_rank c < c_size c -> StandsFor c j n i G -> j < length idx -> length (shp G) <= length idx ->
  (forall x m, right j idx = Some x -> right j (shp (local_of i)) = Some m -> m <> 1 -> x < m) ->
  (forall x, right j idx = Some x -> x < part c n) ->
  (forall q x m, q <> j -> right q idx = Some x -> right q (shp G) = Some m -> m = 1 \/ x < m) ->
  Reads (shp G) (shift (length idx - S j) (start c n) idx) i' ->
  elt (local_of i) (bindex (shp (local_of i)) idx) = elt G i'.
Proof.
  intros c j n i G idx i' Hc SF Hj Hlen Hin Hx Hother HR.
  assert (SH : forall q, right q (shift (length idx - S j) (start c n) idx)
     = if q =? j then option_map (fun x => x + start c n) (right q idx) else right q idx).
  { intros q. apply right_shift. lia. }
  assert (Own : forall k a, Share c k G a -> k + S j = length (shp G) -> right j (shp G) = Some n ->
            elt a (bindex (shp a) idx) = elt G i').
  { intros k a Sh Hk Hn. pose proof (share_right c k j G a n) as SR.
    assert (L : length (shp a) = length (shp G)) by (eapply share_length; eauto).
    assert (LB : length (bindex (shp a) idx) = length (shp a)).
    { unfold bindex. rewrite rev_length.
      assert (LB : forall s t, length s <= length t -> length (bidx s t) = length s).
      { induction s as [|x s IH]; intros [|y t] H; cbn in *; try lia. rewrite IH; lia. }
      rewrite LB; rewrite !rev_length; lia. }
    destruct (right_lt _ idx j Hj) as [x Ex]. pose proof (Hx _ Ex) as Lx.
    destruct Sh as (K1 & K2 & K3). rewrite K3.
    - f_equal. eapply reads_unique; [|exact HR]. intros q.
      rewrite (right_shift _ j) by lia. rewrite (reads_bindex (shp a) idx q), SH.
      rewrite (SR q) by (repeat split; auto; lia). rewrite (nth_right _ _ _ _ Hk Hn).
      destruct (Nat.eqb_spec q j) as [->|Nq]; [|reflexivity].
      rewrite Ex, Hn. cbn [option_map]. f_equal. pose proof (start_part c n Hc).
      destruct (Nat.eqb_spec (part c n) 1), (Nat.eqb_spec n 1); lia.
    - apply inshape_right. split; [exact LB|]. intros q y m Hy Hm.
      rewrite (reads_bindex (shp a) idx q), Hm in Hy. destruct (right q idx) as [z|] eqn:Ez; [|discriminate].
      injection Hy as <-. rewrite (SR q) in Hm by (repeat split; auto; lia).
      destruct (Nat.eqb_spec q j) as [->|Nq].
      + injection Hm as <-. rewrite Ex in Ez. injection Ez as <-. destruct (Nat.eqb_spec (part c n) 1); lia.
      + destruct (Hother q z m Nq Ez Hm) as [->|]; [cbn; lia|]. destruct (Nat.eqb_spec m 1); lia. }
  destruct SF as [d G k HP Hk Hn|a Ha|a G k HS Hk Hn|x]; cbn [local_of].
  - apply (Own k); auto. apply HP.
  - f_equal. eapply reads_unique; [apply reads_bindex|]. intros q. rewrite (HR q), SH.
    destruct (Nat.eqb_spec q j) as [->|]; [|reflexivity].
    destruct (right j (shp a)) as [m|] eqn:Em; [|reflexivity]. rewrite (Ha _ eq_refl).
    destruct (right j idx); reflexivity.
  - apply (Own k); auto.
  - reflexivity.
Qed.

(** ** Shapes *)
Lemma stands_right : forall c j n i (G : nd A) q, StandsFor c j n i G ->
  (q <> j -> right q (shp (local_of i)) = right q (shp G))
  /\ length (shp (local_of i)) = length (shp G)
  /\ ((right j (shp G) = Some n /\ right j (shp (local_of i)) = Some (part c n))
      \/ (is_dist i = false /\ (forall m, right j (shp G) = Some m -> m = 1) /\ right j (shp (local_of i)) = right j (shp G))).
Proof.
  intros c j n i G q SF. destruct SF as [d G k HP Hk Hn|a Ha|a G k HS Hk Hn|x]; cbn [local_of].
  - destruct HP as [HS _]. split; [|split].
    + intros Hq. rewrite (share_right _ _ _ _ _ _ q HS Hk Hn). destruct (Nat.eqb_spec q j); [lia|reflexivity].
    + exact (share_length _ _ _ _ HS).
    + left. split; [exact Hn|]. rewrite (share_right _ _ _ _ _ _ j HS Hk Hn). now rewrite Nat.eqb_refl.
  - split; [auto|]. split; [auto|]. right. auto.
  - split; [|split].
    + intros Hq. rewrite (share_right _ _ _ _ _ _ q HS Hk Hn). destruct (Nat.eqb_spec q j); [lia|reflexivity].
    + exact (share_length _ _ _ _ HS).
    + left. split; [exact Hn|]. rewrite (share_right _ _ _ _ _ _ j HS Hk Hn). now rewrite Nat.eqb_refl.
  - split; [auto|]. split; [auto|]. right. split; [reflexivity|]. split; [|reflexivity]. intros m. destruct j; discriminate.
Qed.

Lemma forall2_in_l : forall X Y (R : X -> Y -> Prop) l l' x, Forall2 R l l' -> In x l -> exists y, In y l' /\ R x y.
Proof.
  intros X Y R l l' x H. induction H; [contradiction|]. intros [<-|Hin]; [eexists; split; [left; reflexivity|auto]|].
  destruct (IHForall2 Hin) as (z & Hz & Rz). exists z. split; [now right|exact Rz].
Qed.
Lemma forall2_in_r : forall X Y (R : X -> Y -> Prop) l l' y, Forall2 R l l' -> In y l' -> exists x, In x l /\ R x y.
Proof.
  intros X Y R l l' y H. induction H; [contradiction|]. intros [<-|Hin]; [eexists; split; [left; reflexivity|auto]|].
  destruct (IHForall2 Hin) as (z & Hz & Rz). exists z. split; [now right|exact Rz].
Qed.

Section Inputs.
Variables (c : comm) (j n : nat) (inputs : list (input A)) (Gs : list (nd A)).
Hypothesis Hc : c_rank c < c_size c.
Hypothesis SF : Forall2 (StandsFor c j n) inputs Gs.
Hypothesis HD : exists d, In (InDist d) inputs.

Lemma some_dist : exists d G k, In (InDist d) inputs /\ In G Gs /\ Part c k G d /\ k + S j = length (shp G) /\ right j (shp G) = Some n.
Proof.
  destruct HD as (d & Hd). destruct (forall2_in_l _ _ _ _ _ _ SF Hd) as (G & HG & R).
  inversion R; subst. exists d, G, k. auto.
Qed.
Lemma result_axis : forall sh, Broadcast (map shp Gs) sh -> right j sh = Some n.
Proof.
  intros sh (B1 & B2 & B3). destruct some_dist as (d & G & k & Hd & HG & _ & Hk & Hn).
  assert (HL : length (shp G) <= length sh) by (apply B1, in_map, HG).
  destruct (right_lt _ sh j) as [m Em]; [lia|]. rewrite Em. f_equal.
  destruct (B3 _ _ Em) as [C1 C2]. destruct (C1 _ _ (in_map shp _ _ HG) Hn) as [->|]; auto.
  destruct C2 as [->|(s & Hs & C2)]; auto. apply in_map_iff in Hs. destruct Hs as (G' & <- & HG').
  destruct (forall2_in_r _ _ _ _ _ _ SF HG') as (i & Hi & R).
  destruct (stands_right _ _ _ _ _ j R) as (_ & _ & [[E1 _]|(_ & E1 & _)]).
  - congruence.
  - apply E1, C2.
Qed.
Lemma broadcast_local : forall sh, Broadcast (map shp Gs) sh ->
  Broadcast (map shp (map local_of inputs)) (set_nth (length sh - S j) (part c n) sh).
Proof.
  intros sh B. pose proof (result_axis _ B) as Rj. pose proof (right_some _ _ _ _ Rj) as Lj.
  destruct B as (B1 & B2 & B3).
  assert (RS : forall q, right q (set_nth (length sh - S j) (part c n) sh) = if q =? j then Some (part c n) else right q sh).
  { intros q. apply right_set_nth. lia. }
  split; [|split].
  - intros s Hs. rewrite length_set_nth. rewrite map_map in Hs. apply in_map_iff in Hs. destruct Hs as (i & <- & Hi).
    destruct (forall2_in_l _ _ _ _ _ _ SF Hi) as (G & HG & R). destruct (stands_right _ _ _ _ _ 0 R) as (_ & -> & _).
    apply B1, in_map, HG.
  - right. rewrite length_set_nth. destruct B2 as [B2|(s & Hs & B2)]; [lia|].
    apply in_map_iff in Hs. destruct Hs as (G & <- & HG). destruct (forall2_in_r _ _ _ _ _ _ SF HG) as (i & Hi & R).
    exists (shp (local_of i)). split; [apply in_map, in_map, Hi|]. destruct (stands_right _ _ _ _ _ 0 R) as (_ & -> & _). exact B2.
  - intros q m. rewrite RS. destruct (Nat.eqb_spec q j) as [->|Nq]; intros Hm.
    + injection Hm as <-. split.
      * intros s d Hs Hd. rewrite map_map in Hs. apply in_map_iff in Hs. destruct Hs as (i & <- & Hi).
        destruct (forall2_in_l _ _ _ _ _ _ SF Hi) as (G & HG & R).
        destruct (stands_right _ _ _ _ _ j R) as (_ & _ & [[_ E]|(_ & E1 & E2)]).
        -- right. congruence.
        -- left. apply E1. congruence.
      * right. destruct HD as (d & Hd). exists (shp (d_data d)).
        split; [apply (in_map shp), (in_map local_of _ _ Hd)|].
        destruct (forall2_in_l _ _ _ _ _ _ SF Hd) as (G & HG & R).
        destruct (stands_right _ _ _ _ _ j R) as (_ & _ & [[_ E]|(E & _)]); [exact E|discriminate].
    + destruct (B3 _ _ Hm) as [C1 C2]. split.
      * intros s d Hs Hd. rewrite map_map in Hs. apply in_map_iff in Hs. destruct Hs as (i & <- & Hi).
        destruct (forall2_in_l _ _ _ _ _ _ SF Hi) as (G & HG & R). destruct (stands_right _ _ _ _ _ q R) as (E & _).
        rewrite (E Nq) in Hd. exact (C1 _ _ (in_map shp _ _ HG) Hd).
      * destruct C2 as [->|(s & Hs & C2)]; auto. right. apply in_map_iff in Hs. destruct Hs as (G & <- & HG).
        destruct (forall2_in_r _ _ _ _ _ _ SF HG) as (i & Hi & R). destruct (stands_right _ _ _ _ _ q R) as (E & _).
        exists (shp (local_of i)). split; [apply in_map, in_map, Hi|]. rewrite (E Nq). exact C2.
Qed.
(** If the local shapes can be broadcast, so can the global ones. *)
Lemma broadcast_global : forall lsh, Broadcast (map shp (map local_of inputs)) lsh ->
  Broadcast (map shp Gs) (set_nth (length lsh - S j) n lsh).
Proof.
  intros lsh (B1 & B2 & B3).
  assert (Lj : j < length lsh).
  { destruct some_dist as (d & G & k & Hd & HG & HP & Hk & _). assert (length (shp G) <= length lsh); [|lia].
    destruct HP as [HS _]. rewrite <- (share_length _ _ _ _ HS). apply B1. apply (in_map shp), (in_map local_of _ _ Hd). }
  assert (RS : forall q, right q (set_nth (length lsh - S j) n lsh) = if q =? j then Some n else right q lsh).
  { intros q. apply right_set_nth. lia. }
  split; [|split].
  - intros s Hs. rewrite length_set_nth. apply in_map_iff in Hs. destruct Hs as (G & <- & HG).
    destruct (forall2_in_r _ _ _ _ _ _ SF HG) as (i & Hi & R). destruct (stands_right _ _ _ _ _ 0 R) as (_ & <- & _).
    apply B1, in_map, in_map, Hi.
  - right. rewrite length_set_nth. destruct B2 as [B2|(s & Hs & B2)]; [lia|].
    rewrite map_map in Hs. apply in_map_iff in Hs. destruct Hs as (i & <- & Hi). destruct (forall2_in_l _ _ _ _ _ _ SF Hi) as (G & HG & R).
    exists (shp G). split; [apply in_map, HG|]. destruct (stands_right _ _ _ _ _ 0 R) as (_ & <- & _). exact B2.
  - intros q m. rewrite RS. destruct (Nat.eqb_spec q j) as [->|Nq]; intros Hm.
    + injection Hm as <-. split.
      * intros s d Hs Hd. apply in_map_iff in Hs. destruct Hs as (G & <- & HG).
        destruct (forall2_in_r _ _ _ _ _ _ SF HG) as (i & Hi & R).
        destruct (stands_right _ _ _ _ _ j R) as (_ & _ & [[E _]|(_ & E1 & E2)]).
        -- right. congruence.
        -- left. now apply E1.
      * right. destruct some_dist as (d & G & k & Hd & HG & HP & Hk & Hn). exists (shp G). split; [apply in_map, HG|exact Hn].
    + destruct (B3 _ _ Hm) as [C1 C2]. split.
      * intros s d Hs Hd. apply in_map_iff in Hs. destruct Hs as (G & <- & HG).
        destruct (forall2_in_r _ _ _ _ _ _ SF HG) as (i & Hi & R). destruct (stands_right _ _ _ _ _ q R) as (E & _).
        rewrite <- (E Nq) in Hd. exact (C1 _ _ (in_map shp _ _ (in_map local_of _ _ Hi)) Hd).
      * destruct C2 as [->|(s & Hs & C2)]; auto. right. rewrite map_map in Hs. apply in_map_iff in Hs. destruct Hs as (i & <- & Hi).
        destruct (forall2_in_l _ _ _ _ _ _ SF Hi) as (G & HG & R). destruct (stands_right _ _ _ _ _ q R) as (E & _).
        exists (shp G). split; [apply in_map, HG|]. rewrite <- (E Nq). exact C2.
Qed.

Lemma inputs_comm : common_comm None inputs = Ok (Some c).
Proof.
  assert (K : forall (l : list (input A)) acc, (forall d, In (InDist d) l -> d_comm d = Some c) -> acc = None \/ acc = Some c ->
            (acc = Some c \/ exists d, In (InDist d) l) -> common_comm acc l = Ok (Some c)).
  { induction l as [|i l IH]; intros acc H1 H2 H3.
    - destruct H3 as [->|(d & [])]. reflexivity.
    - destruct i as [d|a|x]; cbn [common_comm].
      + rewrite (H1 d) by now left. destruct H2 as [->| ->].
        * apply IH; [intros; apply H1; now right|now right|now left].
        * cbn [eq_comm]. rewrite Nat.eqb_refl. apply IH; [intros; apply H1; now right|now right|now left].
      + apply IH; [intros; apply H1; now right|exact H2|]. destruct H3 as [H3|(d & [H3|H3])]; [now left|discriminate|right; now exists d].
      + apply IH; [intros; apply H1; now right|exact H2|]. destruct H3 as [H3|(d & [H3|H3])]; [now left|discriminate|right; now exists d]. }
  apply K; [|now left|right; exact HD].
  intros d Hd. destruct (forall2_in_l _ _ _ _ _ _ SF Hd) as (G & _ & R). inversion R as [d0 G0 k HP Hk Hn| | |]; subst. apply HP.
Qed.

Lemma first_split : forall l : list (input A), (exists d, In (InDist d) l) ->
  exists plain d rest, l = plain ++ InDist d :: rest /\ Forall (fun i => is_dist i = false) plain.
Proof.
  induction l as [|i l IH]; intros (d & Hd); [contradiction|].
  destruct i as [e|a|x].
  - exists [], e, l. split; [reflexivity|constructor].
  - destruct IH as (p & e & r & -> & F); [destruct Hd as [Hd|Hd]; [discriminate|eauto]|].
    exists (InArr a :: p), e, r. split; [reflexivity|constructor; auto].
  - destruct IH as (p & e & r & -> & F); [destruct Hd as [Hd|Hd]; [discriminate|eauto]|].
    exists (InScalar x :: p), e, r. split; [reflexivity|constructor; auto].
Qed.
Lemma part_params : forall d k (G : nd A), Part c k G d -> k + S j = length (shp G) -> right j (shp G) = Some n ->
  right j (d_gshape d) = Some n /\ right j (d_loffset d) = Some (start c n) /\ right j (d_lshape d) = Some (part c n)
  /\ length (d_loffset d) = length (d_gshape d) /\ length (d_lshape d) = length (d_gshape d).
Proof.
  intros d k G (HS & E1 & E2 & E3 & E4 & E5) Hk Hn. rewrite E2, E3, E4. repeat split.
  - exact Hn.
  - rewrite (right_set_nth _ _ j) by (rewrite repeat_length; lia). rewrite Nat.eqb_refl. now rewrite (nth_right _ _ _ _ Hk Hn).
  - rewrite (share_right _ _ _ _ _ _ j HS Hk Hn). now rewrite Nat.eqb_refl.
  - now rewrite length_set_nth, repeat_length.
  - exact (share_length _ _ _ _ HS).
Qed.
Lemma inputs_validate0 : exists m, (forall G, In G Gs -> length (shp G) <= m) /\ (exists G, In G Gs /\ length (shp G) = m) /\
  ufunc_call (map operand_of inputs) = Ok ((Z.of_nat m - 1 - Z.of_nat j)%Z, n, start c n).
Proof.
  destruct (first_split inputs HD) as (plain & d & rest & E & F).
  assert (Hd : In (InDist d) inputs) by (rewrite E; apply in_or_app; right; now left).
  destruct (forall2_in_l _ _ _ _ _ _ SF Hd) as (G & HG & R). inversion R as [d' G' k HP Hk Hn| | |]; subst d' G'.
  destruct (part_params _ _ _ HP Hk Hn) as (P1 & P2 & P3 & P4 & P5).
  destruct (ufunc_call_ok (map operand_of plain) (d_axis d) (d_gshape d) (d_loffset d) (d_lshape d) (map operand_of rest)
              j n (start c n) (part c n)) as [K _].
  - apply Forall_forall. intros o Ho. apply in_map_iff in Ho. destruct Ho as (i & <- & Hi).
    rewrite Forall_forall in F. specialize (F _ Hi). destruct i; cbn in *; [discriminate|auto|auto].
  - apply Forall_forall. intros o Ho.
    assert (Ho' : In o (map operand_of inputs)) by (rewrite E, map_app; exact Ho).
    apply in_map_iff in Ho'. destruct Ho' as (i & <- & Hi). destruct (forall2_in_l _ _ _ _ _ _ SF Hi) as (G' & _ & R').
    destruct R' as [e G' k' HP' Hk' Hn'|a Ha|a G' k' HS' Hk' Hn'|x]; cbn [operand_of OpWf]; auto.
    destruct (part_params _ _ _ HP' Hk' Hn') as (_ & _ & _ & Q4 & Q5). split; [|split; assumption].
    destruct HP' as (_ & -> & -> & _). lia.
  - destruct HP as (_ & -> & -> & _). lia.
  - exact P1.
  - exact P2.
  - exact P3.
  - assert (AL : Forall (Aligned j n (start c n) (part c n)) (map operand_of plain ++ OpDist (d_axis d) (d_gshape d) (d_loffset d) (d_lshape d) :: map operand_of rest)).
    { apply Forall_forall. intros o Ho.
      assert (Ho' : In o (map operand_of inputs)) by (rewrite E, map_app; exact Ho).
      apply in_map_iff in Ho'. destruct Ho' as (i & <- & Hi). destruct (forall2_in_l _ _ _ _ _ _ SF Hi) as (G' & _ & R').
      destruct R' as [e G' k' HP' Hk' Hn'|a Ha|a G' k' HS' Hk' Hn'|x]; cbn [operand_of Aligned]; auto.
      - destruct (part_params _ _ _ HP' Hk' Hn') as (Q1 & Q2 & _). split; [|split; assumption].
        destruct HP' as (_ & -> & -> & _). lia.
      - intros m Hm. right. rewrite (share_right _ _ _ _ _ _ j HS' Hk' Hn'), Nat.eqb_refl in Hm. now injection Hm as <-. }
    destruct (K AL) as (m & M1 & (o & Ho & M2) & M3).
    rewrite E, map_app. cbn [map operand_of]. rewrite M3.
    assert (DL : forall i (G : nd A), StandsFor c j n i G -> dims (operand_of i) = length (shp G)).
    { intros i G' R'. destruct (stands_right _ _ _ _ _ 0 R') as (_ & L & _). rewrite <- L.
      destruct R' as [e G' k' HP' Hk' Hn'|a Ha|a G' k' HS' Hk' Hn'|x]; cbn [operand_of dims local_of]; auto.
      destruct (part_params _ _ _ HP' Hk' Hn') as (_ & _ & _ & _ & Q5). destruct HP' as (_ & _ & _ & Q & _). congruence. }
    exists m. split; [|split; [|reflexivity]].
    + intros G' HG'. destruct (forall2_in_r _ _ _ _ _ _ SF HG') as (i & Hi & R'). rewrite <- (DL _ _ R'). apply M1.
      assert (In (operand_of i) (map operand_of inputs)) as Hi' by apply in_map, Hi. rewrite E, map_app in Hi'. exact Hi'.
    + assert (Ho' : In o (map operand_of inputs)) by (rewrite E, map_app; exact Ho).
      apply in_map_iff in Ho'. destruct Ho' as (i & <- & Hi). destruct (forall2_in_l _ _ _ _ _ _ SF Hi) as (G' & HG' & R').
      exists G'. split; [exact HG'|]. now rewrite <- (DL _ _ R').
Qed.
Lemma inputs_validate : forall sh, Broadcast (map shp Gs) sh ->
  ufunc_call (map operand_of inputs) = Ok (Z.of_nat (length sh - S j), n, start c n).
Proof.
  intros sh B. destruct inputs_validate0 as (m & M1 & (G & HG & M2) & ->).
  pose proof (right_some _ _ _ _ (result_axis _ B)). destruct B as (B1 & B2 & _).
  assert (m = length sh).
  { apply Nat.le_antisymm; [rewrite <- M2; apply B1, in_map, HG|].
    destruct B2 as [B2|(s & Hs & B2)]; [lia|]. apply in_map_iff in Hs. destruct Hs as (G' & <- & HG').
    rewrite <- B2. apply M1, HG'. }
  do 3 f_equal. lia.
Qed.

(** The results of numpy on the rank. *)
Lemma apply_share : forall u sh k R, Broadcast (map shp Gs) sh -> shp R = sh -> Elementwise (u_elem u k) Gs R ->
  Share c (length sh - S j) R
    (apply_on u (map local_of inputs) (set_nth (length sh - S j) (part c n) sh) k).
Proof.
  intros u sh k R B <- (_ & ER). pose proof (result_axis _ B) as Rj. pose proof (right_some _ _ _ _ Rj) as Lj.
  set (kk := length (shp R) - S j) in *. assert (Hkk : kk + S j = length (shp R)) by (subst kk; lia).
  assert (Hn : nth kk (shp R) 0 = n) by exact (nth_right _ _ _ _ Hkk Rj).
  unfold Share. rewrite Hn. clear Hn. split; [lia|]. split; [reflexivity|].
  intros idx Hidx. cbn [apply_on shp elt] in *.
  pose proof (start_part c n Hc) as SP. apply inshape_right in Hidx. destruct Hidx as [HL HI]. rewrite length_set_nth in HL.
  assert (HI' : forall q x m, right q idx = Some x -> right q (shp R) = Some m -> if q =? j then x < part c n else x < m).
  { intros q x m Hx Hm. specialize (HI q x). rewrite (right_set_nth _ _ j) in HI by lia. destruct (Nat.eqb_spec q j); auto. }
  destruct (ER (shift kk (start c n) idx)) as (is & F & ->).
  { apply inshape_right. rewrite length_shift. split; [exact HL|]. intros q x m. rewrite (right_shift _ j) by lia.
    intros Hx Hm. destruct (right q idx) as [y|] eqn:Ey; [|destruct (q =? j); discriminate].
    specialize (HI' _ _ _ Ey Hm). destruct (Nat.eqb_spec q j) as [->|]; cbn [option_map] in Hx; injection Hx as <-; [|exact HI'].
    rewrite Rj in Hm. injection Hm as <-. lia. }
  f_equal.
  assert (GG : forall ins Gs0 is0, Forall2 (StandsFor c j n) ins Gs0 ->
     Forall2 (fun G i => Reads (shp G) (shift kk (start c n) idx) i) Gs0 is0 ->
     (forall G, In G Gs0 -> In G Gs) ->
     map (fun a => elt a (bindex (shp a) idx)) (map local_of ins) = map (fun '(G, i) => elt G i) (combine Gs0 is0)).
  { intros ins Gs0 is0 H1. revert is0. induction H1 as [|i G ins Gs0 HSF _ IH]; intros is0 H2 Hin.
    - reflexivity.
    - inversion H2 as [|G' i' Gs' is' HR HF]; subst. cbn [map combine]. f_equal.
      + assert (HG : In G Gs) by (apply Hin; now left).
        replace kk with (length idx - S j) in HR by (subst kk; lia).
        destruct B as (B1 & _ & B3). eapply read_local; eauto.
        * rewrite HL. lia.
        * rewrite HL. apply B1, in_map, HG.
        * intros x m Hx Hm Nm. destruct (stands_right _ _ _ _ _ j HSF) as (_ & _ & [[_ E]|(_ & E1 & E2)]).
          -- rewrite E in Hm. injection Hm as <-. specialize (HI' j x n Hx Rj). now rewrite Nat.eqb_refl in HI'.
          -- exfalso. apply Nm, E1. congruence.
        * intros x Hx. specialize (HI' j x n Hx Rj). now rewrite Nat.eqb_refl in HI'.
        * intros q x m Nq Hx Hm.
          destruct (right_lt _ (shp R) q) as [m' Hm']; [rewrite <- HL; exact (right_some _ _ _ _ Hx)|].
          destruct (proj1 (B3 _ _ Hm') _ _ (in_map shp _ _ HG) Hm) as [->| ->]; [now left|right].
          specialize (HI' q x m' Hx Hm'). destruct (Nat.eqb_spec q j); [lia|exact HI'].
      + apply IH; auto. intros; apply Hin; now right. }
  apply GG; auto.
Qed.
End Inputs.
End WithA.
