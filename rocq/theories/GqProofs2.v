(** Proofs about the quickselect over any numbers: it follows the exact one while the sums are exact. *)
From Coq Require Import List ZArith Bool Arith Permutation Lia.
From Verif Require Import PyBase MedModel MedSpec MedProofs MedProofs2 MedProofs3 QselModel QselProofs QselProofs2 GqModel GqSpec.
Import ListNotations.
Open Scope Z_scope.

(** *** Results that agree *)
Definition rrel {A B} (P : A -> B -> Prop) (a : res A) (b : res B) : Prop :=
  match a, b with Ok x, Ok y => P x y | Err e, Err e' => e = e' | _, _ => False end.
Lemma rrel_bind : forall A B A' B' (P : A -> B -> Prop) (Q : A' -> B' -> Prop) a b f g,
  rrel P a b -> (forall x y, P x y -> rrel Q (f x) (g y)) -> rrel Q (rbind a f) (rbind b g).
Proof. intros A B A' B' P Q [x|e] [y|e'] f g H HF; cbn in *; auto; contradiction. Qed.

Section Sim.
Context {D W S : Type} (o : ops D W S).
Context (rd_ : D -> Z -> Prop) (rw : W -> Z -> Prop) (RL RQ : S -> Z -> Prop) (B : Z).
Context (H_lt : forall d u d' u', rd_ d u -> rd_ d' u' -> d_lt o d d' = (u <? u')).
Context (H_pos : forall w n, rw w n -> w_pos o w = (0 <? n)).
Context (H_zero : forall w n, rw w n -> w_zero o w = (n =? 0)).
Context (H_start : RL (s_zero o) 0).
Context (H_add : forall s z w n, RL s z -> rw w n -> RL (s_add o s w) (z + n)).
Context (H_eq : forall s z s' z', RQ s z -> RL s' z' -> 0 <= z' <= B -> s_eq o s s' = (z =? z')).
Context (H_le : forall s z s' z', RQ s z -> RL s' z' -> 0 <= z' <= B -> s_le o s s' = (z <=? z')).
Context (H_sub : forall s z s' z', RQ s z -> RL s' z' -> 0 <= z' <= B -> z' < z -> RQ (s_sub o s s') (z - z')).

Definition rx (x : D * W) (y : datum) : Prop := rd_ (fst x) (fst y) /\ rw (snd x) (snd y).
Notation rl := (Forall2 rx).

Lemma rl_length : forall l z, rl l z -> length l = length z.
Proof. intros l z H. induction H; cbn; auto. Qed.
Lemma read_sim : forall l z k, rl l z -> rrel rx (gread l k) (rd z k).
Proof.
  intros l z k H. revert k. induction H as [|x y l z Hx H IH]; intros [|k]; cbn; auto. apply IH.
Qed.
Lemma set_sim : forall l z k x y, rl l z -> rx x y -> rl (gset k x l) (upd k y z).
Proof.
  intros l z k x y H Hx. revert k. induction H as [|a b l z Ha H IH]; intros [|k]; cbn; constructor; auto.
Qed.

Lemma up_sim : forall fuel l z p p' ii wl wz, rl l z -> rd_ p p' -> RL wl wz ->
  rrel (fun a b => fst a = fst b /\ RL (snd a) (snd b)) (gup o fuel l p ii wl) (scan_up fuel z p' ii wz).
Proof.
  induction fuel as [|fuel IH]; intros l z p p' ii wl wz Hl Hp Hw; [reflexivity|]. cbn [gup scan_up].
  eapply rrel_bind; [now apply read_sim|]. intros x y [Hx Hxw]. rewrite (H_lt _ _ _ _ Hx Hp).
  destruct (fst y <? p'); [apply IH; auto|]. cbn. auto.
Qed.
Lemma down_sim : forall fuel l z p p' jj, rl l z -> rd_ p p' ->
  rrel eq (gdown o fuel l p jj) (scan_down fuel z p' jj).
Proof.
  induction fuel as [|fuel IH]; intros l z p p' jj Hl Hp; [reflexivity|]. cbn [gdown scan_down].
  eapply rrel_bind; [now apply read_sim|]. intros x y [Hx Hxw]. rewrite (H_lt _ _ _ _ Hp Hx).
  destruct (p' <? fst y); [|reflexivity]. destruct jj; [reflexivity|]. now apply IH.
Qed.
Lemma partition_sim : forall fuel l z p p' ii jj wl wz, rl l z -> rd_ p p' -> RL wl wz ->
  rrel (fun a b => rl (fst (fst a)) (fst (fst b)) /\ snd (fst a) = snd (fst b) /\ RL (snd a) (snd b))
    (gpartition o fuel l p ii jj wl) (partition fuel z p' ii jj wz).
Proof.
  induction fuel as [|fuel IH]; intros l z p p' ii jj wl wz Hl Hp Hw; [reflexivity|]. cbn [gpartition partition].
  rewrite (rl_length _ _ Hl).
  eapply rrel_bind; [now apply up_sim|]. intros [i1 w1] [i2 w2] [E HW]. cbn in E, HW. subst i2.
  eapply rrel_bind; [now apply down_sim|]. intros j1 j2 <-.
  destruct (j1 <=? i1)%nat.
  - destruct (i1 =? j1)%nat; [|cbn; auto].
    eapply rrel_bind; [now apply read_sim|]. intros x y [Hx Hxw]. cbn. auto.
  - eapply rrel_bind; [now apply read_sim|]. intros x y Hx.
    eapply rrel_bind; [now apply read_sim|]. intros x2 y2 Hx2.
    apply IH; [|assumption|apply H_add; [assumption|apply Hx2]].
    apply set_sim; [|exact Hx]. now apply set_sim.
Qed.
Lemma best_sim : forall f g l z, (forall d u d' u', rd_ d u -> rd_ d' u' -> f d d' = g u u') -> rl l z ->
  forall iis cur, rrel eq (gbest o f l cur iis) (best_loop g z cur iis).
Proof.
  intros f g l z Hf Hl. induction iis as [|ii iis IH]; intros cur; [reflexivity|]. cbn [gbest best_loop].
  eapply rrel_bind; [now apply read_sim|]. intros x y [Hx Hxw].
  eapply rrel_bind; [now apply read_sim|]. intros x2 y2 [Hx2 Hxw2].
  rewrite (H_pos _ _ Hxw), (H_pos _ _ Hxw2), (Hf _ _ _ _ Hx2 Hx).
  destruct (Bool.eqb _ _); [destruct (g _ _); apply IH|]. destruct (0 <? snd y2); apply IH.
Qed.
Definition arel (a : answer D) (f : Z * Z) : Prop := exists b, answer_units rd_ a b /\ fraction b = f.
Lemma boundary_sim : forall l z jj m, rl l z -> rrel arel (gboundary o l jj m) (boundary z jj m).
Proof.
  intros l z jj m Hl. unfold gboundary, boundary, gmax, gmin, max_non_zero, min_non_zero.
  eapply rrel_bind; [apply best_sim; [|exact Hl]; intros; now apply H_lt|]. intros i i' <-.
  rewrite (rl_length _ _ Hl).
  eapply rrel_bind; [apply best_sim; [|exact Hl]; intros; now apply H_lt|]. intros j j' <-.
  eapply rrel_bind; [now apply read_sim|]. intros y v [Hy Hyw].
  eapply rrel_bind; [now apply read_sim|]. intros x u [Hx Hxw].
  rewrite (H_zero _ _ Hxw), (H_pos _ _ Hxw), (H_zero _ _ Hyw), (H_pos _ _ Hyw).
  destruct (_ || _); [exists (One (fst u)); cbn; auto|].
  destruct (_ || _); [exists (One (fst v)); cbn; auto|]. exists (Mean (fst u) (fst v)). cbn. auto.
Qed.

Lemma slice_total : forall (z : list datum) a b c, (a <= b <= c)%nat -> nonneg (lslice a c z) ->
  0 <= weight_total (lslice a b z) /\ 0 <= weight_total (lslice b c z) /\ nonneg (lslice a b z) /\ nonneg (lslice b c z) /\
  weight_total (lslice a c z) = weight_total (lslice a b z) + weight_total (lslice b c z).
Proof.
  intros z a b c H Hn. rewrite <- (lslice_app _ a b c) in * by lia. unfold nonneg in *.
  apply Forall_app in Hn as [Ha Hb]. rewrite weight_total_app.
  repeat split; auto; [apply (sum_weights_bounds (fun _ => true) _ Ha)|apply (sum_weights_bounds (fun _ => true) _ Hb)].
Qed.

Theorem select_sim : forall fuel l z i j qs qz m, rl l z -> (i < j < length z)%nat ->
  nonneg (lslice i (j + 1) z) -> weight_total (lslice i (j + 1) z) <= B -> RQ qs qz ->
  rrel arel (gselect o fuel l i j qs m) (select fuel z i j qz m).
Proof.
  induction fuel as [|fuel IH]; intros l z i j qs qz m Hl Hij Hn HB Hq; [reflexivity|]. cbn [gselect select].
  assert (Hm : (i <= (i + j) / 2 <= j)%nat).
  { split; [apply Nat.div_le_lower_bound|apply Nat.div_le_upper_bound]; lia. }
  pose proof (read_sim l z ((i + j) / 2) Hl) as HR.
  destruct (partition_start z i j) as (z1 & jj & wz & E1 & Dn); [lia|lia|].
  rewrite rd_get in * by lia. cbn [rbind].
  destruct (gread l ((i + j) / 2)) as [pv|]; [|contradiction]. cbn [rbind]. destruct HR as [Hp _].
  pose proof (partition_sim (Datatypes.S (length z)) l z (fst pv) _ i j (s_zero o) 0 Hl Hp H_start) as PS.
  rewrite E1 in *. cbn [rbind]. rewrite (rl_length _ _ Hl).
  destruct (gpartition o _ l (fst pv) i j (s_zero o)) as [[[l1 jj1] wl]|]; [|contradiction].
  cbn in PS. destruct PS as (Hl1 & -> & HW). cbn [rbind].
  destruct Dn as [Dlen Dout Dperm Dleft Dright Dwl Djj Dlast].
  assert (Hn1 : nonneg (lslice i (j + 1) z1)) by (eapply nonneg_perm; [apply Permutation_sym|]; eassumption).
  pose proof (sum_weights_perm (fun _ => true) _ _ Dperm) as Ht. fold (weight_total (lslice i (j + 1) z1)) in Ht.
  fold (weight_total (lslice i (j + 1) z)) in Ht.
  destruct (slice_total z1 i (jj + 1) (j + 1)) as (T1 & T2 & N1 & N2 & T3); [lia|exact Hn1|].
  rewrite <- Dwl in *.
  rewrite (H_eq _ _ _ _ Hq HW) by lia. rewrite (H_le _ _ _ _ Hq HW) by lia.
  destruct (Z.eqb_spec qz wz) as [Heq|Hne]; [now apply boundary_sim|].
  assert (G : forall i' j' qs' qz', (i' <= j' < length z)%nat -> nonneg (lslice i' (j' + 1) z1) ->
    weight_total (lslice i' (j' + 1) z1) <= B -> RQ qs' qz' ->
    rrel arel (if (i' =? j')%nat then rbind (gread l1 i') (fun x => Ok (One (fst x))) else gselect o fuel l1 i' j' qs' m)
      (if (i' =? j')%nat then rbind (rd z1 i') (fun x => Ok (fst x, 1)) else select fuel z1 i' j' qz' m)).
  { intros i' j' qs' qz' A1 A2 A3 A4. destruct (Nat.eqb_spec i' j') as [He|Hn'].
    - eapply rrel_bind; [now apply read_sim|]. intros x y [Hx _]. exists (One (fst y)). cbn. auto.
    - apply IH; auto. lia. }
  destruct (Z.leb_spec qz wz) as [Hle|Hgt].
  - apply G; auto; [lia|]. rewrite <- Dwl. lia.
  - apply G; auto; [lia|lia|]. apply H_sub; auto; lia.
Qed.

Theorem quickselect_sim : forall l z qs qz m, rl l z -> nonneg z -> weight_total z <= B -> 0 <= qz <= weight_total z ->
  (2 <= length z)%nat \/ qz < weight_total z -> RQ qs qz ->
  rrel arel (gquickselect o l qs m) (quickselect_weight z qz m).
Proof.
  intros l z qs qz m Hl Hn HB Hz Hq HQ. unfold gquickselect, quickselect_weight.
  pose proof (rl_length _ _ Hl) as HL.
  destruct z as [|u z]; [destruct l; [reflexivity|discriminate]|].
  destruct z as [|u' z].
  - (* one element *)
    inversion Hl as [|x ? ? ? [Hx Hw] Hr]; subst. inversion Hr; subst.
    destruct Hq as [Hq|Hq]; [cbn in Hq; lia|]. cbn in Hq, Hz, HB. rewrite Z.add_0_r in *.
    cbn -[gboundary boundary].
    rewrite (H_lt _ _ _ _ Hx Hx), Z.ltb_irrefl. cbn -[gboundary boundary].
    pose proof (H_add _ _ _ _ H_start Hw) as HA. rewrite Z.add_0_l in HA.
    rewrite (H_eq _ _ _ _ HQ HA), (H_le _ _ _ _ HQ HA) by lia.
    destruct (Z.eqb_spec qz (snd u)); [lia|]. destruct (Z.leb_spec qz (snd u)); [|lia]. cbn.
    exists (One (fst u)). cbn. auto.
  - destruct l as [|x l]; [discriminate|]. rewrite <- HL. apply select_sim; auto.
    + rewrite HL. cbn. lia.
    + rewrite HL. replace (length (u :: u' :: z) - 1 + 1)%nat with (length (u :: u' :: z)) by (cbn; lia).
      unfold lslice. rewrite Nat.sub_0_r. cbn [skipn]. now rewrite firstn_all.
    + rewrite HL. replace (length (u :: u' :: z) - 1 + 1)%nat with (length (u :: u' :: z)) by (cbn; lia).
      unfold lslice. rewrite Nat.sub_0_r. cbn [skipn]. now rewrite firstn_all.
Qed.
End Sim.

(** *** The exact instance is the exact model *)
Lemma arel_fraction : forall a f, arel (@eq Z) a f -> fraction a = f.
Proof. intros [x|x y] f ([u|u v] & H & E); cbn in *; try contradiction; [now subst|]. destruct H. now subst. Qed.
