(** Gathering arrays in memory. *)
From Coq Require Import List Bool Arith ZArith Lia.
From Verif Require Import PyBase PartModel PartSpec PartProofs SliceModel RedModel RedSpec RedProofs ArrModel ArrSpec ArrProofs LayModel LaySpec LayProofs.
Import ListNotations.
Open Scope nat_scope.

Section Bytes.
Context {B : Type}.

Lemma share_shape : forall A (G : list nat -> A) gshape m k q arr, k < length gshape -> IsShare G gshape m k q arr -> shp arr <> [].
Proof.
  intros A G gshape m k q arr K [E _] N. rewrite E in N. unfold set_nth in N. apply app_eq_nil in N as [_ N].
  destruct (skipn k gshape) eqn:X; [|discriminate]. apply (f_equal (@length nat)) in X. rewrite skipn_length in X. cbn in X. lia.
Qed.
Lemma share_ext : forall A (G : list nat -> A) gshape m k q x y, IsShare G gshape m k q x -> shp y = shp x ->
  (forall idx, InShape idx (shp x) -> elt y idx = elt x idx) -> IsShare G gshape m k q y.
Proof. intros A G gshape m k q x y [S1 S2] E H. split; [congruence|]. intros idx I. rewrite E in I. rewrite H by auto. now apply S2. Qed.

(** Gathering messages which hold the items in C order. *)
Lemma gather_messages : forall (G : list nat -> list B) gshape m k axis root crank known (mm : nat -> mem B) (a : nat -> array) msg,
  1 <= m -> root < m -> Names (length gshape) axis k ->
  (forall q, q < m -> IsShare G gshape m k q (value (mm q) (a q))) ->
  (forall q, q < m -> prep_buf known (mm q) (a q) = Ok (msg q)) ->
  (forall q idx, q < m -> InShape idx (a_shape (a q)) -> firstn (a_item (a q)) (skipn (a_item (a q) * c_index (a_shape (a q)) idx) (msg q)) = elem (mm q) (a q) idx) ->
  (crank = root -> exists arr, gather_mem known gshape m axis mm a root crank = Ok (Some arr) /\ IsWhole G gshape arr)
  /\ (crank <> root -> gather_mem known gshape m axis mm a root crank = Ok None).
Proof.
  intros G gshape m k axis root crank known mm a msg M R N S_ P E.
  unfold gather_mem. rewrite (rsequence_map_ok _ _ _ msg) by (intros j J; apply P; apply in_seq in J; lia). cbn [rbind].
  set (locals := fun q => received _ _ _).
  assert (L: forall q, q < m -> IsShare G gshape m k q (locals q)).
  { intros q Q. apply (share_ext _ _ _ _ _ _ (value (mm q) (a q))); [auto|reflexivity|]. intros idx I. cbn in I. unfold locals, received, value. cbn [elt].
    f_equal. rewrite <- (E q idx Q I). rewrite (nth_indep _ [] (msg 0)) by (rewrite map_length, seq_length; lia).
    rewrite map_nth, seq_nth by lia. reflexivity. }
  destruct (gather_whole _ G gshape m axis k locals root M R N L) as [(arr & G1 & G2) G3]. split.
  - intros ->. exists arr. split; auto.
  - intros C. now apply G3.
Qed.

Theorem gather_c : forall (G : list nat -> list B) gshape m k axis root crank known (mm : nat -> mem B) (a : nat -> array),
  1 <= m -> root < m -> Names (length gshape) axis k ->
  (forall q, q < m -> Sound (a q) /\ c_flag (a q) = true /\ IsShare G gshape m k q (value (mm q) (a q))) ->
  (crank = root -> exists arr, gather_mem known gshape m axis mm a root crank = Ok (Some arr) /\ IsWhole G gshape arr)
  /\ (crank <> root -> gather_mem known gshape m axis mm a root crank = Ok None).
Proof.
  intros G gshape m k axis root crank known mm a M R N S_.
  apply (gather_messages G gshape m k axis root crank known mm a (fun q => map (fun j => mm q (v_off (a_view (a q)) + Z.of_nat j)%Z) (seq 0 (nbytes (a q))))); auto.
  - intros q Q. now apply S_.
  - intros q Q. destruct (S_ q Q) as (W & C & I). apply prep_c; auto. apply (share_shape _ _ _ _ _ _ _ (proj1 N) I).
  - intros q idx Q I. destruct (S_ q Q) as (W & C & _). now apply received_c.
Qed.

(** Compound types of two bytes or more: right, or an error. *)
Lemma rsequence_ok_inv : forall A C (f : A -> res C) l r, rsequence (map f l) = Ok r -> forall x, In x l -> exists y, f x = Ok y.
Proof.
  induction l as [|x l IH]; intros r H y I; [destruct I|]. cbn [map rsequence] in H. destruct (f x) as [u|] eqn:E; cbn [rbind] in H; [|discriminate].
  destruct (rsequence (map f l)) as [us|] eqn:F; cbn [rbind] in H; [|discriminate]. destruct I as [<-|I]; [eauto|]. eapply IH; eauto.
Qed.
Theorem gather_compound : forall (G : list nat -> list B) gshape m k axis root crank (mm : nat -> mem B) (a : nat -> array) r,
  1 <= m -> root < m -> Names (length gshape) axis k ->
  (forall q, q < m -> Sound (a q) /\ 2 <= a_item (a q) /\ IsShare G gshape m k q (value (mm q) (a q))) ->
  gather_mem false gshape m axis mm a root crank = Ok r ->
  (forall q, q < m -> c_flag (a q) = true) /\ match r with Some arr => crank = root /\ IsWhole G gshape arr | None => crank <> root end.
Proof.
  intros G gshape m k axis root crank mm a r M R N S_ H.
  assert (C: forall q, q < m -> c_flag (a q) = true).
  { intros q Q. unfold gather_mem in H. destruct (rsequence _) as [msgs|] eqn:E; [|discriminate].
    destruct (rsequence_ok_inv _ _ _ _ _ E q) as [y Y]; [apply in_seq; lia|]. destruct (S_ q Q) as (W & I & S1).
    rewrite prep_compound in Y; [|auto|apply (share_shape _ _ _ _ _ _ _ (proj1 N) S1)|lia]. destruct (c_flag (a q)); [reflexivity|discriminate]. }
  split; [exact C|]. destruct (gather_c G gshape m k axis root crank false mm a M R N) as [G1 G2].
  { intros q Q. destruct (S_ q Q) as (W & _ & S1). auto. }
  destruct (Nat.eq_dec crank root) as [E|E].
  - destruct (G1 E) as (arr & A1 & A2). rewrite A1 in H. injection H as <-. auto.
  - rewrite (G2 E) in H. injection H as <-. auto.
Qed.

(** * Fortran order *)
Theorem received_f : forall (m : mem B) a idx, Sound a -> f_flag a = true -> InShape idx (a_shape a) ->
  firstn (a_item a) (skipn (a_item a * c_index (a_shape a) idx) (map (fun k => m (v_off (a_view a) + Z.of_nat k)%Z) (seq 0 (nbytes a))))
  = elem m a (unravel_f (a_shape a) (c_index (a_shape a) idx)).
Proof.
  intros m a idx W F H. unfold nbytes. pose proof (c_index_lt _ _ H) as L. rewrite buffer_item by exact L.
  destruct (unravel_f_in _ _ L) as [I E]. unfold elem. rewrite f_addr by auto. now rewrite E.
Qed.
(** A layout that is not C order has an element that is not at its place in C order. *)
Lemma misplaced : forall shape strides b, length strides = length shape -> existsb (Nat.eqb 0) shape = false ->
  contiguous_from b (rev (combine shape strides)) = false ->
  exists idx, InShape idx shape /\ dot idx strides <> Z.of_nat (b * c_index shape idx).
Proof.
  intros shape strides b. revert strides. induction shape as [|d shape IH]; intros strides L Z C; [destruct strides; discriminate|].
  destruct strides as [|s strides]; [discriminate|]. cbn [length] in L. cbn [existsb] in Z. apply orb_false_iff in Z as [Zd Z]. apply Nat.eqb_neq in Zd.
  cbn [combine rev] in C. rewrite contiguous_app in C. rewrite map_rev, combine_fst, count_rev in C by lia.
  assert (P: forall sh, existsb (Nat.eqb 0) sh = false -> InShape (map (fun _ => 0) sh) sh /\ (forall st, dot (map (fun _ => 0) sh) st = 0%Z) /\ c_index sh (map (fun _ => 0) sh) = 0).
  { clear. induction sh as [|e sh IH]; intros H; [split; [constructor|]; split; reflexivity|]. cbn [existsb] in H. apply orb_false_iff in H as [H1 H2]. apply Nat.eqb_neq in H1.
    destruct (IH H2) as (I1 & I2 & I3). cbn [map c_index]. split; [constructor; [lia|auto]|]. split; [|lia]. intros [|x st]; cbn [dot]; [reflexivity|]. rewrite I2. lia. }
  destruct (contiguous_from b (rev (combine shape strides))) eqn:E; cbn [andb] in C.
  - cbn [contiguous_from] in C. destruct (d =? 1) eqn:D; [discriminate|]. apply Nat.eqb_neq in D. rewrite andb_true_r in C. apply Z.eqb_neq in C.
    destruct (P shape Z) as (P1 & P2 & P3). exists (1 :: map (fun _ => 0) shape). split; [constructor; [lia|auto]|]. cbn [dot c_index]. rewrite P2, P3. lia.
  - destruct (IH strides ltac:(lia) Z E) as (idx & I1 & I2). exists (0 :: idx). split; [constructor; [lia|auto]|]. cbn [dot c_index]. intros X. apply I2. lia.
Qed.
End Bytes.
